(** * PLong: parsing texts of any length. *)

From Coq Require Import ZifyBool ZifyNat ZifyN.
From Verif Require Import Base Arith Strings Bv Spec TextSpec CallSpec ParseSpec Unwind LongSpec PWords PArith PShift PropsArith PConv
  PText PParse PropsText PropsTextMore PReading PUnwind.
Ltac Zify.zify_post_hook ::= idtac.

(** ** Both loops in one *)
Fixpoint ugloop (dv : N -> option N) (b per : N) (epi : eff (list N) (option int_error_kind)) (m : mode)
  (num : N) (digits : list N) (ii out_ii word : N) : eff (list N) (option int_error_kind) :=
  match digits with
  | [] =>
      do _ <- look (fun _ => debug_assert m (out_ii =? 0)) ;;
      do _ <- write (fun out => set_idx out 0 word) ;;
      epi
  | cc :: rest =>
      do t <- look (fun _ => usz_sub m num ii) ;;
      do ii_rev <- look (fun _ => usz_sub m t 1) ;;
      do (out_ii, word) <-
        (if (0 <? ii) && ((ii_rev + 1) mod per =? 0) then
           do _ <- write (fun out => set_idx out out_ii word) ;;
           do out_ii <- look (fun _ => usz_sub m out_ii 1) ;;
           ret (out_ii, 0)
         else ret (out_ii, word)) ;;
      match dv cc with
      | None => ret (Some InvalidDigit)
      | Some value => ugloop dv b per epi m num rest (ii + 1) out_ii (N.lor (wshl word b) value)
      end
  end.

Lemma seq_ext {S A B} (e : eff S A) (k k' : A -> eff S B) s :
  (forall a s', k a s' = k' a s') -> seq_ e k s = seq_ e k' s.
Proof. intros H. unfold seq_. destruct (e s); auto. Qed.

Lemma uloop2 m num digits : forall ii o word out,
  un_parse_base_2_loop m num digits ii o word out
  = ugloop bin_digit_value 1 64 (ret None) m num digits ii o word out.
Proof.
  induction digits as [|c t IH]; intros ii o word out; cbn [un_parse_base_2_loop ugloop]; [reflexivity|].
  apply seq_ext. intros x s1. apply seq_ext. intros y s2. apply seq_ext. intros (o1 & w1) s3.
  destruct (bin_digit_value c); auto.
Qed.

Lemma uloop16 m num digits : forall ii o word out,
  un_parse_base_16_loop m num digits ii o word out
  = ugloop hex_digit_value 4 16 (do _ <- look (fun _ => u32_mul m (as_u32 num) 4) ;; ret None) m num digits ii o word out.
Proof.
  induction digits as [|c t IH]; intros ii o word out; cbn [un_parse_base_16_loop ugloop]; [reflexivity|].
  apply seq_ext. intros x s1. apply seq_ext. intros y s2. apply seq_ext. intros (o1 & w1) s3.
  destruct (hex_digit_value c); auto.
Qed.

Lemma ustep dv b per epi m num c s ii o word out t v :
  usz_sub m num ii = Ok t -> usz_sub m t 1 = Ok v ->
  ugloop dv b per epi m num (c :: s) ii o word out
  = if (0 <? ii) && ((v + 1) mod per =? 0) then
      match set_idx out o word with
      | Panic p => Unwound out p
      | Ok out1 =>
          match usz_sub m o 1 with
          | Panic p => Unwound out1 p
          | Ok o1 =>
              match dv c with
              | None => Returned out1 (Some InvalidDigit)
              | Some d => ugloop dv b per epi m num s (ii + 1) o1 (N.lor (wshl 0 b) d) out1
              end
          end
      end
    else match dv c with
         | None => Returned out (Some InvalidDigit)
         | Some d => ugloop dv b per epi m num s (ii + 1) o (N.lor (wshl word b) d) out
         end.
Proof.
  intros E1 E2. cbn [ugloop]. unfold seq_ at 1. unfold look at 1. rewrite E1.
  unfold seq_ at 1. unfold look at 1. rewrite E2. unfold seq_ at 1. destruct (_ && _).
  - unfold seq_ at 1. unfold write. destruct (set_idx out o word); [|reflexivity].
    unfold seq_ at 1. unfold look. destruct (usz_sub m o 1); [|reflexivity]. unfold ret at 1.
    destruct (dv c); reflexivity.
  - unfold ret at 1. destruct (dv c); reflexivity.
Qed.

(** ** How a loop with too many digits ends *)
Definition tears (b per K P r top word : N) (s out : list N) (e : ending (list N) (option int_error_kind)) : Prop :=
  let g := len (leading (2 ^ b) s) in
  let k := N.min K ((g + per - r) / per) in
  exists out', Words out' /\ len out' = len out
    /\ wv out' = (if k =? 0 then wv out
                  else splice (wv out)
                         (leading_number (2 ^ b) (firstn (N.to_nat (r + per * (k - 1))) s)
                          + 2 ^ (b * (r + per * (k - 1))) * word) (top - k) top)
    /\ if P <=? g then exists p, e = Unwound out' p else e = Returned out' (Some InvalidDigit).

Lemma leading_firstn r : forall s n, N.of_nat n <= len (leading r s) ->
  leading r (firstn n s) = firstn n s /\ len (firstn n s) = N.of_nat n.
Proof.
  induction s as [|c t IH]; intros n H.
  - change (len (leading r [])) with 0 in H. assert (n = O) by lia. subst n. split; reflexivity.
  - destruct n as [|n]; [split; reflexivity|]. cbn [firstn leading] in *.
    destruct (digit_value r c); [|change (@len N []) with 0 in H; lia]. rewrite len_cons in *.
    destruct (IH n ltac:(lia)) as (E1 & E2). rewrite E1, E2. split; [reflexivity|lia].
Qed.

(** a digit that starts no new group *)
Lemma tears_more b per K P r top word c d t out e : 0 < b -> 0 < per -> 0 < r -> r <= per -> 0 < P ->
  digit_value (2 ^ b) c = Some d ->
  tears b per K (P - 1) (r - 1) top (2 ^ b * word + d) t out e -> tears b per K P r top word (c :: t) out e.
Proof.
  intros Hb Hp Hr Hrp HP Hd (out' & A & B & C & D). unfold tears. cbn [leading]. rewrite Hd, len_cons.
  set (g := len (leading (2 ^ b) t)) in *.
  replace (g + 1 + per - r) with (g + per - (r - 1)) by (clear - Hr Hrp; lia).
  set (k := N.min K ((g + per - (r - 1)) / per)) in *.
  exists out'. split; [exact A|]. split; [exact B|]. split.
  - rewrite C. destruct (k =? 0) eqn:Ek; [reflexivity|]. apply N.eqb_neq in Ek.
    assert (Lk : per * k <= g + per - (r - 1)).
    { eapply N.le_trans; [apply N.mul_le_mono_l, N.le_min_r|]. apply N.mul_div_le. lia. }
    set (n := r - 1 + per * (k - 1)).
    assert (Ln : n <= g).
    { unfold n. rewrite N.mul_sub_distr_l, N.mul_1_r.
      assert (per <= per * k) by (rewrite <- (N.mul_1_r per) at 1; apply N.mul_le_mono_l; lia).
      clear - Lk H Hr Hrp Hp. lia. }
    replace (r + per * (k - 1)) with (n + 1) by (unfold n; clear - Hr; lia).
    replace (N.to_nat (n + 1)) with (S (N.to_nat n)) by lia. cbn [firstn].
    rewrite (leading_number_cons _ _ _ _ Hd).
    destruct (leading_firstn (2 ^ b) t (N.to_nat n) ltac:(rewrite N2Nat.id; exact Ln)) as (E1 & E2).
    rewrite E1, E2, N2Nat.id, pow_base. f_equal.
    replace (b * (n + 1)) with (b * n + b) by ring. rewrite N.pow_add_r. ring.
  - replace (P <=? g + 1) with (P - 1 <=? g) by (clear - HP; lia). exact D.
Qed.

Lemma tears_bad b per K P r top word c t out : 0 < per -> 0 < r -> r <= per -> 0 < P ->
  Words out -> digit_value (2 ^ b) c = None ->
  tears b per K P r top word (c :: t) out (Returned out (Some InvalidDigit)).
Proof.
  intros Hp Hr Hrp HP HW Hd. unfold tears. cbn [leading]. rewrite Hd. change (@len N []) with 0.
  rewrite (N.div_small (0 + per - r)) by lia. rewrite N.min_0_r. cbn [N.eqb].
  exists out. split; [exact HW|]. split; [reflexivity|]. split; [reflexivity|].
  now replace (P <=? 0) with false by lia.
Qed.

(** the value after one word is written *)
Lemma put_word out o word : Words out -> o < len out -> word < 2 ^ 64 ->
  let out1 := firstn (N.to_nat o) out ++ word :: skipn (S (N.to_nat o)) out in
  Words out1 /\ len out1 = len out
  /\ wv out1 = wv out mod 2 ^ (64 * o) + 2 ^ (64 * o) * (word + 2 ^ 64 * (wv out / 2 ^ (64 * (o + 1)))).
Proof.
  intros HW Ho Hw out1. unfold out1. split; [|split].
  - apply Words_app; [apply Words_firstn; auto|]. constructor; auto.
  - rewrite len_app, len_cons, len_skipn, len_firstn; lia.
  - rewrite wv_app, wv_cons, len_firstn by (clear - Ho; lia).
    rewrite wv_firstn, wv_skipn by auto.
    replace (N.of_nat (N.to_nat o)) with o by lia. replace (N.of_nat (S (N.to_nat o))) with (o + 1) by lia.
    reflexivity.
Qed.

Lemma splice_word x word o y : y = x mod 2 ^ (64 * o) + 2 ^ (64 * o) * (word + 2 ^ 64 * (x / 2 ^ (64 * (o + 1)))) ->
  y = splice x word o (o + 1)
  /\ forall n f, f <= o -> splice y n f o = splice x (n + 2 ^ (64 * (o - f)) * word) f (o + 1).
Proof.
  intros E.
  assert (P64 : 2 ^ (64 * (o + 1)) = 2 ^ (64 * o) * 2 ^ 64).
  { rewrite <- N.pow_add_r. f_equal. lia. }
  assert (Bm : x mod 2 ^ (64 * o) < 2 ^ (64 * o)) by (apply N.mod_upper_bound; auto).
  split.
  - rewrite E. unfold splice. rewrite P64. ring.
  - intros n f Hf. unfold splice.
    assert (A1 : y / 2 ^ (64 * o) = word + 2 ^ 64 * (x / 2 ^ (64 * (o + 1)))).
    { rewrite E, (N.mul_comm (2 ^ (64 * o))), N.div_add, N.div_small by auto. apply N.add_0_l. }
    assert (A2 : y mod 2 ^ (64 * f) = x mod 2 ^ (64 * f)).
    { rewrite E. rewrite (pow_split (64 * f) (64 * o)) at 2 by (clear - Hf; lia).
      rewrite <- N.mul_assoc, (N.mul_comm (2 ^ (64 * f)) (2 ^ (64 * o - 64 * f) * _)).
      rewrite N.mod_add by auto. apply mod_mod_le. clear - Hf. lia. }
    rewrite A1, A2, P64. rewrite (pow_split (64 * f) (64 * o)) by (clear - Hf; lia).
    replace (64 * (o - f)) with (64 * o - 64 * f) by (clear - Hf; lia). ring.
Qed.

(** a digit that starts a new group *)
Lemma tears_group b per K P o word c t out e : 0 < b -> b * per = 64 -> 0 < K -> K <= o + 1 -> 0 < P ->
  Words out -> o < len out -> word < 2 ^ 64 ->
  let out1 := firstn (N.to_nat o) out ++ word :: skipn (S (N.to_nat o)) out in
  match digit_value (2 ^ b) c with
  | Some d => tears b per (K - 1) (P - 1) (per - 1) o d t out1 e
  | None => e = Returned out1 (Some InvalidDigit)
  end -> tears b per K P 0 (o + 1) word (c :: t) out e.
Proof.
  intros Hb Hper HK HKo HP HW Ho Hw out1. assert (Pp : 0 < per) by (destruct per; lia).
  destruct (put_word out o word HW Ho Hw) as (A1 & B1 & C1). fold out1 in A1, B1, C1.
  destruct (splice_word _ _ _ _ C1) as (S1 & S2). unfold tears at 2. cbn [leading].
  destruct (digit_value (2 ^ b) c) as [d|] eqn:Hd.
  - intros (out' & A & B & C & D). rewrite len_cons. set (g := len (leading (2 ^ b) t)) in *.
    replace (g + per - (per - 1)) with (g + 1) in C by (clear - Pp; lia).
    replace (g + 1 + per - 0) with (g + 1 + 1 * per) by (clear; lia). rewrite N.div_add by (clear - Pp; lia).
    set (q := (g + 1) / per) in *. set (k := N.min (K - 1) q) in *.
    replace (N.min K (q + 1)) with (k + 1) by (unfold k; clear - HK; lia).
    replace (k + 1 =? 0) with false by (clear; lia). replace (k + 1 - 1) with k by (clear; lia).
    exists out'. split; [exact A|]. split; [congruence|]. split.
    + rewrite C, N.add_0_l. replace (o + 1 - (k + 1)) with (o - k) by (clear; lia).
      assert (Lk : k <= o) by (unfold k; clear - HKo; lia).
      destruct (k =? 0) eqn:Ek.
      * apply N.eqb_eq in Ek. rewrite Ek, N.mul_0_r, N.sub_0_r, N.mul_0_r. cbn [N.to_nat firstn].
        change (leading_number (2 ^ b) []) with 0. rewrite N.pow_0_r, N.mul_1_l. exact S1.
      * apply N.eqb_neq in Ek.
        assert (Lq : per * k <= g + 1).
        { eapply N.le_trans; [apply N.mul_le_mono_l, N.le_min_r|]. apply N.mul_div_le. lia. }
        set (n := per - 1 + per * (k - 1)).
        assert (En : per * k = n + 1).
        { unfold n. rewrite N.mul_sub_distr_l, N.mul_1_r.
          assert (per <= per * k) by (rewrite <- (N.mul_1_r per) at 1; apply N.mul_le_mono_l; clear - Ek; lia). clear - H Pp. lia. }
        rewrite En. replace (N.to_nat (n + 1)) with (S (N.to_nat n)) by lia. cbn [firstn].
        rewrite (leading_number_cons _ _ _ _ Hd).
        destruct (leading_firstn (2 ^ b) t (N.to_nat n) ltac:(rewrite N2Nat.id; clear - Lq En; lia)) as (E1 & E2).
        rewrite E1, E2, N2Nat.id, pow_base. rewrite S2 by (clear; lia).
        replace (o - (o - k)) with k by (clear - Lk; lia). f_equal.
        replace (b * (n + 1)) with (64 * k) by (rewrite <- En, N.mul_assoc, Hper; reflexivity). ring.
    + replace (P <=? g + 1) with (P - 1 <=? g) by (clear - HP; lia). exact D.
  - intros ->. change (@len N []) with 0. replace (0 + per - 0) with (1 * per) by (clear; lia). rewrite N.div_mul by (clear - Pp; lia).
    replace (N.min K 1) with 1 by (clear - HK; lia). cbn [N.eqb]. replace (P <=? 0) with false by (clear - HP; lia).
    exists out1. split; [exact A1|]. split; [exact B1|]. split; [|reflexivity].
    replace (0 + per * (1 - 1)) with 0 by (clear; lia). replace (o + 1 - 1) with o by (clear; lia).
    rewrite N.mul_0_r, N.pow_0_r, N.mul_1_l. cbn [N.to_nat firstn].
    change (leading_number (2 ^ b) []) with 0. exact S1.
Qed.

(** the last word, after which the position cannot be computed *)
Lemma tears_last b per word c t out p : 0 < per -> Words out -> 0 < len out -> word < 2 ^ 64 ->
  let out1 := firstn (N.to_nat 0) out ++ word :: skipn (S (N.to_nat 0)) out in
  tears b per 1 0 0 1 word (c :: t) out (Unwound out1 p).
Proof.
  intros Pp HW Ho Hw out1. destruct (put_word out 0 word HW Ho Hw) as (A1 & B1 & C1). fold out1 in A1, B1, C1.
  destruct (splice_word _ _ _ _ C1) as (S1 & _). unfold tears.
  set (g := len (leading (2 ^ b) (c :: t))). replace (g + per - 0) with (g + 1 * per) by (clear; lia).
  rewrite N.div_add by (clear - Pp; lia). rewrite (N.min_l 1 (g / per + 1)) by (generalize (g / per); clear; intros; lia). cbn [N.eqb].
  replace (0 <=? g) with true by (clear; lia).
  exists out1. split; [exact A1|]. split; [exact B1|]. split; [|eauto].
  replace (0 + per * (1 - 1)) with 0 by (clear; lia). replace (1 - 1) with 0 by (clear; lia).
  rewrite N.mul_0_r, N.pow_0_r, N.mul_1_l. cbn [N.to_nat firstn].
  change (leading_number (2 ^ b) []) with 0. exact S1.
Qed.

(** the position within a group, also when positions wrap *)
Lemma step_at m per num ii r : m = Release \/ ii < num -> per = 16 \/ per = 64 -> ii < 2 ^ 64 -> num < 2 ^ 64 ->
  (ii + r) mod per = num mod per ->
  exists t v, usz_sub m num ii = Ok t /\ usz_sub m t 1 = Ok v /\ (v + 1) mod per = r mod per.
Proof.
  intros Hm Hp Hi Hn E. change (2 ^ 64) with 18446744073709551616 in *.
  assert (F : exists v, (let* t := usz_sub m num ii in usz_sub m t 1) = Ok v
    /\ (v + 1 = num - ii /\ ii < num \/ v + 1 = num + 18446744073709551616 - ii /\ num <= ii)).
  { unfold usz_sub, as_u64, B64. destruct (N.leb_spec ii num); cbn [bind].
    - destruct (N.leb_spec 1 (num - ii)).
      + eexists. split; [reflexivity|]. left. lia.
      + destruct Hm as [->|Hm]; [|lia]. eexists. split; [reflexivity|]. right. rewrite N.mod_small by lia. lia.
    - destruct Hm as [->|Hm]; [|lia]. cbn [bind].
      rewrite N.mod_small by lia. destruct (N.leb_spec 1 (num + 18446744073709551616 - ii)); [|lia].
      eexists. split; [reflexivity|]. right. lia. }
  destruct F as (v & F1 & F2). destruct (usz_sub m num ii) as [t|] eqn:Et; [|discriminate]. cbn [bind] in F1.
  exists t, v. split; [reflexivity|]. split; [exact F1|]. clear - F2 E Hp Hi.
  destruct Hp as [-> | ->]; destruct F2 as [(-> & L)|(-> & L)]; revert E; dlia.
Qed.

Lemma lor_zero b d : N.lor (wshl 0 b) d = d.
Proof.
  unfold wshl. rewrite N.shiftl_0_l. unfold as_u64. rewrite N.mod_0_l by (rewrite B64_eq; auto). apply N.lor_0_l.
Qed.

(** the next digit within a group *)
Lemma next_digit b per r word d : 0 < b -> b < 64 -> b * per = 64 -> 0 < r -> r <= per ->
  word < 2 ^ (64 - b * r) -> d < 2 ^ b ->
  N.lor (wshl word b) d = 2 ^ b * word + d /\ 2 ^ b * word + d < 2 ^ (64 - b * (r - 1)).
Proof.
  intros Hb Hb2 Hper Hr Hrp Hw Hd.
  assert (L1 : b * r <= 64) by (rewrite <- Hper; apply N.mul_le_mono_l; auto).
  assert (L2 : b * (r - 1) = b * r - b) by (rewrite N.mul_sub_distr_l; lia).
  assert (L3 : b <= b * r) by (clear - Hr; nia).
  apply shift_in; auto; try lia. replace (64 - b * (r - 1) - b) with (64 - b * r) by lia. auto.
Qed.

(** no word to write *)
Lemma doomed m dv b per epi num s : 0 < b -> b < 64 -> b * per = 64 -> per = 16 \/ per = 64 ->
  (forall c, dv c = digit_value (2 ^ b) c) -> num < 2 ^ 64 ->
  forall ii o word r out, m = Release \/ num = ii + len s ->
  Words out -> len out <= o -> r <= per -> (r = per -> ii = 0) -> (r = 0 -> 0 < ii) ->
  (ii + r) mod per = num mod per -> r < len s -> ii + len s < 2 ^ 64 ->
  exists e, ugloop dv b per epi m num s ii o word out = e
    /\ if r <=? len (leading (2 ^ b) s) then exists p, e = Unwound out p else e = Returned out (Some InvalidDigit).
Proof.
  intros Hb Hb2 Hper Hper2 Hdv Hn. induction s as [|c t IH]; intros ii o word r out Hm HW Ho Hr H1 H2 E Hlen Hi.
  { change (@len N []) with 0 in Hlen. lia. }
  rewrite len_cons in *. assert (Pp : 0 < per) by (clear - Hper2; lia).
  destruct (step_at m per num ii r ltac:(destruct Hm as [Hm|Hm]; [left; exact Hm|right; clear - Hm; lia]) Hper2 ltac:(clear - Hi; lia) Hn E) as (u & v & E1 & E2 & E3).
  rewrite (ustep _ _ _ _ _ _ _ _ _ _ _ _ u v E1 E2). eexists. split; [reflexivity|]. rewrite E3.
  destruct (N.eq_dec r 0) as [R0|R0].
  - subst r. rewrite N.mod_0_l by (clear - Pp; lia). replace (0 <? ii) with true by (specialize (H2 eq_refl); clear - H2; lia).
    cbn [andb N.eqb]. rewrite set_idx_panic by auto.
    replace (0 <=? len (leading (2 ^ b) (c :: t))) with true by (clear; lia). eauto.
  - replace ((0 <? ii) && (r mod per =? 0)) with false.
    2:{ destruct (N.eq_dec r per) as [Rp|Rp]; [rewrite (H1 Rp); reflexivity|].
        rewrite N.mod_small by (clear - Rp Hr; lia). replace (r =? 0) with false by (clear - R0; lia). now rewrite andb_false_r. }
    rewrite Hdv. cbn [leading]. destruct (digit_value (2 ^ b) c) as [d|].
    + destruct (IH (ii + 1) o (N.lor (wshl word b) d) (r - 1) out) as (e & Ee & G); auto;
        try (clear - Hr R0 H1 Hlen Hi; lia); try (destruct Hm as [Hm|Hm]; [left; exact Hm|right; clear - Hm; lia]).
      { rewrite <- E. f_equal. clear - R0. lia. }
      rewrite len_cons. replace (r <=? len (leading (2 ^ b) t) + 1) with (r - 1 <=? len (leading (2 ^ b) t)) by (clear - R0; lia).
      rewrite Ee. exact G.
    + change (@len N []) with 0. now replace (r <=? 0) with false by (clear - R0; lia).
Qed.

Lemma doomed_tears b per r top word s out e : Words out ->
  (if r <=? len (leading (2 ^ b) s) then exists p, e = Unwound out p else e = Returned out (Some InvalidDigit)) ->
  tears b per 0 r r top word s out e.
Proof.
  intros HW H. unfold tears. rewrite N.min_0_l. cbn [N.eqb]. exists out. split; [exact HW|]. split; [reflexivity|].
  split; [reflexivity|]. exact H.
Qed.

(** where a build stops that does not stop earlier *)
Definition stop_at (m : mode) (o : N) : N := match m with Debug => o | Release => o + 1 end.

Lemma over_plain m dv b per epi num s : 0 < b -> b < 64 -> b * per = 64 -> per = 16 \/ per = 64 ->
  (forall c, dv c = digit_value (2 ^ b) c) -> num < 2 ^ 64 ->
  forall ii o word r out, m = Release \/ num = ii + len s ->
  Words out -> o < len out -> len out < 2 ^ 64 -> r <= per -> (r = per -> ii = 0) -> (r = 0 -> 0 < ii) ->
  (ii + r) mod per = num mod per -> word < 2 ^ (64 - b * r) ->
  r + per * (o + 1) < len s -> ii + len s < 2 ^ 64 ->
  tears b per (o + 1) (r + per * stop_at m o) r (o + 1) word s out (ugloop dv b per epi m num s ii o word out).
Proof.
  intros Hb Hb2 Hper Hper2 Hdv Hn.
  induction s as [|c t IH]; intros ii o word r out Hm HW Ho Hsz Hr H1 H2 E Hword Hlen Hi.
  { change (@len N []) with 0 in Hlen. lia. }
  rewrite len_cons in *. assert (Pp : 0 < per) by (clear - Hper2; lia).
  destruct (step_at m per num ii r ltac:(destruct Hm as [Hm|Hm]; [left; exact Hm|right; clear - Hm; lia]) Hper2 ltac:(clear - Hi; lia) Hn E) as (u & v & E1 & E2 & E3).
  rewrite (ustep _ _ _ _ _ _ _ _ _ _ _ _ u v E1 E2). rewrite E3.
  destruct (N.eq_dec r 0) as [R0|R0].
  - subst r. rewrite N.mod_0_l by (clear - Pp; lia). replace (0 <? ii) with true by (specialize (H2 eq_refl); clear - H2; lia).
    cbn [andb N.eqb]. rewrite set_idx_ok by auto.
    rewrite N.mul_0_r, N.sub_0_r in Hword. rewrite N.add_0_l.
    destruct (put_word out o word HW Ho Hword) as (A1 & B1 & _).
    destruct (N.eq_dec o 0) as [O0|O0].
    + subst o. unfold usz_sub. change (1 <=? 0) with false. cbv iota.
      destruct m; cbn [stop_at].
      { rewrite N.mul_0_r. change (0 + 1) with 1. apply tears_last; auto. }
      apply tears_group; auto; [clear; lia|clear; lia|clear - Pp; lia|]. rewrite Hdv.
      set (out1 := firstn (N.to_nat 0) out ++ word :: skipn (S (N.to_nat 0)) out) in *.
      destruct (digit_value (2 ^ b) c) as [d|] eqn:Hd; [|reflexivity]. rewrite lor_zero.
      destruct (doomed Release dv b per epi num t Hb Hb2 Hper Hper2 Hdv Hn (ii + 1) (as_u64 (0 + B64 - 1)) d (per - 1) out1) as (e & Ee & G);
        auto; try (clear - Hlen Hi Pp; lia).
      { rewrite B1. change (as_u64 (0 + B64 - 1)) with (2 ^ 64 - 1). clear - Hsz. lia. }
      { replace (ii + 1 + (per - 1)) with (ii + 0 + 1 * per) by (clear - Pp; lia). now rewrite N.mod_add by (clear - Pp; lia). }
      rewrite Ee. change (0 + 1 - 1) with 0. replace (per * (0 + 1) - 1) with (per - 1) by (clear; lia). now apply doomed_tears.
    + assert (Es : per * stop_at m o = per + per * stop_at m (o - 1)).
      { replace (stop_at m o) with (1 + stop_at m (o - 1)) by (clear - O0; destruct m; cbn [stop_at]; lia). ring. }
      apply tears_group; auto; [clear; lia|clear; lia|clear - Es Pp; lia|]. rewrite Hdv.
      set (out1 := firstn (N.to_nat o) out ++ word :: skipn (S (N.to_nat o)) out) in *.
      rewrite usz_sub_fine by (clear - O0; lia).
      destruct (digit_value (2 ^ b) c) as [d|] eqn:Hd; [|reflexivity]. rewrite lor_zero.
      assert (Ld := digit_value_lt _ _ _ Hd).
      assert (Q := IH (ii + 1) (o - 1) d (per - 1) out1). replace (o - 1 + 1) with o in Q by (clear - O0; lia).
      replace (o + 1 - 1) with o by (clear; lia).
      replace (per * stop_at m o - 1) with (per - 1 + per * stop_at m (o - 1)) by (clear - Es Pp; lia).
      apply Q; auto; try (clear - Hi Pp B1 Ho O0 Hsz; lia); try (destruct Hm as [Hm|Hm]; [left; exact Hm|right; clear - Hm; lia]).
      { replace (ii + 1 + (per - 1)) with (ii + 0 + 1 * per) by (clear - Pp; lia). now rewrite N.mod_add by (clear - Pp; lia). }
      { replace (64 - b * (per - 1)) with b; [exact Ld|]. rewrite N.mul_sub_distr_l. clear - Hper Hb2. lia. }
      { rewrite N.mul_add_distr_l in Hlen. clear - Hlen Pp. lia. }
  - replace ((0 <? ii) && (r mod per =? 0)) with false.
    2:{ destruct (N.eq_dec r per) as [Rp|Rp]; [rewrite (H1 Rp); reflexivity|].
        rewrite N.mod_small by (clear - Rp Hr; lia). replace (r =? 0) with false by (clear - R0; lia). now rewrite andb_false_r. }
    rewrite Hdv. destruct (digit_value (2 ^ b) c) as [d|] eqn:Hd; [|apply tears_bad; auto; clear - R0; lia].
    assert (Ld := digit_value_lt _ _ _ Hd).
    destruct (next_digit b per r word d Hb Hb2 Hper ltac:(clear - R0; lia) Hr Hword Ld) as (N1 & N2). rewrite N1.
    apply (tears_more b per (o + 1) (r + per * stop_at m o) r (o + 1) word c d); auto; [clear - R0; lia|clear - R0; lia|].
    replace (r + per * stop_at m o - 1) with (r - 1 + per * stop_at m o) by (clear - R0; lia).
    apply IH; auto; try (clear - Hr R0 H1 Hlen Hi; lia); try (destruct Hm as [Hm|Hm]; [left; exact Hm|right; clear - Hm; lia]). rewrite <- E. f_equal. clear - R0. lia.
Qed.

(** a debug build that counts fewer digits than there are *)
Lemma over_debug dv b per epi num s : 0 < b -> b < 64 -> b * per = 64 -> per = 16 \/ per = 64 ->
  (forall c, dv c = digit_value (2 ^ b) c) ->
  forall ii o word r out, Words out -> o < len out -> r <= per -> (r = per -> ii = 0) -> (r = 0 -> 0 < ii) ->
  num = ii + r + per * o -> word < 2 ^ (64 - b * r) -> r + per * o < len s ->
  tears b per o (r + per * o) r (o + 1) word s out (ugloop dv b per epi Debug num s ii o word out).
Proof.
  intros Hb Hb2 Hper Hper2 Hdv. induction s as [|c t IH]; intros ii o word r out HW Ho Hr H1 H2 E Hword Hlen.
  { change (@len N []) with 0 in Hlen. lia. }
  rewrite len_cons in *. assert (Pp : 0 < per) by (clear - Hper2; lia).
  destruct (N.eq_dec (r + per * o) 0) as [Z|Z].
  { assert (o = 0) by (clear - Z Pp; nia). subst o. assert (r = 0) by (clear - Z; lia). subst r.
    rewrite N.mul_0_r. apply doomed_tears; [exact HW|].
    replace (0 <=? len (leading (2 ^ b) (c :: t))) with true by (clear; lia).
    exists POverflow. cbn [ugloop]. unfold seq_ at 1. unfold look at 1. rewrite usz_sub_fine by (clear - E; lia).
    unfold seq_ at 1. unfold look at 1. replace (num - ii) with 0 by (clear - E; lia). reflexivity. }
  rewrite (ustep _ _ _ _ _ _ _ _ _ _ _ _ (r + per * o) (r + per * o - 1)).
  2:{ rewrite usz_sub_fine by (clear - E; lia). f_equal. clear - E. lia. }
  2:{ apply usz_sub_fine. clear - Z. lia. }
  replace (r + per * o - 1 + 1) with (r + o * per) by (clear - Z; lia). rewrite N.mod_add by (clear - Pp; lia).
  destruct (N.eq_dec r 0) as [R0|R0].
  - subst r. rewrite N.mod_0_l by (clear - Pp; lia). replace (0 <? ii) with true by (specialize (H2 eq_refl); clear - H2; lia).
    cbn [andb N.eqb]. rewrite set_idx_ok by auto.
    rewrite N.mul_0_r, N.sub_0_r in Hword. rewrite N.add_0_l.
    assert (O0 : 0 < o) by (clear - Z; destruct (N.eq_dec o 0) as [->|]; lia).
    assert (Em : per * o = per + per * (o - 1)) by (replace o with (1 + (o - 1)) at 1 by (clear - O0; lia); ring).
    apply tears_group; auto; [clear; lia|clear - Em Pp; lia|]. rewrite Hdv.
    destruct (put_word out o word HW Ho Hword) as (A1 & B1 & _).
    set (out1 := firstn (N.to_nat o) out ++ word :: skipn (S (N.to_nat o)) out) in *.
    rewrite usz_sub_fine by (clear - O0; lia).
    destruct (digit_value (2 ^ b) c) as [d|] eqn:Hd; [|reflexivity]. rewrite lor_zero.
    assert (Ld := digit_value_lt _ _ _ Hd).
    assert (Q := IH (ii + 1) (o - 1) d (per - 1) out1). replace (o - 1 + 1) with o in Q by (clear - O0; lia).
    replace (per * o - 1) with (per - 1 + per * (o - 1)) by (clear - Em Pp; lia).
    apply Q; auto; try (clear - E Em Pp Hlen B1 Ho O0; lia).
    replace (64 - b * (per - 1)) with b; [exact Ld|]. rewrite N.mul_sub_distr_l. clear - Hper Hb2. lia.
  - replace ((0 <? ii) && (r mod per =? 0)) with false.
    2:{ destruct (N.eq_dec r per) as [Rp|Rp]; [rewrite (H1 Rp); reflexivity|].
        rewrite N.mod_small by (clear - Rp Hr; lia). replace (r =? 0) with false by (clear - R0; lia). now rewrite andb_false_r. }
    rewrite Hdv. destruct (digit_value (2 ^ b) c) as [d|] eqn:Hd; [|apply tears_bad; auto; clear - R0; lia].
    assert (Ld := digit_value_lt _ _ _ Hd).
    destruct (next_digit b per r word d Hb Hb2 Hper ltac:(clear - R0; lia) Hr Hword Ld) as (N1 & N2). rewrite N1.
    apply (tears_more b per o (r + per * o) r (o + 1) word c d); auto; [clear - R0; lia|clear - R0; lia|].
    replace (r + per * o - 1) with (r - 1 + per * o) by (clear - R0; lia).
    apply IH; auto; clear - Hr R0 H1 Hlen E; lia.
Qed.

(** ** The parsers *)

(** what an ending leaves *)
Definition ulands (e : ending (list N) (option int_error_kind)) (k : N) (o : outcome) : Prop :=
  match o with
  | Accepts n => exists l, e = Returned l None /\ Words l /\ len l = k /\ wv l = n
  | Rejects x n => exists l, e = Returned l (Some x) /\ Words l /\ len l = k /\ wv l = n
  | Stops n => exists l p, e = Unwound l p /\ Words l /\ len l = k /\ wv l = n
  end.

Lemma tears_cut b K P top d out e :
  tears b (64 / b) K P (first_group b d) top 0 d out e -> ulands e (len out) (cut b (wv out) top K P d).
Proof.
  intros (out' & A & B & C & D). unfold cut. rewrite N.mul_0_r, N.add_0_r in C.
  destruct (P <=? len (leading (2 ^ b) d)).
  - destruct D as (p & D). exists out', p. auto.
  - exists out'. auto.
Qed.

Lemma first_group_range b d : b = 1 \/ b = 4 -> 0 < first_group b d /\ first_group b d <= 64 / b.
Proof.
  intros H. unfold first_group. assert (P : 64 / b <> 0) by (destruct H as [-> | ->]; discriminate).
  assert (G := N.mod_upper_bound (len d - 1) (64 / b) P). clear - G. lia.
Qed.

Lemma long_2_lands m d out w : Words out -> len out = (w + 63) / 64 -> w < 2 ^ 32 ->
  2 ^ 32 <= len d -> len d < 2 ^ 63 ->
  ulands (un_parse_base_2 m d w out) (len out) (long_bin m w (wv out) d).
Proof.
  intros HW Lo Hw L1 L2. unfold un_parse_base_2, long_bin.
  assert (Ec : as_u32 (len d) = len d mod 2 ^ 32) by (unfold as_u32; now rewrite B32_eq).
  rewrite Ec. set (n := len d mod 2 ^ 32).
  assert (Nn : n < 2 ^ 32) by (apply N.mod_upper_bound; discriminate).
  destruct (w <? n) eqn:W; [exists out; auto|]. apply N.ltb_ge in W.
  rewrite div_ceil_eq. set (top := (n + 63) / 64).
  assert (Lt : top <= len out) by (rewrite Lo; unfold top; clear - W; dlia).
  assert (Fr := first_group_range 1 d ltac:(auto)). change (64 / 1) with 64 in Fr.
  assert (Ef : first_group 1 d mod 64 = n mod 64 /\ (0 < n -> n = first_group 1 d + 64 * (top - 1))).
  { unfold first_group. change (64 / 1) with 64. unfold top, n. change (2 ^ 32) with 4294967296 in *.
    assert (len d <> 0) by (clear - L1; lia). generalize dependent (len d). clear. intros l. intros.
    split; dlia. }
  destruct Ef as (Ef1 & Ef2).
  assert (Hl : 2 ^ 32 + n <= len d).
  { assert (G := N.div_mod (len d) (2 ^ 32) ltac:(discriminate)). fold n in G.
    assert (1 <= len d / 2 ^ 32) by (apply N.div_le_lower_bound; [discriminate|clear - L1; lia]).
    clear - G H. change (2 ^ 32) with 4294967296 in *. lia. }
  assert (Hmul : 64 * top <= n + 63) by (unfold top; clear; dlia).
  unfold seq_, look. destruct m.
  - destruct (n =? 0) eqn:N0.
    + apply N.eqb_eq in N0. unfold u32_sub, top. rewrite N0. exists out, POverflow. auto.
    + apply N.eqb_neq in N0. assert (T : 0 < top) by (unfold top; clear - N0; dlia).
      rewrite u32_sub_ok by (clear - T; lia). cbv beta iota. rewrite uloop2.
      apply tears_cut. change (64 / 1) with 64. rewrite Ef2 at 1 by (clear - N0; lia).
      assert (G := over_debug bin_digit_value 1 64 (ret None) n d ltac:(reflexivity) ltac:(reflexivity) eq_refl ltac:(auto)
        bin_digit_ok 0 (top - 1) 0 (first_group 1 d) out HW ltac:(clear - T Lt; lia) ltac:(clear - Fr; lia)
        ltac:(auto) ltac:(clear - Fr; lia) ltac:(rewrite Ef2 at 1 by (clear - N0; lia); clear; lia) ltac:(apply pow_pos)
        ltac:(rewrite <- Ef2 by (clear - N0; lia); clear - Hl; change (2 ^ 32) with 4294967296 in *; lia)).
      replace (top - 1 + 1) with top in G by (clear - T; lia). exact G.
  - destruct (N.eq_dec n 0) as [N0|N0].
    + assert (T0 : top = 0) by (unfold top; rewrite N0; reflexivity). rewrite T0.
      change (u32_sub Release 0 1) with (Ok (2 ^ 32 - 1)). cbv beta iota. rewrite uloop2. apply tears_cut. change (64 / 1) with 64.
      rewrite N.mul_0_r, N.add_0_r.
      destruct (doomed Release bin_digit_value 1 64 (ret None) n d ltac:(reflexivity) ltac:(reflexivity) eq_refl ltac:(auto)
        bin_digit_ok ltac:(eapply N.lt_trans; [exact Nn|reflexivity]) 0 (2 ^ 32 - 1) 0 (first_group 1 d) out ltac:(auto) HW)
        as (e & Ee & G).
      { rewrite Lo. change (2 ^ 32) with 4294967296 in *. clear - Hw. dlia. }
      { apply Fr. } { reflexivity. } { clear - Fr; lia. } { exact Ef1. }
      { clear - Fr Hl. change (2 ^ 32) with 4294967296 in *. lia. }
      { eapply N.lt_trans; [exact L2|reflexivity]. }
      rewrite Ee. now apply doomed_tears.
    + assert (T : 0 < top) by (unfold top; clear - N0; dlia).
      rewrite u32_sub_ok by (clear - T; lia). cbv beta iota. rewrite uloop2. apply tears_cut. change (64 / 1) with 64.
      assert (G := over_plain Release bin_digit_value 1 64 (ret None) n d ltac:(reflexivity) ltac:(reflexivity) eq_refl ltac:(auto)
        bin_digit_ok ltac:(eapply N.lt_trans; [exact Nn|reflexivity]) 0 (top - 1) 0 (first_group 1 d) out ltac:(auto) HW).
      cbn [stop_at] in G. replace (top - 1 + 1) with top in G by (clear - T; lia). apply G; auto.
      { clear - T Lt. lia. }
      { rewrite Lo. change (2 ^ 32) with 4294967296 in *. change (2 ^ 64) with 18446744073709551616. clear - Hw. dlia. }
      { apply Fr. } { clear - Fr; lia. }
      { clear - Fr Hl Hmul. change (2 ^ 32) with 4294967296 in *. lia. }
      { eapply N.lt_trans; [exact L2|reflexivity]. }
Qed.

Lemma long_16_lands m d out w : Words out -> len out = (w + 63) / 64 -> 0 < w -> w < 2 ^ 32 ->
  2 ^ 30 <= len d -> len d < 2 ^ 63 ->
  ulands (un_parse_base_16 m d out) (len out) (long_hex m w (wv out) d).
Proof.
  intros HW Lo Hw0 Hw L1 L2. unfold un_parse_base_16, long_hex.
  assert (Ec : as_u32 (len d) = len d mod 2 ^ 32) by (unfold as_u32; now rewrite B32_eq).
  rewrite Ec. set (n := len d mod 2 ^ 32).
  assert (Nn : n < 2 ^ 32) by (apply N.mod_upper_bound; discriminate).
  set (top := ((4 * n) mod 2 ^ 32 + 63) / 64).
  assert (Fr := first_group_range 4 d ltac:(auto)). change (64 / 4) with 16 in Fr.
  assert (Sz : len out <= 2 ^ 26) by (rewrite Lo; change (2 ^ 32) with 4294967296 in Hw; change (2 ^ 26) with 67108864; clear - Hw; dlia).
  assert (Ef : (0 + first_group 4 d) mod 16 = len d mod 16).
  { unfold first_group. change (64 / 4) with 16. change (2 ^ 30) with 1073741824 in *.
    assert (len d <> 0) by (clear - L1; lia). generalize dependent (len d). clear. intros l. intros. dlia. }
  assert (Hl : first_group 4 d + 16 * top < len d).
  { assert (M1 : n mod 2 ^ 30 = len d mod 2 ^ 30).
    { unfold n. change (2 ^ 30) with 1073741824. change (2 ^ 32) with 4294967296. generalize (len d). clear. intros. dlia. }
    assert (M2 : (4 * n) mod 2 ^ 32 = 4 * (n mod 2 ^ 30)).
    { change (2 ^ 30) with 1073741824. change (2 ^ 32) with 4294967296. clear. dlia. }
    assert (M3 : 2 ^ 30 + len d mod 2 ^ 30 <= len d).
    { change (2 ^ 30) with 1073741824 in *. generalize dependent (len d). clear. intros. dlia. }
    assert (M4 : 64 * top <= (4 * n) mod 2 ^ 32 + 63) by (unfold top; clear; dlia).
    rewrite M2, M1 in M4. change (2 ^ 30) with 1073741824 in *. clear - Fr M3 M4. lia. }
  assert (Len : len d < 2 ^ 64) by (eapply N.lt_trans; [exact L2|reflexivity]).
  set (epi := (do _ <- look (fun _ => u32_mul m (as_u32 (len d)) 4) ;; ret None) : eff (list N) (option int_error_kind)).
  assert (Short : forall o, m = Release \/ 0 < n -> len out <= o ->
    ulands (un_parse_base_16_loop m (len d) d 0 o 0 out) (len out) (cut 4 (wv out) top 0 (first_group 4 d) d)).
  { intros o _ Lo'. rewrite uloop16. apply tears_cut. change (64 / 4) with 16.
    destruct (doomed m hex_digit_value 4 16 epi (len d) d ltac:(reflexivity) ltac:(reflexivity) eq_refl ltac:(auto)
      hex_digit_ok Len 0 o 0 (first_group 4 d) out ltac:(right; reflexivity) HW Lo') as (e & Ee & G).
    { apply Fr. } { reflexivity. } { clear - Fr; lia. } { exact Ef. } { clear - Hl; lia. } { exact Len. }
    fold epi. rewrite Ee. now apply doomed_tears. }
  assert (Full : 0 < top -> top <= len out ->
    ulands (un_parse_base_16_loop m (len d) d 0 (top - 1) 0 out) (len out)
      (cut 4 (wv out) top top (first_group 4 d + 16 * match m with Debug => top - 1 | Release => top end) d)).
  { intros T Lt. rewrite uloop16. apply tears_cut. change (64 / 4) with 16. fold epi.
    assert (G := over_plain m hex_digit_value 4 16 epi (len d) d ltac:(reflexivity) ltac:(reflexivity) eq_refl ltac:(auto)
      hex_digit_ok Len 0 (top - 1) 0 (first_group 4 d) out ltac:(right; reflexivity) HW).
    replace (top - 1 + 1) with top in G by (clear - T; lia).
    replace (stop_at m (top - 1)) with (match m with Debug => top - 1 | Release => top end) in G
      by (clear - T; destruct m; cbn [stop_at]; lia).
    apply G; auto.
    { clear - T Lt. lia. }
    { eapply N.le_lt_trans; [exact Sz|reflexivity]. }
    { apply Fr. } { clear - Fr; lia. } }
  unfold seq_, look, u32_mul. rewrite B32_eq, (N.mul_comm n 4).
  assert (Start : forall bits, bits = (4 * n) mod 2 ^ 32 -> (m = Release \/ 0 < bits) ->
    ulands (match match u32_sub m (div_ceil bits 64) 1 with Ok a => Returned out a | Panic p => Unwound out p end with
            | Returned s a => un_parse_base_16_loop m (len d) d 0 a 0 s
            | Unwound s p => Unwound s p
            end) (len out)
      (if (top =? 0) || ((w + 63) / 64 <? top) then cut 4 (wv out) top 0 (first_group 4 d) d
       else cut 4 (wv out) top top (first_group 4 d + 16 * match m with Debug => top - 1 | Release => top end) d)).
  { intros bits Eb Hm. rewrite div_ceil_eq, Eb. fold top. rewrite <- Lo.
    destruct (N.eq_dec top 0) as [T0|T0].
    - assert (B0 : bits = 0) by (clear - T0 Eb; unfold top in T0; rewrite <- Eb in T0; dlia).
      destruct Hm as [Hm|Hm]; [|lia]. rewrite T0. cbn [N.eqb orb]. rewrite T0 in Short.
      subst m. change (u32_sub Release 0 1) with (Ok (2 ^ 32 - 1)). cbv beta iota. apply Short; auto.
      eapply N.le_trans; [exact Sz|discriminate].
    - replace (top =? 0) with false by (clear - T0; lia). cbn [orb]. rewrite u32_sub_ok by (clear - T0; lia).
      cbv beta iota. destruct (len out <? top) eqn:Lt.
      + apply Short; [|clear - Lt; lia]. right. destruct (N.eq_dec n 0) as [Z|Z]; [|clear - Z; lia].
        exfalso. apply T0. unfold top. rewrite Z. reflexivity.
      + apply Full; clear - T0 Lt; lia. }
  destruct (4 * n <? 2 ^ 32) eqn:F.
  - apply N.ltb_lt in F. assert (Em : (4 * n) mod 2 ^ 32 = 4 * n) by (apply N.mod_small; exact F).
    replace (2 ^ 32 <=? 4 * n) with false by (symmetry; apply N.leb_gt; exact F). rewrite orb_false_r.
    destruct m.
    + cbn [andb]. destruct (n =? 0) eqn:N0.
      * apply N.eqb_eq in N0. rewrite N0. exists out, POverflow. auto.
      * apply (Start (4 * n)); [auto|]. right. clear - N0. lia.
    + cbn [andb]. apply (Start (4 * n)); auto.
  - apply N.ltb_ge in F. replace (2 ^ 32 <=? 4 * n) with true by (symmetry; apply N.leb_le; exact F). rewrite orb_true_r.
    destruct m; cbn [andb].
    + exists out, POverflow. auto.
    + unfold as_u32. rewrite B32_eq. apply (Start ((4 * n) mod 2 ^ 32)); auto.
Qed.

(** the text after its minus sign *)
Lemma short_magnitude m s r out w : 0 < w -> len out = (w + 63) / 64 -> Words out -> s <> [] ->
  (128 < w -> r = 2 -> len (drop_plus s) < 2 ^ 32) -> (128 < w -> r = 16 -> len (drop_plus s) < 2 ^ 30) ->
  lands (parse_magnitude m s r out w) ((w + 63) / 64) (read_digits r w (wv out) (drop_plus s)).
Proof.
  intros H0 Lo HW Hs H2 H16. unfold read_digits. destruct (w <=? 128) eqn:W.
  - destruct ((2 <=? r) && (r <=? 36)) eqn:R.
    2:{ apply small_bad_radix; auto; clear - W R; lia. }
    assert (P := pow_pos (64 * ((w + 63) / 64))).
    assert (E := std_reading _ r s ltac:(clear - R; lia) ltac:(clear - R; lia) P Hs).
    apply (small_ok m s r out w) in E; auto; [|clear - W; lia]. rewrite E.
    destruct (drop_plus s) as [|c t]; [exists out; auto|]. unfold read_small.
    destruct (2 ^ (64 * ((w + 63) / 64)) <=? leading_number r (c :: t)) eqn:B; [exists out; auto|].
    destruct (len (leading r (c :: t)) =? len (c :: t)); [|exists out; auto].
    eexists. split; [reflexivity|].
    destruct (words_of_ok (N.to_nat ((w + 63) / 64)) (leading_number r (c :: t))) as (A1 & A2 & A3).
    rewrite N2Nat.id in A2, A3. split; [auto|]. split; [auto|]. rewrite A3. apply mod_small_pow.
    apply N.leb_gt. exact B.
  - apply N.leb_gt in W. rewrite mag_wide by auto. rewrite strip_plus_drop by auto.
    destruct (drop_plus s) as [|c t] eqn:E; [exists out; auto|].
    destruct (r =? 2) eqn:R2.
    { apply N.eqb_eq in R2. rewrite <- Lo. apply base_2_lands; auto. discriminate. }
    destruct (r =? 10) eqn:R10.
    { replace (r =? 16) with false by (clear - R10; lia). eexists. reflexivity. }
    destruct (r =? 16) eqn:R16; [|eexists; reflexivity].
    apply N.eqb_eq in R16. rewrite <- Lo. apply base_16_lands; auto; [discriminate|]. rewrite Lo. clear - H0. dlia.
Qed.

Lemma short_atomic m s r w out : 0 < len out -> s <> [] ->
  (2 < len out -> r = 2 -> len (drop_plus s) < 2 ^ 32) -> (2 < len out -> r = 16 -> len (drop_plus s) < 2 ^ 30) ->
  atomic (un_parse_magnitude m s r w) out.
Proof.
  intros Ho Hs H2 H16. unfold un_parse_magnitude. apply atomic_look_seq. intros n En. apply ok_inj in En. subst n.
  assert (St : forall lim split, atomic (un_std_parse lim split r s) out).
  { intros lim split. unfold un_std_parse. apply atomic_look_seq. intros q _. destruct q; discriminate. }
  destruct (len out =? 1) eqn:N1; [apply atomic_look_seq; intros _ _; apply St|].
  destruct (len out =? 2) eqn:N2; [apply atomic_look_seq; intros _ _; apply St|].
  assert (L : 2 < len out) by (clear - Ho N1 N2; lia).
  apply atomic_look_seq. intros _ _. rewrite strip_plus_drop by auto.
  destruct (drop_plus s) as [|c t] eqn:E; [discriminate|].
  destruct (r =? 2) eqn:R2; [apply N.eqb_eq in R2; apply parse_2_atomic; auto|].
  destruct (r =? 10); [apply atomic_look|].
  destruct (r =? 16) eqn:R16; [apply N.eqb_eq in R16; apply parse_16_atomic; auto|apply atomic_look].
Qed.

Lemma lands_ulands e k x o out : er e = x -> lands x k o -> (forall s p, e = Unwound s p -> s = out) ->
  Words out -> len out = k ->
  ulands e k (match o with Reads n => Accepts n | Fails q n => Rejects q n | Breaks => Stops (wv out) end).
Proof.
  intros Ee H A HW Lo. subst x. destruct o as [n|q n|].
  - destruct H as (l & E & H). exists l. split; [|exact H]. destruct e as [s a|s p]; [|discriminate]. cbn in E.
    injection E as -> ->. reflexivity.
  - destruct H as (l & E & H). exists l. split; [|exact H]. destruct e as [s a|s p]; [|discriminate]. cbn in E.
    injection E as -> ->. reflexivity.
  - destruct H as (p & E). destruct e as [s a|s q]; [discriminate|]. rewrite (A s q eq_refl).
    exists out, q. auto.
Qed.

Lemma magnitude_any m s r out w : 0 < w -> w < 2 ^ 32 -> len out = (w + 63) / 64 -> Words out -> s <> [] -> len s < 2 ^ 63 ->
  ulands (un_parse_magnitude m s r w out) ((w + 63) / 64) (any_digits m r w (wv out) (drop_plus s)).
Proof.
  intros H0 Hw Lo HW Hs Hl. assert (Ld := drop_plus_len s).
  assert (Ld' : len (drop_plus s) < 2 ^ 63) by (eapply N.le_lt_trans; [exact Ld|exact Hl]).
  assert (Wide : 128 < w -> un_parse_magnitude m s r w out =
    match strip_plus s with
    | None => ret (Some InvalidDigit) out
    | Some d => (if r =? 2 then un_parse_base_2 m d w else if r =? 10 then look (fun _ => Panic PTodo)
                 else if r =? 16 then un_parse_base_16 m d else look (fun _ => Panic PTodo)) out
    end).
  { intros W. unfold un_parse_magnitude. unfold seq_ at 1. unfold look at 1. cbv beta iota.
    replace (len out =? 1) with false by (rewrite Lo; clear - W; dlia).
    replace (len out =? 2) with false by (rewrite Lo; clear - W; dlia).
    unfold seq_ at 1. unfold look at 1. rewrite div_ceil_eq, Lo, N.eqb_refl, debug_assert_true. cbv beta iota.
    destruct (strip_plus s) as [d|]; reflexivity. }
  unfold any_digits.
  destruct ((128 <? w) && (r =? 16) && (2 ^ 30 <=? len (drop_plus s))) eqn:C1.
  { apply andb_true_iff in C1. destruct C1 as [C1 L]. apply andb_true_iff in C1. destruct C1 as [W R].
    apply N.ltb_lt in W. apply N.eqb_eq in R. apply N.leb_le in L. rewrite Wide by auto. rewrite strip_plus_drop by auto. subst r.
    destruct (drop_plus s) as [|c t] eqn:E; [exfalso; apply L; reflexivity|].
    change (16 =? 2) with false. change (16 =? 10) with false. change (16 =? 16) with true. cbv iota.
    rewrite <- Lo. apply long_16_lands; auto. }
  destruct ((128 <? w) && (r =? 2) && (2 ^ 32 <=? len (drop_plus s))) eqn:C2.
  { apply andb_true_iff in C2. destruct C2 as [C2 L]. apply andb_true_iff in C2. destruct C2 as [W R].
    apply N.ltb_lt in W. apply N.eqb_eq in R. apply N.leb_le in L. rewrite Wide by auto. rewrite strip_plus_drop by auto. subst r.
    destruct (drop_plus s) as [|c t] eqn:E; [exfalso; apply L; reflexivity|].
    change (2 =? 2) with true. cbv iota. rewrite <- Lo. apply long_2_lands; auto. }
  assert (K2 : 128 < w -> r = 2 -> len (drop_plus s) < 2 ^ 32).
  { intros W ->. apply N.ltb_lt in W. rewrite W in C2. cbn [andb N.eqb] in C2. now apply N.leb_gt in C2. }
  assert (K16 : 128 < w -> r = 16 -> len (drop_plus s) < 2 ^ 30).
  { intros W ->. apply N.ltb_lt in W. rewrite W in C1. change (16 =? 16) with true in C1. cbn [andb] in C1. now apply N.leb_gt in C1. }
  eapply lands_ulands.
  - apply er_magnitude.
  - now apply short_magnitude.
  - intros l p. apply short_atomic; auto.
    + rewrite Lo. clear - H0. dlia.
    + rewrite Lo. intros K. apply K2. clear - K. dlia.
    + rewrite Lo. intros K. apply K16. clear - K. dlia.
  - exact HW.
  - exact Lo.
Qed.

Lemma text_any m s r out w : w < 2 ^ 32 -> len out = (w + 63) / 64 -> Words out -> len s < 2 ^ 63 ->
  ulands (un_from_str_radix m s r w out) ((w + 63) / 64) (any_reading m r w (wv out) s).
Proof.
  intros Hw Lo HW Hl. unfold un_from_str_radix, any_reading.
  destruct s as [|c t]; [exists out; auto|].
  replace (len (c :: t) =? 0) with false by (rewrite len_cons; clear; lia).
  assert (M : strip_minus (c :: t) = (has_minus (c :: t), after_minus (c :: t))).
  { cbn [strip_minus after_minus has_minus]. change c_minus with 45. now destruct (c =? 45). }
  rewrite M. assert (Hl' : len (after_minus (c :: t)) < 2 ^ 63).
  { cbn [after_minus]. destruct (c =? 45); [|auto]. rewrite len_cons in Hl. eapply N.le_lt_trans; [|exact Hl]. clear. lia. }
  destruct (w =? 0) eqn:W.
  { destruct (after_minus (c :: t)) as [|x [|y u]]; [exists out; auto| |exists out; auto].
    change c_0 with 48. destruct (x =? 48); exists out; auto. }
  assert (H0 : 0 < w) by (clear - W; lia).
  change (digits_of (c :: t)) with (drop_plus (after_minus (c :: t))).
  destruct (after_minus (c :: t)) as [|x u]; [exists out; auto|].
  assert (G := magnitude_any m (x :: u) r out w H0 Hw Lo HW ltac:(discriminate) Hl').
  unfold seq_ at 1.
  destruct (any_digits m r w (wv out) (drop_plus (x :: u))) as [n|k n|n].
  - destruct G as (l & -> & A & B & C). destruct (has_minus (c :: t)).
    + destruct (negate_any m l w H0 A B) as (l' & N1 & B' & A' & C'). exists l'. rewrite C in C'.
      split; [|auto]. assert (Q := er_negate m w l). rewrite N1 in Q. cbn [bind] in Q.
      unfold seq_. destruct (un_negate_in_place m w l) as [q []|]; [|discriminate]. cbn in Q. injection Q as ->. reflexivity.
    + exists l. auto.
  - destruct G as (l & -> & A & B & C). exists l. auto.
  - destruct G as (l & p & -> & A & B & C). exists l, p. auto.
Qed.

(** C95 *)
Lemma long_assign m old s r : well_shaped old -> len s < 2 ^ 63 ->
  ends_as (un_from_str_radix m s r (width old) (words old)) (width old) (any_reading m r (width old) (uval old) s).
Proof.
  intros (Hw & Lo & HW) Hl. assert (G := text_any m s r (words old) (width old) Hw Lo HW Hl).
  change (uval old) with (wv (words old)).
  destruct (any_reading m r (width old) (wv (words old)) s) as [n|k n|n].
  - destruct G as (l & E & A & B & C). exists l. split; [exact E|]. repeat split; auto.
  - destruct G as (l & E & A & B & C). exists l. split; [exact E|]. repeat split; auto.
  - destruct G as (l & p & E & A & B & C). exists l, p. split; [exact E|]. repeat split; auto.
Qed.

Lemma long_parse m s r w : w < 2 ^ 32 -> len s < 2 ^ 63 -> gives (bv_from_str_radix m s r w) w (any_reading m r w 0 s).
Proof.
  intros Hw Hl. unfold bv_from_str_radix. destruct (zero_shaped w Hw) as [S V].
  assert (G := long_assign m (bv_zero w) s r S Hl). rewrite V in G. change (width (bv_zero w)) with w in G.
  assert (Q := same_parse m (bv_zero w) s r). change (width (bv_zero w)) with w in Q.
  destruct (any_reading m r w 0 s) as [n|k n|n].
  - destruct G as (l & E & A & B). rewrite E in Q. rewrite Q. cbn [bind]. eexists. split; [reflexivity|]. auto.
  - destruct G as (l & E & _). rewrite E in Q. rewrite Q. reflexivity.
  - destruct G as (l & p & E & _). rewrite E in Q. rewrite Q. eexists. reflexivity.
Qed.

Lemma num_digits_mod s : num_digits s = len (without_sign s) mod 2 ^ 32.
Proof.
  unfold num_digits, without_sign, as_u32. rewrite B32_eq. change c_plus with 43. change c_minus with 45.
  destruct s as [|c [|c2 t]]; [reflexivity| |]; rewrite (orb_comm (c =? 45)); destruct ((c =? 43) || (c =? 45)); reflexivity.
Qed.

Lemma long_width m b r s : (b = 1 /\ r = 2) \/ (b = 4 /\ r = 16) ->
  match any_width m b s with
  | Some w => determine_width_from_str_radix m s r = Ok w /\ w < 2 ^ 32
  | None => panics (determine_width_from_str_radix m s r)
  end.
Proof.
  intros C. unfold determine_width_from_str_radix, any_width. rewrite num_digits_mod.
  change (starts_with_minus s) with (has_minus s).
  assert (L : len (without_sign s) mod 2 ^ 32 < 2 ^ 32) by (apply N.mod_upper_bound; discriminate).
  set (n := len (without_sign s) mod 2 ^ 32) in *. clearbody n. change (2 ^ 32) with 4294967296 in *.
  set (x := if has_minus s then 1 else 0). assert (X : x <= 1) by (unfold x; destruct (has_minus s); lia). clearbody x.
  destruct C as [[-> ->]|[-> ->]].
  - change ((2 =? 2) || (2 =? 16)) with true. rewrite debug_assert_true. cbn [bind].
    change (2 =? 2) with true. cbn iota. cbn [bind]. rewrite N.mul_1_l. unfold u32_add, as_u32, B32.
    destruct (n + x <? 4294967296) eqn:E; [split; [reflexivity|clear - E; lia]|].
    destruct m; [eexists; reflexivity|]. split; [reflexivity|]. apply N.mod_upper_bound. discriminate.
  - change ((16 =? 2) || (16 =? 16)) with true. rewrite debug_assert_true. cbn [bind].
    change (16 =? 2) with false. change (16 =? 16) with true. cbn iota. rewrite (N.mul_comm 4 n).
    unfold u32_mul, u32_add, as_u32, B32. destruct (n * 4 <? 4294967296) eqn:F.
    + cbn [bind]. replace (n * 4 + x <? 4294967296) with true by (clear - F X; lia). split; [reflexivity|clear - F X; lia].
    + replace (n * 4 + x <? 4294967296) with false by (clear - F X; lia).
      destruct m; [eexists; reflexivity|]. cbn [bind].
      assert (E : (n * 4) mod 4294967296 + x < 4294967296) by (clear - X; dlia).
      replace ((n * 4) mod 4294967296 + x <? 4294967296) with true by (clear - E; lia).
      split; [|apply N.mod_upper_bound; discriminate]. f_equal.
      rewrite <- (N.mod_small _ _ E) at 1. rewrite N.add_mod_idemp_l by discriminate. reflexivity.
Qed.

Lemma long_bit_str m s : len s < 2 ^ 63 ->
  match any_width m 1 s with
  | Some w => gives (bv_from_bit_str m s) w (any_reading m 2 w 0 s)
  | None => panics (bv_from_bit_str m s)
  end.
Proof.
  intros H. unfold bv_from_bit_str. assert (G := long_width m 1 2 s ltac:(auto)). destruct (any_width m 1 s) as [w|].
  - destruct G as [-> W]. cbn [bind]. now apply long_parse.
  - destruct G as (p & ->). eexists. reflexivity.
Qed.

Lemma long_hex_str m s : len s < 2 ^ 63 ->
  match any_width m 4 s with
  | Some w => gives (bv_from_hex_str m s) w (any_reading m 16 w 0 s)
  | None => panics (bv_from_hex_str m s)
  end.
Proof.
  intros H. unfold bv_from_hex_str. assert (G := long_width m 4 16 s ltac:(auto)). destruct (any_width m 4 s) as [w|].
  - destruct G as [-> W]. cbn [bind]. now apply long_parse.
  - destruct G as (p & ->). eexists. reflexivity.
Qed.

(** short texts *)
Lemma digits_of_len s : len (digits_of s) <= len s.
Proof.
  unfold digits_of. eapply N.le_trans; [apply drop_plus_len|]. destruct s as [|c t]; cbn [after_minus]; [lia|].
  destruct (c =? 45); rewrite ?len_cons; lia.
Qed.

Lemma long_short m r w x s : len (digits_of s) < 2 ^ 30 \/ w <= 128 \/ (r <> 2 /\ r <> 16) \/ (r = 2 /\ len (digits_of s) < 2 ^ 32) ->
  any_reading m r w x s =
  match reading_of r w x s with Reads n => Accepts n | Fails k n => Rejects k n | Breaks => Stops x end.
Proof.
  intros H. unfold any_reading, reading_of. destruct (len s =? 0); [reflexivity|].
  destruct (w =? 0). { destruct (after_minus s) as [|c [|c2 t]]; try reflexivity. now destruct (c =? 48). }
  destruct (after_minus s) as [|c t]; [reflexivity|].
  assert (E1 : (128 <? w) && (r =? 16) && (2 ^ 30 <=? len (digits_of s)) = false).
  { change (2 ^ 30) with 1073741824 in *. change (2 ^ 32) with 4294967296 in *. clear - H. lia. }
  assert (E2 : (128 <? w) && (r =? 2) && (2 ^ 32 <=? len (digits_of s)) = false).
  { change (2 ^ 30) with 1073741824 in *. change (2 ^ 32) with 4294967296 in *. clear - H. lia. }
  unfold any_digits. rewrite E1, E2. now destruct (read_digits r w x (digits_of s)).
Qed.

(** consequences *)
Lemma cut_not_accepts b x top most stop d n : cut b x top most stop d <> Accepts n.
Proof. unfold cut. destruct (stop <=? _); discriminate. Qed.

Lemma digits_not_accepts m r w x d n : 128 < w ->
  (r = 16 /\ 2 ^ 30 <= len d) \/ (r = 2 /\ 2 ^ 32 <= len d) -> any_digits m r w x d <> Accepts n.
Proof.
  intros W C. unfold any_digits. apply N.ltb_lt in W. rewrite W. destruct C as [[-> L]|[-> L]]; apply N.leb_le in L; rewrite L.
  - change (16 =? 16) with true. cbn [andb]. unfold long_hex.
    destruct (_ && _); [discriminate|]. destruct (_ || _); apply cut_not_accepts.
  - change (2 =? 16) with false. change (2 =? 2) with true. cbn [andb]. unfold long_bin.
    destruct (w <? _); [discriminate|]. destruct m; [|apply cut_not_accepts].
    destruct (_ =? 0); [discriminate|apply cut_not_accepts].
Qed.

Lemma long_never m old s r v : well_shaped old -> len s < 2 ^ 63 -> 128 < width old ->
  (r = 16 /\ 2 ^ 30 <= len (digits_of s)) \/ (r = 2 /\ 2 ^ 32 <= len (digits_of s)) ->
  bv_assign_from_str_radix m old s r <> Ok (v, None).
Proof.
  intros Hs Hl W C E. assert (G := long_assign m old s r Hs Hl). assert (Q := same_parse m old s r).
  assert (D := digits_not_accepts m r (width old) (uval old) (digits_of s)).
  assert (NA : forall n, any_reading m r (width old) (uval old) s <> Accepts n).
  { intros n. unfold any_reading.
    assert (Ld := digits_of_len s).
    assert (L : 0 < len (digits_of s)) by (clear - C; change (2 ^ 30) with 1073741824 in C; change (2 ^ 32) with 4294967296 in C; lia).
    replace (len s =? 0) with false by (clear - L Ld; lia). replace (width old =? 0) with false by (clear - W; lia).
    destruct (after_minus s); [discriminate|].
    destruct (any_digits m r (width old) (uval old) (digits_of s)) as [q|q1 q2|q] eqn:K; try discriminate.
    exfalso. exact (D q W C eq_refl). }
  destruct (any_reading m r (width old) (uval old) s) as [n|k n|n].
  - exact (NA n eq_refl).
  - destruct G as (l & K & _). rewrite K in Q. congruence.
  - destruct G as (l & p & K & _). rewrite K in Q. congruence.
Qed.

Lemma zeros_leading r k : 1 < r -> leading r (repeat 48 k) = repeat 48 k.
Proof.
  intros H. induction k as [|k IH]; [reflexivity|]. cbn [repeat leading]. unfold digit_value.
  change ((48 <=? 48) && (48 <=? 57)) with true. cbn iota. change (48 - 48) with 0.
  replace (0 <? r) with true by (clear - H; lia). now rewrite IH.
Qed.

Lemma zero_digit r : 1 < r -> digit_value r 48 = Some 0.
Proof.
  intros H. unfold digit_value. change ((48 <=? 48) && (48 <=? 57)) with true. cbn iota. change (48 - 48) with 0.
  now replace (0 <? r) with true by (clear - H; lia).
Qed.

Lemma zeros_number r k t n : 1 < r -> number r t = Some n -> number r (repeat 48 k ++ t) = Some n.
Proof.
  intros H Hn. induction k as [|k IH]; [exact Hn|]. cbn [repeat app number]. rewrite zero_digit by auto. rewrite IH.
  f_equal.
Qed.

Lemma number_below r t : forall n, 1 < r -> number r t = Some n -> n < r ^ len t.
Proof.
  intros n H. revert n. induction t as [|c t IH]; intros n Hn.
  - injection Hn as <-. reflexivity.
  - cbn [number] in Hn. destruct (digit_value r c) as [d|] eqn:Hd; [|discriminate].
    destruct (number r t) as [q|]; [|discriminate]. injection Hn as <-.
    apply digit_value_lt in Hd. specialize (IH q eq_refl). rewrite len_cons. unfold len in *.
    replace (N.of_nat (length t) + 1) with (N.succ (N.of_nat (length t))) by lia. rewrite N.pow_succ_r'. nia.
Qed.

Lemma number_head r c t n : number r (c :: t) = Some n -> (c =? 45) = false /\ (c =? 43) = false.
Proof.
  cbn [number]. destruct (digit_value r c) as [d|] eqn:Hd; [|discriminate]. intros _. unfold digit_value in Hd.
  split; [destruct (c =? 45) eqn:E|destruct (c =? 43) eqn:E]; try reflexivity; apply N.eqb_eq in E; subst c;
    cbn in Hd; rewrite N.ltb_irrefl in Hd; discriminate.
Qed.

Lemma silent_width k t n : N.of_nat k = 2 ^ 30 -> 0 < len t -> len t <= 32 -> number 16 t = Some n ->
  panics (bv_from_hex_str Debug (repeat 48 k ++ t))
  /\ exists v, bv_from_hex_str Release (repeat 48 k ++ t) = Ok (Parsed v) /\ well_shaped v
     /\ width v = 4 * len t /\ uval v = n.
Proof.
  intros Hk L0 L1 Hn. set (s := repeat 48 k ++ t).
  assert (Ls : len s = 2 ^ 30 + len t) by (unfold s, len; rewrite app_length, repeat_length, Nnat.Nat2N.inj_add, Hk; reflexivity).
  assert (Ns : number 16 s = Some n) by (apply zeros_number; [reflexivity|exact Hn]).
  clearbody s. change (2 ^ 30) with 1073741824 in Ls.
  destruct s as [|c u]; [change (@len N []) with 0 in Ls; lia|].
  destruct (number_head _ _ _ _ Ns) as [M P].
  assert (Wo : without_sign (c :: u) = c :: u) by (cbn [without_sign]; now rewrite M, P).
  assert (Hm : has_minus (c :: u) = false) by exact M.
  assert (Lt : len (c :: u) < 2 ^ 63) by (rewrite Ls; change (2 ^ 63) with 9223372036854775808; clear - L1; lia).
  assert (GD := long_hex_str Debug _ Lt). assert (GR := long_hex_str Release _ Lt).
  unfold any_width in GD, GR. rewrite Wo, Hm in GD, GR.
  assert (Em : len (c :: u) mod 2 ^ 32 = 1073741824 + len t).
  { rewrite Ls. apply N.mod_small. change (2 ^ 32) with 4294967296. clear - L1. lia. }
  rewrite Em in GD, GR. change (2 ^ 32) with 4294967296 in GD, GR.
  replace (4 * (1073741824 + len t) + 0 <? 4294967296) with false in GD, GR by (clear; lia).
  split; [exact GD|].
  replace ((4 * (1073741824 + len t) + 0) mod 4294967296) with (4 * len t) in GR by (clear - L1; dlia).
  rewrite long_short in GR by (right; left; clear - L1; lia).
  assert (W : 0 < 4 * len t) by (clear - L0; lia).
  enough (E : reading_of 16 (4 * len t) 0 (c :: u) = Reads n).
  { rewrite E in GR. destruct GR as (v & E1 & E2 & E3 & E4). exists v. auto. }
  assert (Lw : n < 2 ^ (4 * len t)).
  { assert (B := number_below 16 t n ltac:(reflexivity) Hn). now rewrite N.pow_mul_r. }
  assert (Z : signed_text 16 (c :: u) = Some (Z.of_N n)).
  { cbn [signed_text]. rewrite M, P. cbn [unsigned_text]. rewrite Ns. reflexivity. }
  rewrite (reading_meaning 16 (4 * len t) (c :: u) (Z.of_N n) W Z).
  - f_equal. unfold wrap. rewrite Z.mod_small; [apply N2Z.id|]. clear - Lw. change 2%Z with (Z.of_N 2).
    rewrite <- N2Z.inj_pow. lia.
  - rewrite Zabs2N.id. exact Lw.
  - left. clear - L1. lia.
Qed.

Lemma torn_by_zeros m old k : well_shaped old -> 128 < width old -> N.of_nat k = 2 ^ 32 + 1 ->
  ends_as (un_from_str_radix m (repeat 48 k) 2 (width old) (words old)) (width old)
    (Stops match m with Debug => uval old | Release => 2 ^ 64 * (uval old / 2 ^ 64) end).
Proof.
  intros Hs W Hk. assert (L : len (repeat 48 k) = 4294967297) by (unfold len; rewrite repeat_length; exact Hk).
  assert (G := long_assign m old (repeat 48 k) 2 Hs ltac:(rewrite L; reflexivity)).
  replace (any_reading m 2 (width old) (uval old) (repeat 48 k))
    with (Stops match m with Debug => uval old | Release => 2 ^ 64 * (uval old / 2 ^ 64) end) in G; [exact G|].
  assert (Ld := zeros_leading 2 k ltac:(reflexivity)). clear G.
  destruct k as [|k]; [discriminate|].
  assert (D : digits_of (repeat 48 (S k)) = repeat 48 (S k)) by reflexivity.
  assert (A : after_minus (repeat 48 (S k)) = 48 :: repeat 48 k) by reflexivity.
  assert (F : firstn 1 (repeat 48 (S k)) = [48]) by reflexivity.
  assert (M : has_minus (repeat 48 (S k)) = false) by reflexivity.
  unfold any_reading. rewrite L, A, D, M.
  change (4294967297 =? 0) with false. cbv iota. replace (width old =? 0) with false by (clear - W; lia).
  set (d := repeat 48 (S k)) in *. clearbody d.
  unfold any_digits. rewrite L. replace (128 <? width old) with true by (clear - W; lia).
  change (2 =? 16) with false. change (2 =? 2) with true. change (2 ^ 32 <=? 4294967297) with true. cbn [andb].
  unfold long_bin. rewrite L. change (4294967297 mod 2 ^ 32) with 1. replace (width old <? 1) with false by (clear - W; lia).
  unfold cut, first_group. change (2 ^ 1) with 2. rewrite Ld, L. destruct m.
  - reflexivity.
  - change (64 / 1) with 64. change ((4294967297 - 1) mod 64 + 1) with 1. change ((1 + 63) / 64) with 1.
    change (N.min 1 ((4294967297 + 64 - 1) / 64)) with 1. change (1 =? 0) with false.
    change (1 + 64 * 1 <=? 4294967297) with true. cbv iota. change (N.to_nat (1 + 64 * (1 - 1))) with 1%nat. rewrite F.
    change (leading_number 2 [48]) with 0. unfold splice. change (1 - 1) with 0. rewrite N.mul_0_r. change (2 ^ 0) with 1.
    rewrite N.mod_1_r, N.mul_0_r, !N.add_0_l. now rewrite N.mul_1_r.
Qed.

Lemma long_text : exists k, N.of_nat k = 2 ^ 32 + 1 /\ len (repeat 48 k) < 2 ^ 63
  /\ any_width Release 4 (repeat 48 k) = Some 4 /\ 2 ^ 32 <= len (digits_of (repeat 48 k)).
Proof.
  assert (E : exists k, N.of_nat k = 4294967297) by (exists (N.to_nat 4294967297); apply N2Nat.id).
  destruct E as (k & E). exists k. split; [exact E|].
  assert (L : len (repeat 48 k) = 4294967297) by (unfold len; rewrite repeat_length; exact E).
  destruct k as [|k]; [discriminate|].
  assert (D : digits_of (repeat 48 (S k)) = repeat 48 (S k)) by reflexivity.
  assert (W : without_sign (repeat 48 (S k)) = repeat 48 (S k)) by reflexivity.
  assert (M : has_minus (repeat 48 (S k)) = false) by reflexivity.
  unfold any_width. rewrite D, W, M, L. repeat split; discriminate.
Qed.
