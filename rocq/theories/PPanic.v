(** * PPanic: exactly which calls panic in a debug build. *)

From Coq Require Import ZifyBool ZifyNat ZifyN.
From Verif Require Import Base Arith Strings Bytes BigInt Bv Spec TextSpec IoSpec ProfileSpec CallSpec PanicSpec.
From Verif Require Import PWords PArith PShift PropsArith PCompare PConv PText PParse PropsText PIo PRegister
  PMisc PReject PProfile PCall PShape.
Ltac Zify.zify_post_hook ::= idtac.

(** The call panics and [P] holds, or it returns and [P] does not. *)
Definition settles {A} (P : Prop) (r : res A) : Prop := P /\ panics r \/ ~ P /\ exists v, r = Ok v.

Lemma settles_iff {A} P (r : res A) : settles P r -> (panics r <-> P).
Proof. intros [[H K]|[H (v & E)]]; split; auto; [intros (p & K); congruence|easy]. Qed.
Lemma settles_panic {A} (P : Prop) (r : res A) : P -> panics r -> settles P r.
Proof. left. auto. Qed.
Lemma settles_ok {A} (P : Prop) (r : res A) v : ~ P -> r = Ok v -> settles P r.
Proof. right. eauto. Qed.
Lemma settles_yields P r w n : ~ P -> yields r w n -> settles P r.
Proof. intros H (v & E & _). right. eauto. Qed.
Lemma settles_then {A B} P (r : res A) (k : A -> res B) : (forall a, r = Ok a -> exists b, k a = Ok b) ->
  settles P r -> settles P (bind r k).
Proof.
  intros G [[H (p & K)]|[H (v & E)]].
  - left. split; auto. exists p. now rewrite K.
  - right. split; auto. rewrite E. cbn [bind]. now apply G.
Qed.
Lemma settles_ext {A} (P Q : Prop) (r : res A) : (P <-> Q) -> settles P r -> settles Q r.
Proof. unfold settles. tauto. Qed.
Lemma settles_eq {A} P (r r' : res A) : r = r' -> settles P r' -> settles P r.
Proof. now intros ->. Qed.

(** ** Texts *)

Lemma hex_digit_some c : hex_digit c <-> hex_digit_value c <> None.
Proof.
  unfold hex_digit, hex_digit_value.
  destruct ((48 <=? c) && (c <=? 57)) eqn:A; [split; [easy|lia]|].
  destruct ((97 <=? c) && (c <=? 102)) eqn:B; [split; [easy|lia]|].
  destruct ((65 <=? c) && (c <=? 70)) eqn:C; [split; [easy|lia]|].
  split; [lia|easy].
Qed.

Lemma gloop_settles dv b per epi m num s : 0 < per -> forall ii out word,
  num = ii + len s -> 0 < ii -> len out <= len s / per -> 0 < len out ->
  settles (Forall (fun c => dv c <> None) (firstn (N.to_nat (len s mod per)) s))
    (gloop dv b per epi m num s ii out (len s / per) word).
Proof.
  intros Pp. induction s as [|c t IH]; intros ii out word Hnum Hii Hlen Hpos.
  - change (@len N []) with 0 in *. rewrite N.div_0_l in Hlen by lia. lia.
  - rewrite len_cons in *. rewrite gloop_step by auto.
    replace (0 <? ii) with true by lia. cbn [andb].
    destruct ((len t + 1) mod per =? 0) eqn:R.
    + apply settles_panic.
      * apply N.eqb_eq in R. rewrite R. constructor.
      * rewrite set_idx_panic by auto. eexists. reflexivity.
    + cbn [bind].
      assert (Hq := N.div_mod (len t + 1) per ltac:(lia)).
      assert (Hr := N.mod_upper_bound (len t + 1) per ltac:(lia)).
      assert (D : len t / per = (len t + 1) / per).
      { symmetry. apply (N.div_unique _ _ _ ((len t + 1) mod per - 1)); lia. }
      assert (M : (len t + 1) mod per = len t mod per + 1).
      { assert (Q2 := N.div_mod (len t) per ltac:(lia)). rewrite D in Q2. lia. }
      rewrite M. replace (N.to_nat (len t mod per + 1)) with (S (N.to_nat (len t mod per))) by lia.
      cbn [firstn].
      destruct (dv c) as [d|] eqn:E.
      * rewrite <- D in *. eapply settles_ext; [|apply (IH (ii + 1) out); auto; lia].
        split; [intros F; constructor; [congruence|auto]|intros F; now inversion_clear F].
      * right. split; [|eauto]. intros F. inversion_clear F. easy.
Qed.

Lemma chunk_digits d : d <> [] ->
  (Forall hex_digit (firstn (N.to_nat ((len d - 1) mod 16 + 1)) d)
   <-> exists c t, d = c :: t /\ hex_digit c /\ Forall hex_digit (firstn (N.to_nat (len t mod 16)) t)).
Proof.
  destruct d as [|c t]; [easy|]. intros _. rewrite len_cons, N.add_sub.
  replace (N.to_nat (len t mod 16 + 1)) with (S (N.to_nat (len t mod 16))) by lia. cbn [firstn]. split.
  - intros F. inversion_clear F. eauto.
  - intros (? & ? & [= <- <-] & F & G). now constructor.
Qed.

Lemma parse_base_16_settles d out : d <> [] -> len d < 2 ^ 30 -> Words out -> 0 < len out ->
  settles (16 * len out < len d /\ Forall hex_digit (firstn (N.to_nat ((len d - 1) mod 16 + 1)) d))
    (parse_base_16 Debug d out).
Proof.
  intros Hd Hl HW Hp. destruct (N.le_gt_cases ((len d + 15) / 16) (len out)) as [L|L].
  - assert (G := parse_base_16_ok Debug d out Hd Hl HW L).
    assert (Q : ~ 16 * len out < len d) by (clear - L; dlia).
    destruct (number 16 d).
    + destruct G as (o & E & _). right. split; [tauto|eauto].
    + destruct G as (o & E & _). right. split; [tauto|eauto].
  - assert (Q : 16 * len out < len d) by (clear - L; dlia).
    unfold parse_base_16. change (2 ^ 30) with 1073741824 in Hl.
    assert (E : as_u32 (len d) = len d) by (unfold as_u32; apply N.mod_small; unfold B32; lia).
    rewrite E.
    assert (M : u32_mul Debug (len d) 4 = Ok (len d * 4)).
    { unfold u32_mul. unfold B32. now replace (len d * 4 <? 4294967296) with true by lia. }
    rewrite M. cbn [bind]. rewrite div_ceil_eq.
    apply (settles_ext (exists c t, d = c :: t /\ hex_digit c
             /\ Forall hex_digit (firstn (N.to_nat (len t mod 16)) t))).
    { rewrite chunk_digits by auto. tauto. }
    destruct d as [|c t]; [easy|]. rewrite len_cons in *.
    replace (((len t + 1) * 4 + 63) / 64) with (len t / 16 + 1) by (clear; dlia).
    rewrite u32_sub_ok by (clear; dlia). cbn [bind]. rewrite loop16_gloop.
    rewrite gloop_step by auto. change (0 <? 0) with false. cbn [andb bind]. rewrite N.add_sub.
    destruct (hex_digit_value c) as [x|] eqn:Hc.
    + eapply settles_ext; [|apply (gloop_settles hex_digit_value 4 16)]; try (clear - Q Hp; dlia); try lia.
      assert (F : forall l, Forall hex_digit l <-> Forall (fun c => hex_digit_value c <> None) l).
      { intros l. rewrite !Forall_forall. split; intros G a Ha; apply hex_digit_some; auto. }
      rewrite <- F. split.
      * intros G. exists c, t. split; [auto|]. split; [apply hex_digit_some; congruence|auto].
      * intros (? & ? & [= <- <-] & _ & G). auto.
    + right. split; [|eauto]. intros (? & ? & [= <- <-] & G & _). now apply hex_digit_some in G.
Qed.

Lemma parse_base_2_returns d out w : d <> [] -> len d < 2 ^ 32 -> Words out -> len out = (w + 63) / 64 ->
  exists p, parse_base_2 Debug d out w = Ok p.
Proof.
  intros Hd Hl HW Ho. destruct (parse_base_2_ok Debug d out w Hd Hl HW Ho) as [G1 G2].
  destruct (N.lt_ge_cases w (len d)) as [L|L]; [rewrite G1 by auto; eauto|].
  specialize (G2 L). destruct (number 2 d); destruct G2 as (o & E & _); eauto.
Qed.

(** the magnitude, i.e. the text after '-' *)
Definition magnitude_rejected (s : list N) (radix w : N) : Prop :=
  (w <= 128 /\ ~ (2 <= radix <= 36))
  \/ (128 < w /\ digits_of s <> [] /\ radix <> 2 /\ radix <> 16)
  \/ (128 < w /\ radix = 16 /\ 16 * ((w + 63) / 64) < len (digits_of s)
      /\ Forall hex_digit (firstn (N.to_nat ((len (digits_of s) - 1) mod 16 + 1)) (digits_of s))).

Lemma std_radix lim r s : settles (~ (2 <= r <= 36)) (std_from_str_radix lim r s).
Proof.
  unfold std_from_str_radix. destruct ((2 <=? r) && (r <=? 36)) eqn:E.
  - right. split; [lia|]. cbn [assert bind]. eauto.
  - left. split; [lia|]. eexists. reflexivity.
Qed.

Lemma small_settles s r out w : 0 < w -> w <= 128 -> len out = (w + 63) / 64 ->
  settles (~ (2 <= r <= 36)) (parse_magnitude Debug s r out w).
Proof.
  intros H0 H1 L. unfold parse_magnitude.
  assert (C : (w + 63) / 64 = 1 /\ w <= 64 \/ (w + 63) / 64 = 2) by (clear - H0 H1; dlia).
  destruct C as [[C H64]|C]; rewrite C in *.
  - destruct (len_0_1 _ L) as (x & ->). replace (w <=? 64) with true by lia. rewrite debug_assert_true. cbn [bind].
    apply settles_then; [|apply std_radix]. intros [] _; eauto.
  - assert (E : exists x y, out = [x; y]).
    { destruct out as [|x [|y [|z t]]]; rewrite ?len_cons in L; nils; try lia; eauto. }
    destruct E as (x & y & ->). replace (w <=? 128) with true by lia. rewrite debug_assert_true. cbn [bind].
    apply settles_then; [|apply std_radix]. intros [] _; eauto.
Qed.

Lemma wide_settles s r out w : 128 < w -> len out = (w + 63) / 64 -> Words out ->
  after_minus s <> [] -> len (after_minus s) < 2 ^ 30 ->
  settles (magnitude_rejected s r w) (parse_magnitude Debug (after_minus s) r out w).
Proof.
  intros Hw Lo HW Hs Hl. rewrite mag_wide by auto.
  assert (Ho : 0 < len out) by (rewrite Lo; clear - Hw; dlia).
  assert (M : magnitude_rejected s r w <->
    digits_of s <> [] /\ (r <> 2 /\ r <> 16
    \/ r = 16 /\ 16 * len out < len (digits_of s)
       /\ Forall hex_digit (firstn (N.to_nat ((len (digits_of s) - 1) mod 16 + 1)) (digits_of s)))).
  { unfold magnitude_rejected. rewrite <- Lo. split.
    - intros [[? ?]|[(? & ? & ? & ?)|(? & ? & L & ?)]]; [lia|tauto|].
      split; [|tauto]. intros E. rewrite E in L. change (@len N []) with 0 in L. lia.
    - tauto. }
  apply (settles_ext _ _ _ (iff_sym M)). clear M.
  unfold digits_of in *. destruct (after_minus s) as [|c t]; [easy|]. clear Hs.
  unfold strip_plus. change c_plus with 43.
  assert (G : forall d, d <> [] -> len d < 2 ^ 30 ->
    settles (d <> [] /\ (r <> 2 /\ r <> 16 \/ r = 16 /\ 16 * len out < len d
       /\ Forall hex_digit (firstn (N.to_nat ((len d - 1) mod 16 + 1)) d)))
    (if r =? 2 then parse_base_2 Debug d out w
      else if r =? 10 then Panic PTodo
      else if r =? 16 then parse_base_16 Debug d out
      else Panic PTodo)).
  { intros d Hd Hdl. destruct (N.eqb_spec r 2) as [->|R2].
    - right. split; [intros (_ & [[]|[H _]]); [easy|discriminate]|].
      apply parse_base_2_returns; auto. eapply N.lt_trans; [exact Hdl|reflexivity].
    - destruct (N.eqb_spec r 10) as [->|R10].
      { left. split; [split; [auto|]; left; split; discriminate|eexists; reflexivity]. }
      destruct (N.eqb_spec r 16) as [->|R16].
      + eapply settles_ext; [|apply parse_base_16_settles; auto]. tauto.
      + left. split; [tauto|eexists; reflexivity]. }
  assert (L1 : len t < 2 ^ 30) by (rewrite len_cons in Hl; clear - Hl; lia).
  destruct (c =? 43) eqn:P.
  - destruct t as [|c' t'].
    + right. split; [tauto|eauto].
    + apply G; auto. discriminate.
  - destruct t as [|c' t']; (apply G; auto; discriminate).
Qed.

Lemma magnitude_settles s r out w : 0 < w -> len out = (w + 63) / 64 -> Words out ->
  after_minus s <> [] -> len (after_minus s) < 2 ^ 30 ->
  settles (magnitude_rejected s r w) (parse_magnitude Debug (after_minus s) r out w).
Proof.
  intros H0 Lo HW Hs Hl. destruct (N.le_gt_cases w 128) as [L|L].
  - eapply settles_ext; [|apply small_settles; auto]. unfold magnitude_rejected. clear - L.
    split; [tauto|]. intros [[? ?]|[(? & _)|(? & _)]]; [auto|lia|lia].
  - now apply wide_settles.
Qed.

Lemma negate_returns l w : 0 < w -> len l = (w + 63) / 64 -> exists o, ar_negate_in_place Debug l w = Ok o.
Proof.
  intros Hw L. unfold ar_negate_in_place. destruct (negate_loop_shape l 1) as [A B].
  destruct (mask_wres Debug (ar_negate_loop 1 l) w) as (o & E & _); auto; [congruence|eauto].
Qed.

Lemma parse_settles s r out w : w < 2 ^ 32 -> len out = (w + 63) / 64 -> Words out -> len s < 2 ^ 30 ->
  settles (text_rejected s r w) (from_str_radix Debug s r out w).
Proof.
  intros Hw Lo HW Hl. unfold from_str_radix.
  destruct s as [|c t]; [right; split; [intros (_ & H & _); now apply H|eauto]|].
  assert (M : strip_minus (c :: t) = (c =? 45, after_minus (c :: t))).
  { cbn [strip_minus after_minus]. change c_minus with 45. now destruct (c =? 45). }
  rewrite M. assert (Hl' : len (after_minus (c :: t)) < 2 ^ 30).
  { cbn [after_minus]. destruct (c =? 45); [|auto]. rewrite len_cons in Hl. clear - Hl. lia. }
  destruct (w =? 0) eqn:W.
  { right. split; [intros (H & _); lia|].
    destruct (after_minus (c :: t)) as [|x [|y u]]; eauto. destruct (x =? c_0); eauto. }
  assert (H0 : 0 < w) by lia. clear W M.
  destruct (after_minus (c :: t)) as [|x u] eqn:E.
  { right. split; [intros (_ & H & _); now apply H|eauto]. }
  assert (G := magnitude_settles (c :: t) r out w H0 Lo HW). rewrite E in G.
  specialize (G ltac:(discriminate) Hl').
  apply (settles_ext (magnitude_rejected (c :: t) r w)).
  { unfold text_rejected, magnitude_rejected. rewrite E. split; [|tauto].
    intros H. split; [auto|]. split; [discriminate|auto]. }
  apply settles_then; [|exact G].
  intros [o e] F. destruct e; [eauto|]. destruct (c =? 45); [|eauto].
  apply (gives_magnitude Debug (x :: u) r out w (len out) eq_refl HW) in F as [F1 _].
  destruct (negate_returns o w H0) as (o' & ->); [congruence|]. cbn [bind]. eauto.
Qed.

Lemma assign_str_settles a s r : wf a -> len s < 2 ^ 30 ->
  settles (text_rejected s r (width a)) (bv_assign_from_str_radix Debug a s r).
Proof.
  intros Ha Hl. apply wf_is in Ha. apply is_bv_inv in Ha as (_ & Hw & L & HW & _).
  unfold bv_assign_from_str_radix. apply settles_then; [intros [? ?] _; eauto|]. now apply parse_settles.
Qed.
Lemma from_str_settles s r w : w < 2 ^ 32 -> len s < 2 ^ 30 ->
  settles (text_rejected s r w) (bv_from_str_radix Debug s r w).
Proof.
  intros Hw Hl. unfold bv_from_str_radix. apply settles_then; [intros [? []] _; eauto|].
  apply (assign_str_settles (bv_zero w) s r); auto. now apply zero_is_bv.
Qed.

Lemma digits_le s : len s < 2 ^ 30 -> len (digits_of s) <= num_digits s /\ num_digits s < 2 ^ 30.
Proof.
  intros Hl. assert (U : forall n, n < 2 ^ 30 -> as_u32 n = n).
  { intros n Hn. unfold as_u32. apply N.mod_small. rewrite B32_eq. eapply N.lt_trans; [exact Hn|reflexivity]. }
  assert (D : forall t : list N, len (match t with c :: u => if c =? 43 then u else c :: u | [] => [] end) <= len t).
  { intros [|c u]; [apply N.le_refl|]. destruct (c =? 43); rewrite len_cons; lia. }
  unfold digits_of, num_digits, after_minus, c_plus, c_minus. destruct s as [|c t]; [split; [apply N.le_refl|reflexivity]|].
  rewrite len_cons in *. assert (Lt : len t < 2 ^ 30) by (clear - Hl; lia). rewrite !U by auto.
  destruct t as [|c' t'].
  - change (@len N []) with 0 in *.
    destruct (N.eqb_spec c 45) as [->|N1]; [split; [apply N.le_refl|reflexivity]|].
    destruct (N.eqb_spec c 43) as [->|N2]; [split; [apply N.le_refl|reflexivity]|]. split; [apply N.le_refl|reflexivity].
  - destruct (N.eqb_spec c 45) as [->|N1].
    + rewrite orb_true_r. split; [apply (D (c' :: t'))|auto].
    + destruct (N.eqb_spec c 43) as [->|N2]; cbn [orb].
      * split; [apply N.le_refl|auto].
      * rewrite len_cons. rewrite len_cons in Hl. rewrite len_cons. split; [apply N.le_refl|auto].
Qed.

Lemma sized_settles b s : b = 2 \/ b = 16 -> len s < 2 ^ 30 ->
  settles False (let* w := determine_width_from_str_radix Debug s b in bv_from_str_radix Debug s b w).
Proof.
  intros Hb Hl. destruct (digits_le s Hl) as [D1 D2]. change (2 ^ 30) with 1073741824 in D2.
  assert (W : exists w, determine_width_from_str_radix Debug s b = Ok w /\ w < 2 ^ 32
    /\ (b = 16 -> 4 * num_digits s <= w)).
  { unfold determine_width_from_str_radix. replace ((b =? 2) || (b =? 16)) with true by lia.
    rewrite debug_assert_true. cbn [bind].
    assert (U : forall k, k < 4294967295 -> exists w, u32_add Debug k (if starts_with_minus s then 1 else 0) = Ok w
      /\ w < 2 ^ 32 /\ k <= w).
    { intros k Hk. rewrite u32_add_ok. - eexists. split; [reflexivity|]. change (2 ^ 32) with 4294967296.
      destruct (starts_with_minus s); lia.
      - change (2 ^ 32) with 4294967296. destruct (starts_with_minus s); lia. }
    destruct Hb as [-> | ->].
    - change (2 =? 2) with true. cbn iota. cbn [bind]. destruct (U (num_digits s) ltac:(lia)) as (w & E1 & E2 & _).
      exists w. repeat split; auto. discriminate.
    - change (16 =? 2) with false. change (16 =? 16) with true. cbn iota.
      unfold u32_mul, B32. replace (num_digits s * 4 <? 4294967296) with true by lia. cbn [bind].
      destruct (U (num_digits s * 4) ltac:(lia)) as (w & E1 & E2 & E3). exists w. repeat split; auto. lia. }
  destruct W as (w & E & Hw & G). rewrite E. cbn [bind].
  eapply settles_ext; [|apply from_str_settles; auto]. split; [|easy].
  intros (_ & _ & [[_ H]|[(_ & _ & H)|(_ & H16 & H & _)]]); [lia|lia|].
  specialize (G H16). clear - G H D1. dlia.
Qed.

(** ** Calls *)

Ltac zero_case W := match type of W with width ?a = 0 =>
  match goal with Ha : wf a |- _ => let E := fresh "E" in assert (E := wf_0 a Ha W); subst a end end.

Lemma bin_settles op a b : wf a -> wf b -> settles (rejects (KBin op a b)) (run_bin op Debug a b).
Proof.
  intros Ha Hb. assert (Ia := wf_is a Ha). assert (Ib := wf_is b Hb). cbn [rejects].
  destruct (N.eq_dec (width a) (width b)) as [W|W].
  - destruct (N.eq_dec (width a) 0) as [W0|W0].
    + rewrite W0 in W. symmetry in W. zero_case W0. zero_case W.
      destruct (zero_width_panics Debug _ zero_bv_0) as ((P1 & P2 & P3) & (P4 & P5 & P6) & _).
      destruct (zero_width_works Debug _ _ zero_bv_0 zero_bv_0) as (_ & _ & _ & (Y1 & Y2 & Y3) & _).
      destruct (zero_width_concat Debug _ _ 0 0 zero_bv_0 zero_bv_0) as [_ C].
      destruct (C ltac:(lia)) as [C1 _].
      destruct op; cbn [run_bin];
        first [ apply settles_panic; [cbn; tauto|assumption]
              | eapply settles_yields; [|eassumption]; cbn; lia
              | apply settles_panic; [right; split; [now left|discriminate]|assumption] ].
    + assert (Hw : 0 < width a) by lia. assert (N1 : ~ (width a <> width b)) by lia.
      assert (N2 : ~ (width a <> width b \/ width a = 0)) by lia.
      assert (Ib' := Ib). rewrite <- W in Ib'.
      destruct (bitwise_bits Debug a b _ _ _ Hw Ia Ib') as
        ((u1 & n1 & E1 & _) & (u2 & n2 & E2 & _) & (u3 & n3 & E3 & _) & _).
      destruct op; cbn [run_bin].
      * exact (settles_yields _ _ _ _ N2 (add_ok Debug a b _ _ _ Hw Ia Ib')).
      * exact (settles_yields _ _ _ _ N2 (sub_ok Debug a b _ _ _ Hw Ia Ib')).
      * destruct (mul_cases Debug a b _ _ _ Hw Ia Ib') as [M1 M2].
        destruct (N.le_gt_cases (width a) 64) as [L|L].
        -- eapply settles_yields; [|exact (M1 L)]. lia.
        -- apply settles_panic; [lia|auto].
      * exact (settles_ok _ _ _ N1 E1).
      * exact (settles_ok _ _ _ N1 E2).
      * exact (settles_ok _ _ _ N1 E3).
      * destruct (shift_left_raw Debug a b _ _ _ Ia Ib' Hw) as (u & E & _).
        exact (settles_ok _ _ _ N2 E).
      * exact (settles_yields _ _ _ _ N2 (proj1 (shift_right_cases Debug a b _ _ _ Hw Ia Ib'))).
      * destruct (asr_signed Debug a b _ _ _ Ia Ib' Hw) as (u & n & E & _).
        exact (settles_ok _ _ _ N2 E).
      * destruct (N.lt_ge_cases (width a + width b) (2 ^ 32)) as [L|L].
        -- eapply settles_yields; [|exact (concat_any Debug a b _ _ _ _ Ia Ib ltac:(left; split; congruence) L)].
           clear - L W W0. lia.
        -- apply settles_panic; [now left|exact (proj1 (overflow_debug a b 0) L)].
  - destruct (mismatch_debug a b W) as ((P1 & P2 & P3) & (P4 & P5 & P6) & (P7 & P8 & P9) & _).
    destruct op; cbn [run_bin]; try (apply settles_panic; [tauto|assumption]).
    destruct (N.lt_ge_cases (width a + width b) (2 ^ 32)) as [L|L].
    + destruct (N.eq_dec (width a) 0) as [Z|Z]; [|destruct (N.eq_dec (width b) 0) as [Z'|Z']].
      * zero_case Z. destruct (zero_width_concat Debug _ _ _ _ zero_bv_0 Ib) as [C1 C2].
        change (width (bv_zero 0)) with 0 in *. rewrite N.add_0_l in *.
        destruct (N.lt_ge_cases 64 (width b)) as [G|G].
        -- destruct (C1 G) as [_ C]. eapply settles_ok; [|exact C]. clear - L G. lia.
        -- apply settles_panic; [right; auto|exact (proj2 (C2 G))].
      * zero_case Z'. destruct (zero_width_concat Debug _ _ _ _ zero_bv_0 Ia) as [C1 C2].
        change (width (bv_zero 0)) with 0 in *. rewrite N.add_0_r in *.
        destruct (N.lt_ge_cases 64 (width a)) as [G|G].
        -- destruct (C1 G) as [C _]. eapply settles_ok; [|exact C]. clear - L G. lia.
        -- apply settles_panic; [right; auto|exact (proj1 (C2 G))].
      * eapply settles_yields; [|exact (concat_any Debug a b _ _ _ _ Ia Ib ltac:(left; lia) L)].
        clear - L Z Z'. lia.
    + apply settles_panic; [now left|exact (proj1 (overflow_debug a b 0) L)].
Qed.

Lemma u64_settles n w : n < 2 ^ 64 -> w < 2 ^ 32 -> settles (w = 0 \/ 2 ^ w <= n) (bv_from_u64 Debug n w).
Proof.
  intros Hn Hw. destruct (N.eq_dec w 0) as [->|W].
  - apply settles_panic; [now left|]. eexists. reflexivity.
  - destruct (from_u64_cases n w ltac:(lia) Hw Hn) as (_ & C1 & C2).
    destruct (N.lt_ge_cases n (2 ^ w)) as [L|L].
    + eapply settles_yields; [|exact (C1 L)]. clear - W L. lia.
    + apply settles_panic; [now right|auto].
Qed.
Lemma i64_settles z w : fits 64 z -> w < 2 ^ 32 -> settles (w = 0 \/ ~ fits w z) (bv_from_i64 Debug z w).
Proof.
  intros Hn Hw. destruct (N.eq_dec w 0) as [->|W].
  - apply settles_panic; [now left|]. unfold bv_from_i64, bv_assign_from_i64.
    change (len (words (bv_clear (bv_zero 0))) =? 1) with false.
    change (words (bv_clear (bv_zero 0))) with (@nil N). change (width (bv_zero 0)) with 0.
    unfold ar_sign_extend. destruct (ar_is_neg Debug [i64_as_u64 z] 64) as [[]|]; eexists; reflexivity.
  - destruct (from_i64_cases z w ltac:(lia) Hw Hn) as (_ & C1 & C2).
    assert (D : fits w z \/ ~ fits w z) by (unfold fits; lia).
    destruct D as [L|L].
    + eapply settles_yields; [|exact (C1 L)]. clear - W L. tauto.
    + apply settles_panic; [now right|auto].
Qed.

Lemma big_int_settles z w : w < 2 ^ 32 -> settles (w = 0 /\ (z < 0)%Z) (bv_from_big_int Debug z w).
Proof.
  intros H. destruct (N.eq_dec w 0) as [->|W].
  - unfold bv_from_big_int, from_big_int, iter_to_word. cbn [N.eqb bind value_vec_zeros].
    destruct (z <? 0)%Z eqn:E.
    + apply settles_panic; [lia|]. eexists. reflexivity.
    + right. split; [lia|]. cbn [bind]. eauto.
  - eapply settles_yields; [|exact (from_big_int_ok Debug z w ltac:(lia) H)]. tauto.
Qed.

Lemma too_many_words n : 2 ^ 32 - 64 < N.size n -> N.size n < 2 ^ 38 - 64 ->
  exists k, as_u32 (len (u64_digits n)) = k /\ k <> 0 /\ 2 ^ 32 <= k * 64.
Proof.
  intros H1 H2. destruct (u64_digits_ok n) as (_ & _ & L). rewrite L.
  change (2 ^ 32) with 4294967296 in *. change (2 ^ 38) with 274877906944 in *.
  exists ((N.size n + 63) / 64). revert H1 H2. generalize (N.size n). clear. intros k H1 H2.
  unfold as_u32, B32. rewrite N.mod_small by dlia. split; [reflexivity|]. dlia.
Qed.

Lemma of_uint_settles n : N.size n < 2 ^ 38 - 64 -> settles (2 ^ 32 - 64 < N.size n) (bv_of_big_uint Debug n).
Proof.
  intros H. destruct (N.lt_ge_cases (2 ^ 32 - 64) (N.size n)) as [L|L].
  - apply settles_panic; [auto|]. destruct (too_many_words n L H) as (k & E1 & E2 & E3).
    unfold bv_of_big_uint. apply panics_bind. unfold count_big_uint_bits. rewrite E1.
    replace (k =? 0) with false by lia.
    destruct (unwrap _) as [d|p]; [|exists p; reflexivity]. cbn [bind]. apply panics_bind.
    unfold u32_mul. rewrite B32_eq. apply N.ltb_ge in E3. rewrite E3. eexists. reflexivity.
  - assert (L' : N.size n < 2 ^ 32 - 63).
    { change (2 ^ 32 - 64) with 4294967232 in L. change (2 ^ 32 - 63) with 4294967233. clear - L. lia. }
    destruct (of_big_uint_ok Debug n L') as (v & E & _). eapply settles_ok; [|exact E].
    clear - L. lia.
Qed.
Lemma of_int_settles z : N.size (Z.abs_N z) < 2 ^ 38 - 64 ->
  settles (2 ^ 32 - 64 < N.size (Z.abs_N z)) (bv_of_big_int Debug z).
Proof.
  intros H. destruct (N.lt_ge_cases (2 ^ 32 - 64) (N.size (Z.abs_N z))) as [L|L].
  - apply settles_panic; [auto|]. destruct (too_many_words _ L H) as (k & E1 & E2 & E3).
    unfold bv_of_big_int. apply panics_bind. unfold count_big_int_bits. rewrite E1.
    replace (k =? 0) with false by lia.
    destruct (unwrap _) as [d|p]; [|exists p; reflexivity]. cbn [bind]. apply panics_bind.
    unfold u32_mul. rewrite B32_eq. apply N.ltb_ge in E3. rewrite E3. eexists. reflexivity.
  - assert (L' : N.size (Z.abs_N z) < 2 ^ 32 - 63).
    { change (2 ^ 32 - 64) with 4294967232 in L. change (2 ^ 32 - 63) with 4294967233. clear - L. lia. }
    destruct (of_big_int_ok Debug z L') as (v & E & _). eapply settles_ok; [|exact E].
    clear - L. lia.
Qed.

Lemma slice_settles a msb lsb : wf a -> settles (rejects (KSlice a msb lsb)) (bv_slice Debug a msb lsb).
Proof.
  intros Ha. assert (Ia := wf_is a Ha). assert (Hw := is_bv_w _ _ _ Ia). cbn [rejects].
  destruct (N.lt_ge_cases msb lsb) as [L|L].
  { apply settles_panic; [auto|]. apply slice_debug. auto. }
  destruct (N.lt_trichotomy msb (width a)) as [M|[M|M]].
  - destruct (slice_ok Debug a _ _ msb lsb Ia L M) as (v & E & _). eapply settles_ok; [|exact E].
    clear - L M. lia.
  - assert (D : msb - lsb + 1 < 2 ^ 32 \/ msb - lsb + 1 = 2 ^ 32).
    { clear - M Hw. change (2 ^ 32) with 4294967296 in *. lia. }
    destruct D as [D|D].
    + destruct (slice_beyond Debug a _ _ msb lsb Ia L ltac:(lia) D (fun _ => M)) as [B1 B2].
      destruct (N.lt_ge_cases (msb / 64) ((width a + 63) / 64)) as [G|G].
      * eapply settles_yields; [|exact (B1 G)]. rewrite M in *.
        assert (width a mod 64 <> 0) by (clear - G; dlia).
        apply N.lt_neq in D. clear - D H L. lia.
      * apply settles_panic; [|auto]. right. right. split; [auto|]. left. rewrite M in *. clear - G. dlia.
    + apply settles_panic; [auto|]. unfold bv_slice.
      replace (msb <=? width a) with true by lia. replace (lsb <=? msb) with true by lia.
      rewrite !debug_assert_true. cbn [bind]. rewrite u32_sub_ok by auto. cbn [bind]. apply panics_bind.
      unfold u32_add. rewrite D, B32_eq, N.ltb_irrefl. eexists. reflexivity.
  - apply settles_panic; [auto|]. apply slice_debug. auto.
Qed.

Lemma bit_pos_settles a pos : wf a ->
  settles (64 * ((width a + 63) / 64) <= pos) (bv_is_bit_set a pos)
  /\ settles (64 * ((width a + 63) / 64) <= pos) (bv_set_bit a pos)
  /\ settles (64 * ((width a + 63) / 64) <= pos) (bv_clear_bit a pos).
Proof.
  intros Ha. assert (Ia := wf_is a Ha).
  destruct (N.lt_ge_cases pos (64 * ((width a + 63) / 64))) as [L|L].
  - assert (Q : ~ 64 * ((width a + 63) / 64) <= pos) by (apply N.lt_nge; exact L).
    destruct (N.lt_ge_cases pos (width a)) as [K|K].
    + destruct (set_bit_bits a _ _ pos Ia K) as (u & n & E1 & _).
      destruct (clear_bit_bits a _ _ pos Ia K) as (u' & n' & E2 & _).
      assert (E3 := is_bit_set_ok a _ _ pos Ia K).
      split; [|split]; eapply settles_ok; eauto.
    + destruct (set_bit_beyond a _ _ pos Ia K L) as (u & E1 & _).
      assert (E2 := clear_bit_beyond a _ _ pos Ia K L).
      assert (E3 := is_bit_set_beyond a _ _ pos Ia K L).
      split; [|split]; eapply settles_ok; eauto.
  - destruct (beyond_panics a _ _ pos Ia L) as (P1 & P2 & P3).
    split; [|split]; apply settles_panic; auto.
Qed.

Lemma call_settles c : (forall a, In a (operands c) -> wf a) -> in_range c -> in_memory c ->
  settles (rejects c) (run Debug c).
Proof.
  intros Ho Hr Hm.
  destruct c; cbn [run in_range operands in_memory] in *;
    try (assert (Ha := Ho a (or_introl eq_refl)); assert (Ia := wf_is a Ha));
    try (apply settles_then; [now eauto|]).
  - right. split; [auto|eauto].
  - cbn [rejects]. destruct (N.eq_dec w 0) as [->|W].
    + apply settles_panic; [auto|]. eexists. reflexivity.
    + exact (settles_yields _ _ _ _ W (ones_ok Debug w ltac:(lia) Hr)).
  - now apply u64_settles.
  - now apply i64_settles.
  - destruct b; eapply settles_ok; try reflexivity; easy.
  - eapply settles_ok; try reflexivity; easy.
  - eapply settles_ok; try reflexivity; easy.
  - now apply from_str_settles.
  - apply (sized_settles 2); auto.
  - apply (sized_settles 16); auto.
  - destruct Hr as [H1 H2]. cbn [rejects]. destruct (N.eq_dec w 0) as [W|W].
    + eapply settles_yields; [|exact (from_bytes_le_ok Debug bytes w H2 H1 (or_introl W))]. clear - W. lia.
    + destruct (N.le_gt_cases (len bytes) (8 * ((w + 63) / 64))) as [L|L].
      * eapply settles_yields; [|exact (from_bytes_le_ok Debug bytes w H2 H1 (or_intror L))].
        intros [_ K]. apply N.lt_nge in K. auto.
      * apply settles_panic; [lia|]. apply from_bytes_le_panics; [lia|auto].
  - now apply big_int_settles.
  - eapply settles_yields; [|exact (from_big_uint_ok Debug n w Hr)]. auto.
  - now apply of_int_settles.
  - now apply of_uint_settles.
  - apply bin_settles; auto. apply Ho. cbn; auto.
  - cbn [rejects]. destruct (N.eq_dec (width a) 0) as [W|W].
    + zero_case W. apply settles_panic; [auto|]. eexists; reflexivity.
    + destruct (bitwise_bits Debug a a _ _ _ (proj1 (N.neq_0_lt_0 _) W) Ia Ia) as (_ & _ & _ & (u & n & E1 & I1 & _)).
      exact (settles_ok _ _ _ W E1).
  - cbn [rejects]. destruct (N.eq_dec (width a) 0) as [W|W].
    + zero_case W. apply settles_panic; [auto|]. eexists; reflexivity.
    + exact (settles_yields _ _ _ _ W (negate_ok Debug a _ _ (proj1 (N.neq_0_lt_0 _) W) Ia)).
  - now apply slice_settles.
  - cbn [rejects]. destruct (N.lt_ge_cases (width a + k) (2 ^ 32)) as [L|L].
    + destruct (N.eq_dec (width a) 0) as [W|W].
      * zero_case W. destruct (zero_width_extend Debug _ k zero_bv_0 Hr) as (Z1 & Z2 & _).
        change (width (bv_zero 0)) with 0 in *. rewrite N.add_0_l in *.
        destruct (N.lt_ge_cases 64 k) as [G|G].
        -- eapply settles_yields; [|exact (Z1 G)]. clear - G L. lia.
        -- apply settles_panic; auto.
      * eapply settles_yields; [|exact (zero_extend_ok Debug a _ _ k Ia (proj1 (N.neq_0_lt_0 _) W) L)].
        clear - W L. lia.
    + apply settles_panic; [auto|]. exact (proj1 (proj2 (overflow_debug a a k) L)).
  - cbn [rejects]. destruct (N.lt_ge_cases (width a + k) (2 ^ 32)) as [L|L].
    + destruct (N.eq_dec (width a) 0) as [W|W].
      * zero_case W. destruct (zero_width_extend Debug _ k zero_bv_0 Hr) as (_ & _ & Z2).
        apply settles_panic; auto.
      * destruct (sign_extend_signed Debug a _ _ k Ia (proj1 (N.neq_0_lt_0 _) W) L) as (u & n & E1 & I1 & _).
        eapply settles_ok; [|exact E1]. clear - W L. lia.
    + apply settles_panic; [auto|]. exact (proj2 (proj2 (overflow_debug a a k) L)).
  - cbn [rejects]. assert (Hb := Ho b (or_intror (or_introl eq_refl))).
    destruct (N.eq_dec (width a) (width b)) as [W|W].
    + right. split; [auto|]. unfold bv_assign. apply wf_is in Hb.
      apply is_bv_inv in Ia as (_ & _ & La & _). apply is_bv_inv in Hb as (_ & _ & Lb & _).
      rewrite La, Lb, W, !N.eqb_refl, debug_assert_true. cbn. eauto.
    + apply settles_panic; [auto|]. apply (mismatch_debug a b W).
  - cbn [rejects]. destruct (N.eq_dec (width a) 0) as [W|W].
    + zero_case W. apply settles_panic; [auto|]. eexists; reflexivity.
    + apply is_bv_inv in Ia as (_ & Hw & La & Wa & Va & Ba).
      destruct (mask_wres Debug (words a) (width a)) as (l & E1 & E2 & E3 & E4); auto; [now apply N.neq_0_lt_0|].
      right. split; [auto|]. unfold bv_mask_msb. rewrite E1. cbn [bind]. eauto.
  - right. split; [auto|eauto].
  - cbn [rejects].
    assert (E' : bv_ones Debug (width a) = bv_assign_ones Debug a).
    { unfold bv_ones, bv_assign_ones. f_equal. rewrite <- (clear_zero a Ha).
      cbn [bv_clear width words]. f_equal. now rewrite map_map. }
    rewrite <- E'. destruct (N.eq_dec (width a) 0) as [W|W].
    + rewrite W. apply settles_panic; [auto|]. eexists; reflexivity.
    + exact (settles_yields _ _ _ _ W (ones_ok Debug (width a) (proj1 (N.neq_0_lt_0 _) W) (proj1 Ha))).
  - cbn [rejects]. eapply settles_eq; [|apply (u64_settles n (width a)); [auto|apply Ha]].
    unfold bv_from_u64, bv_assign_from_u64.
    rewrite (clear_zero a Ha), clear_zero by (apply zero_is_bv; apply Ha). reflexivity.
  - cbn [rejects]. eapply settles_eq; [|apply (i64_settles z (width a)); [auto|apply Ha]].
    unfold bv_from_i64, bv_assign_from_i64.
    rewrite (clear_zero a Ha), clear_zero by (apply zero_is_bv; apply Ha). reflexivity.
  - cbn [rejects]. apply settles_then; [intros [? ?] _; eauto|]. apply assign_str_settles; [auto|apply Hr].
  - now apply bit_pos_settles.
  - now apply bit_pos_settles.
Qed.

(** ** Questions *)

Lemma test_settles t a b : wf a -> wf b -> settles (rejects_question (QTest t a b)) (run_test t Debug a b).
Proof.
  intros Ha Hb. assert (Ia := wf_is a Ha). assert (Ib := wf_is b Hb). cbn [rejects_question].
  destruct (eq_cases Debug a b Ha Hb) as (_ & _ & (c1 & C1) & (c2 & C2)).
  destruct (N.eq_dec (width a) (width b)) as [W|W].
  - assert (N1 : ~ (width a <> width b)) by lia.
    assert (Ib' := Ib). rewrite <- W in Ib'.
    destruct (equal_cases Debug a b _ _ _ Ia Ib') as [E1 E2].
    destruct (strict_cases Debug a b _ _ _ Ia Ib') as [G1 G2].
    destruct (N.eq_dec (width a) 0) as [W0|W0].
    + rewrite W0 in W. symmetry in W. zero_case W0. zero_case W.
      destruct t; cbn [run_test]; first
        [ eapply settles_ok; [|eassumption]; tauto
        | eapply settles_ok; [|reflexivity]; tauto
        | apply settles_panic; [tauto|eexists; reflexivity] ].
    + destruct (signed_cases Debug a b _ _ _ (proj1 (N.neq_0_lt_0 _) W0) Ia Ib') as (S1 & S2 & S3 & S4).
      assert (N2 : ~ (width a <> width b \/ width a = 0)) by lia.
      assert (Q1 := is_greater_or_equal_raw Debug a b _ _ _ Ia Ib').
      assert (Q2 := is_greater_or_equal_raw Debug b a _ _ _ Ib' Ia).
      destruct t; cbn [run_test]; first
        [ eapply settles_ok; [|eassumption]; tauto
        | eapply settles_ok; [|exact Q2]; tauto ].
  - destruct (mismatch_debug a b W) as (_ & _ & _ & (P1 & P2) & (P3 & P4 & P5 & P6) & (P7 & P8 & P9 & P10) & _).
    destruct t; cbn [run_test]; first
      [ apply settles_panic; [tauto|assumption] | eapply settles_ok; [|eassumption]; tauto ].
Qed.

Lemma fixed_settles a f : wf a -> settles (width a < f \/ 64 <= f) (bv_to_unsigned_fixed_point Debug a f).
Proof.
  intros Ha. assert (Ia := wf_is a Ha).
  destruct (N.le_gt_cases f (width a)) as [L|L].
  - destruct (N.lt_ge_cases f 64) as [G|G].
    + destruct (unsigned_fixed_ok Debug a _ _ f Ia L G) as [F1 F2].
      destruct (N.lt_ge_cases (uval a) (2 ^ 64)) as [X|X].
      * destruct (F1 X) as (q & E & _). eapply settles_ok; [|exact E]. clear - L G. lia.
      * eapply settles_ok; [|exact (F2 X)]. clear - L G. lia.
    + apply settles_panic; [auto|]. rewrite (fixed_wide Debug a _ _ f Ia L G). eexists. reflexivity.
  - apply settles_panic; [auto|]. exact (proj1 (fixed_too_wide Debug a _ _ f Ia L eq_refl)).
Qed.

Lemma fixed_signed_settles a f : wf a ->
  settles (rejects_question (QFixedSigned a f)) (bv_to_signed_fixed_point Debug a f).
Proof.
  intros Ha. assert (Ia := wf_is a Ha). cbn [rejects_question].
  destruct (N.eq_dec (width a) 0) as [W|W].
  { apply settles_panic; [auto|]. zero_case W. unfold bv_to_signed_fixed_point.
    destruct (debug_assert _ _) as [|p]; cbn [bind]; [|exists p; reflexivity]. eexists. reflexivity. }
  assert (Hw := proj1 (N.neq_0_lt_0 _) W).
  destruct (N.le_gt_cases f (width a)) as [L|L].
  2:{ apply settles_panic; [auto|]. exact (proj2 (fixed_too_wide Debug a _ _ f Ia L eq_refl)). }
  unfold bv_to_signed_fixed_point. replace (f <=? width a) with true by lia.
  rewrite debug_assert_true. cbn [bind]. rewrite (is_negative_ok Debug a _ _ Hw Ia). cbn [bind].
  destruct (Z.ltb_spec (signed (width a) (uval a)) 0) as [S|S].
  - destruct (N.ltb_spec 64 (width a)) as [G|G].
    + right. split; [|eauto]. clear - S G L W. lia.
    + destruct (negate_ok Debug a _ _ Hw Ia) as (n & E & In). rewrite E. cbn [bind].
      apply settles_then; [eauto|].
      assert (Wn : width n = width a) by apply In.
      eapply settles_ext; [|apply (fixed_settles n f); apply In]. rewrite Wn. clear - L G W. lia.
  - eapply settles_ext; [|apply (fixed_settles a f Ha)]. clear - L S W. lia.
Qed.

Lemma question_settles q : (forall a, In a (asked q) -> wf a) -> settles (rejects_question q) (ask Debug q).
Proof.
  intros Ho.
  destruct q; cbn [ask asked] in *;
    assert (Ha := Ho a (or_introl eq_refl)); assert (Ia := wf_is a Ha);
    apply settles_then; try (now eauto);
    destruct (tests_ok a _ _ Ia) as (_ & T1 & T2 & T3).
  - apply test_settles; [auto|]. apply Ho. cbn; auto.
  - exact (settles_ok _ _ _ (fun f => f) T2).
  - exact (settles_ok _ _ _ (fun f => f) T3).
  - cbn [rejects_question]. destruct (N.eq_dec (width a) 0) as [W|W].
    + zero_case W. apply settles_panic; [auto|]. eexists; reflexivity.
    + exact (settles_ok _ _ _ W (is_negative_ok Debug a _ _ (proj1 (N.neq_0_lt_0 _) W) Ia)).
  - now apply bit_pos_settles.
  - exact (settles_ok _ _ _ (fun f => f) T1).
  - cbn [rejects_question]. destruct (N.eq_dec (width a) 0) as [W|W].
    + zero_case W. eapply settles_ok; [auto|reflexivity].
    + exact (settles_ok _ _ _ (fun f => f) (to_i64_raw Debug a _ _ Ia (proj1 (N.neq_0_lt_0 _) W))).
  - exact (settles_ok _ _ _ (fun f => f) (to_big_int_ok Debug a _ _ Ia)).
  - exact (settles_ok _ _ _ (fun f => f) (to_big_uint_ok a _ _ Ia)).
  - exact (settles_ok _ _ _ (fun f => f) (to_bit_str_ok a _ _ Ia)).
  - cbn [rejects_question]. destruct (N.eq_dec (width a) 0) as [W|W].
    { zero_case W. apply settles_panic; [auto|]. eexists; reflexivity. }
    destruct (N.eq_dec (width a) 1) as [W1|W1].
    + right. split; [auto|]. apply is_bv_inv in Ia as (_ & _ & L & _).
      unfold bv_to_bit_str_signed, to_bit_str_signed. rewrite W1 in *. change ((1 + 63) / 64) with 1 in L.
      destruct (len_0_1 _ L) as (x & ->). destruct (ar_is_neg Debug [x] 1) as [[]|] eqn:N; [| |discriminate];
      cbn [bind]; [|eexists; reflexivity]. eexists. reflexivity.
    + refine (settles_ok _ _ _ W (bit_signed_raw Debug a _ _ Ia _)). clear - W W1. lia.
  - exact (settles_ok _ _ _ (fun f => f) (to_hex_str_ok Debug a _ _ Ia)).
  - cbn [rejects_question]. destruct (N.eq_dec (width a) 0) as [W|W].
    { zero_case W. apply settles_panic; [auto|]. eexists; reflexivity. }
    destruct (N.eq_dec (width a) 1) as [W1|W1].
    + right. split; [auto|]. apply is_bv_inv in Ia as (_ & _ & L & _).
      unfold bv_to_hex_str_signed, to_hex_str_signed. rewrite W1 in *. change ((1 + 63) / 64) with 1 in L.
      destruct (len_0_1 _ L) as (x & ->). destruct (ar_is_neg Debug [x] 1) as [[]|] eqn:N; [| |discriminate];
      cbn [bind]; [|eexists; reflexivity]. eexists. reflexivity.
    + refine (settles_ok _ _ _ W (hex_signed_raw Debug a _ _ Ia _)). clear - W W1. lia.
  - cbn [rejects_question]. destruct (N.lt_ge_cases (uval a) (2 ^ 128)) as [X|X].
    + destruct (N.lt_ge_cases (width a * 3) (2 ^ 32)) as [L|L].
      * destruct (to_dec_str_raw Debug a _ _ Ia X (or_intror L)) as (s & E & _).
        eapply settles_ok; [|exact E]. clear - X L. intros [H|H]; [now apply N.le_ngt in H|now apply N.le_ngt in H].
      * apply settles_panic; [auto|]. eapply to_dec_str_overflow; eauto.
    + apply settles_panic; [auto|]. eapply to_dec_str_wide; eauto.
  - now apply fixed_settles.
  - now apply fixed_signed_settles.
Qed.

Lemma call_panics c : (forall a, In a (operands c) -> wf a) -> in_range c -> in_memory c ->
  (panics (run Debug c) <-> rejects c).
Proof. intros. now apply settles_iff, call_settles. Qed.
Lemma question_panics q : (forall a, In a (asked q) -> wf a) -> (panics (ask Debug q) <-> rejects_question q).
Proof. intros. now apply settles_iff, question_settles. Qed.

Lemma ask_release q : same_in_release (fun m => ask m q).
Proof.
  assert (D : forall A (f : mode -> res A), same_in_release f ->
    same_in_release (fun m => let* _ := f m in Ok tt)).
  { intros A f H x E. destruct (f Debug) as [v|] eqn:F; cbn [bind] in E; [|discriminate].
    now rewrite (H v F). }
  destruct q; cbn [ask]; apply D; try (intros ? ?; assumption).
  - destruct (profile_tests a b) as ((A1 & A2 & A3 & A4) & (B1 & B2 & B3 & B4) & (C1 & C2 & C3 & C4) & _).
    destruct t; cbn [run_test]; assumption.
  - apply (profile_tests a a).
  - apply (profile_tests a a).
  - apply (profile_convert a 0 0 0%Z [] 0).
  - apply (profile_text a [] 0 0).
  - apply (profile_text a [] 0 0).
  - apply (profile_text a [] 0 0).
  - apply (profile_text a [] 0 0).
  - apply (profile_convert a fraction_width 0 0%Z [] 0).
  - apply (profile_convert a fraction_width 0 0%Z [] 0).
Qed.

Lemma call_returns m c : (forall a, In a (operands c) -> wf a) -> in_range c -> in_memory c -> ~ rejects c ->
  exists v, run m c = Ok v /\ forall m', run m' c = Ok v.
Proof.
  intros Ho Hr Hm Hn. destruct (call_settles c Ho Hr Hm) as [[H _]|[_ (v & E)]]; [easy|].
  assert (E' := run_release c v E). exists v. split; [|intros m']; [destruct m|destruct m']; auto.
Qed.
Lemma question_returns m q : (forall a, In a (asked q) -> wf a) -> ~ rejects_question q ->
  exists u, ask m q = Ok u.
Proof.
  intros Ho Hn. destruct (question_settles q Ho) as [[H _]|[_ (v & E)]]; [easy|].
  assert (E' := ask_release q v E). exists v. destruct m; auto.
Qed.
