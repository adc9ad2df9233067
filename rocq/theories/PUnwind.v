(** * PUnwind: proofs about what panicking calls leave behind (C81) *)

From Coq Require Import ZifyBool ZifyNat ZifyN.
From Verif Require Import Base Arith Strings Map Bv Array Indexed Unwind Spec TextSpec RegSpec KindSpec UnwindSpec.
From Verif Require Import PWords PArith PShift PConv PRegister PRelease PStore PDense StoreSpec.
Ltac Zify.zify_post_hook ::= idtac.

(** the result of an ending, as in the other files *)
Definition er {S A} (o : ending S A) : res (S * A) :=
  match o with Returned s a => Ok (s, a) | Unwound _ p => Panic p end.

Lemma er_seq {S A B} (e : eff S A) (k : A -> eff S B) s :
  er (seq_ e k s) = let* (s', a) := er (e s) in er (k a s').
Proof. unfold seq_. destruct (e s); reflexivity. Qed.
Lemma er_look {S A} (f : S -> res A) s : er (look f s) = let* a := f s in Ok (s, a).
Proof. unfold look. destruct (f s); reflexivity. Qed.
Lemma er_write {S} (f : S -> res S) s : er (write f s) = let* s' := f s in Ok (s', tt).
Proof. unfold write. destruct (f s); reflexivity. Qed.
Lemma er_modify {S} (f : S -> S) s : er (modify f s) = Ok (f s, tt).
Proof. reflexivity. Qed.
Lemma er_ret {S A} (a : A) (s : S) : er (ret a s) = Ok (s, a).
Proof. reflexivity. Qed.
Lemma er_inside {S T A} (put : T -> S) t (e : eff T A) s :
  er (inside put t e s) = let* (t', a) := er (e t) in Ok (put t', a).
Proof. unfold inside. destruct (e t); reflexivity. Qed.
Ltac er := repeat (first [rewrite er_seq | rewrite er_look | rewrite er_write | rewrite er_modify | rewrite er_ret | rewrite er_inside]; cbn [bind]).

Ltac cases :=
  repeat (cbn [bind]; er;
    match goal with
    | |- context [bind ?x _] => lazymatch x with Ok _ => fail | bind _ _ => fail | er _ => fail | _ => destruct x as [?|?] eqn:? end
    | |- context [if ?x then _ else _] => destruct x eqn:?
    end);
  cbn [bind]; try reflexivity; try congruence.

Lemma er_mask_msb m w ws : er (un_mask_msb m w ws) = let* ws' := ar_mask_msb m ws w in Ok (ws', tt).
Proof. unfold un_mask_msb, ar_mask_msb. er. cases. Qed.

Lemma er_sign_extend m src sw dw ws :
  er (un_sign_extend m src sw dw ws) = let* ws' := ar_sign_extend m ws src sw dw in Ok (ws', tt).
Proof.
  unfold un_sign_extend, ar_sign_extend. er. cbn [bind].
  destruct (ar_is_neg m src sw) as [neg|]; cbn [bind]; [|reflexivity].
  destruct neg; er.
  - destruct (0 <? sw mod 64); er; cbn [bind].
    + destruct (ar_mask (64 - sw mod 64)) as [k|]; cbn [bind]; [|reflexivity].
      er.
      destruct (idx _ _) as [old|]; cbn [bind]; [|reflexivity].
      destruct (set_idx _ _ _) as [d|]; cbn [bind]; [|reflexivity]. er.
      destruct (on_tail d _ _); cbn [bind]; [|reflexivity]. apply er_mask_msb.
    + destruct (on_tail _ _ _); cbn [bind]; [|reflexivity]. apply er_mask_msb.
  - er. destruct (on_tail _ _ _); reflexivity.
Qed.

Lemma er_negate m w ws : er (un_negate_in_place m w ws) = let* ws' := ar_negate_in_place m ws w in Ok (ws', tt).
Proof. unfold un_negate_in_place, ar_negate_in_place. er. cbn [bind]. apply er_mask_msb. Qed.

Lemma er_parse_2_loop m w digits : forall ii out out_ii word,
  er (un_parse_base_2_loop m w digits ii out_ii word out) = parse_base_2_loop m w digits ii out out_ii word.
Proof.
  induction digits as [|cc rest IH]; intros ii out out_ii word; cbn [un_parse_base_2_loop parse_base_2_loop];
    er.
  - destruct (debug_assert _ _); cbn [bind]; [|reflexivity]. er.
    destruct (set_idx _ _ _); reflexivity.
  - destruct (usz_sub m w ii) as [t|]; cbn [bind]; [|reflexivity]. er.
    destruct (usz_sub m t 1) as [rv|]; cbn [bind]; [|reflexivity]. er.
    destruct ((0 <? ii) && ((rv + 1) mod 64 =? 0)); er; cbn [bind].
    + destruct (set_idx out out_ii word) as [o|]; cbn [bind]; [|reflexivity]. er.
      destruct (usz_sub m out_ii 1) as [oi|]; cbn [bind]; [|reflexivity]. er. cbn [bind].
      destruct (bin_digit_value cc); [apply IH|reflexivity].
    + destruct (bin_digit_value cc); [apply IH|reflexivity].
Qed.

Lemma er_parse_16_loop m num digits : forall ii out out_ii word,
  er (un_parse_base_16_loop m num digits ii out_ii word out) = parse_base_16_loop m num digits ii out out_ii word.
Proof.
  induction digits as [|cc rest IH]; intros ii out out_ii word; cbn [un_parse_base_16_loop parse_base_16_loop];
    er.
  - destruct (debug_assert _ _); cbn [bind]; [|reflexivity]. er.
    destruct (set_idx _ _ _); cbn [bind]; [|reflexivity]. er.
    destruct (u32_mul m (as_u32 num) 4); reflexivity.
  - destruct (usz_sub m num ii) as [t|]; cbn [bind]; [|reflexivity]. er.
    destruct (usz_sub m t 1) as [rv|]; cbn [bind]; [|reflexivity]. er.
    destruct ((0 <? ii) && ((rv + 1) mod 16 =? 0)); er; cbn [bind].
    + destruct (set_idx out out_ii word) as [o|]; cbn [bind]; [|reflexivity]. er.
      destruct (usz_sub m out_ii 1) as [oi|]; cbn [bind]; [|reflexivity]. er. cbn [bind].
      destruct (hex_digit_value cc); [apply IH|reflexivity].
    + destruct (hex_digit_value cc); [apply IH|reflexivity].
Qed.

Lemma er_magnitude m value radix w out :
  er (un_parse_magnitude m value radix w out) = parse_magnitude m value radix out w.
Proof.
  unfold un_parse_magnitude, un_std_parse. er. cbn [bind].
  destruct out as [|x [|y [|z out]]].
  1,4: match goal with |- context [len ?l =? 1] =>
      replace (len l =? 1) with false by (unfold len; cbn [length]; lia);
      replace (len l =? 2) with false by (unfold len; cbn [length]; lia) end;
    unfold parse_magnitude; er;
    destruct (debug_assert m _); cbn [bind]; [|reflexivity];
    destruct (strip_plus value) as [digits|]; [|reflexivity];
    destruct (radix =? 2);
    [ unfold un_parse_base_2, parse_base_2; destruct (w <? _); [reflexivity|]; er;
      destruct (u32_sub m _ 1); cbn [bind]; [apply er_parse_2_loop|reflexivity]
    | destruct (radix =? 10); [reflexivity|]; destruct (radix =? 16); [|reflexivity];
      unfold un_parse_base_16, parse_base_16; er;
      destruct (u32_mul m _ 4); cbn [bind]; [|reflexivity]; er;
      destruct (u32_sub m _ 1); cbn [bind]; [apply er_parse_16_loop|reflexivity] ].
  - change (len [x] =? 1) with true. cbv iota. unfold parse_magnitude. er.
    destruct (debug_assert m _); cbn [bind]; [|reflexivity]. er.
    destruct (std_from_str_radix _ _ _) as [r|]; cbn [bind]; [|reflexivity]. destruct r; reflexivity.
  - change (len [x; y] =? 1) with false. change (len [x; y] =? 2) with true. cbv iota.
    unfold parse_magnitude. er.
    destruct (debug_assert m _); cbn [bind]; [|reflexivity]. er.
    destruct (std_from_str_radix _ _ _) as [r|]; cbn [bind]; [|reflexivity]. destruct r; reflexivity.
Qed.

Lemma er_from_str m value radix w out :
  er (un_from_str_radix m value radix w out) = from_str_radix m value radix out w.
Proof.
  unfold un_from_str_radix, from_str_radix. destruct value as [|c value]; [reflexivity|].
  destruct (strip_minus (c :: value)) as [neg v]. destruct (w =? 0).
  - destruct v as [|a [|b v]]; try reflexivity. destruct (a =? c_0); reflexivity.
  - destruct v as [|a v]; [reflexivity|]. er. rewrite er_magnitude.
    destruct (parse_magnitude _ _ _ _ _) as [[o e]|]; cbn [bind]; [|reflexivity].
    destruct e; [reflexivity|]. destruct neg; [|reflexivity].
    er. rewrite er_negate. destruct (ar_negate_in_place m o w); reflexivity.
Qed.

(** *** the calls return and panic as in the rest of the model *)
Lemma reg_call_er m v op :
  (let* (ws, _) := er (reg_call m (width v) op (words v)) in Ok (mkbv (width v) ws)) = reg_run m v op.
Proof.
  destruct op; cbn [reg_call reg_run].
  - unfold un_assign, bv_assign. er.
    destruct (debug_assert m (width v =? width src)); cbn [bind]; [|reflexivity]. er.
    destruct (debug_assert m (len _ =? _)); cbn [bind]; [|reflexivity]. er.
    destruct (assert _); reflexivity.
  - reflexivity.
  - unfold un_assign_ones, bv_assign_ones, bv_mask_msb. er. cbn [bind].
    rewrite er_mask_msb. cbn [width words]. destruct (ar_mask_msb _ _ _); reflexivity.
  - unfold un_assign_from_u64, bv_assign_from_u64, bv_mask_msb, bv_clear, un_clear.
    er. cbn [bind width words]. er.
    destruct (set_idx _ _ _) as [ws|]; cbn [bind width words]; [|reflexivity].
    er. rewrite er_mask_msb.
    destruct (ar_mask_msb _ _ _) as [ws'|]; cbn [bind width words]; [|reflexivity].
    er. destruct m; cbn [bind].
    + destruct (idx ws' 0); cbn [bind]; [|reflexivity]. destruct (debug_assert _ _); reflexivity.
    + reflexivity.
  - unfold un_assign_from_i64, bv_assign_from_i64, bv_is_negative, bv_clear, un_clear.
    er. cbn [bind width words]. er. cbn [bind].
    er.
    set (w := width v). set (ws := map (fun _ => 0) (words v)).
    assert (E : er ((if len ws =? 1 then
               do k <- look (fun _ => ar_mask w) ;;
               write (fun ws0 => set_idx ws0 0 (N.land (i64_as_u64 z) k))
             else un_sign_extend m [i64_as_u64 z] 64 w) ws)
           = let* ws' := (if len ws =? 1 then
                let* k := ar_mask w in set_idx ws 0 (N.land (i64_as_u64 z) k)
              else ar_sign_extend m ws [i64_as_u64 z] 64 w) in Ok (ws', tt)).
    { destruct (len ws =? 1).
      - er. destruct (ar_mask w); cbn [bind]; [|reflexivity]. er. destruct (set_idx _ _ _); reflexivity.
      - apply er_sign_extend. }
    rewrite E; clear E.
    destruct (if len ws =? 1 then _ else _) as [ws'|]; cbn [bind]; [|reflexivity].
    destruct m; cbn [bind]; [|reflexivity].
    cbn [words width]. er.
    destruct (ar_is_neg Debug ws' w) as [neg|]; cbn [bind]; [|reflexivity]. er.
    destruct (idx ws' 0) as [w0|]; cbn [bind]; [|reflexivity].
    destruct neg; [destruct (w <? 64)|]; er.
    + destruct (ar_mask (64 - w)); cbn [bind]; [|reflexivity]. er.
      destruct (debug_assert _ _); reflexivity.
    + destruct (debug_assert _ _); reflexivity.
    + destruct (debug_assert _ _); reflexivity.
  - unfold un_set_bit, bv_set_bit. er. destruct (ar_set_bit _ _); reflexivity.
  - unfold un_clear_bit, bv_clear_bit. er. destruct (ar_clear_bit _ _); reflexivity.
  - rewrite er_mask_msb. unfold bv_mask_msb. destruct (ar_mask_msb _ _ _); reflexivity.
  - er. destruct (set_idx _ _ _) as [ws|]; cbn [bind]; [|reflexivity].
    rewrite er_mask_msb. unfold bv_mask_msb. cbn [words width]. destruct (ar_mask_msb _ _ _); reflexivity.
  - er. rewrite er_from_str. unfold bv_assign_from_str_radix.
    destruct (from_str_radix _ _ _ _ _) as [[o e]|]; reflexivity.
Qed.

Lemma same_register m v op :
  match reg_call m (width v) op (words v) with
  | Returned ws _ => reg_run m v op = Ok (mkbv (width v) ws)
  | Unwound _ p => reg_run m v op = Panic p
  end.
Proof. rewrite <- reg_call_er. destruct (reg_call _ _ _ _); reflexivity. Qed.

Lemma same_parse m v s radix :
  match un_from_str_radix m s radix (width v) (words v) with
  | Returned ws e => bv_assign_from_str_radix m v s radix = Ok (mkbv (width v) ws, e)
  | Unwound _ p => bv_assign_from_str_radix m v s radix = Panic p
  end.
Proof.
  unfold bv_assign_from_str_radix. rewrite <- er_from_str.
  destruct (un_from_str_radix _ _ _ _ _); reflexivity.
Qed.

(** *** the state an ending leaves *)
Definition left {S A} (o : ending S A) : S := match o with Returned s _ => s | Unwound s _ => s end.

Lemma ok_inj {A} (a b : A) : Ok a = Ok b -> a = b.
Proof. congruence. Qed.

(** every update keeps the number of words *)
Definition same_len {A} (e : eff (list N) A) : Prop := forall ws, length (left (e ws)) = length ws.

Lemma same_seq {A B} (e : eff (list N) A) (k : A -> eff (list N) B) :
  same_len e -> (forall a, same_len (k a)) -> same_len (seq_ e k).
Proof.
  intros H1 H2 ws. specialize (H1 ws). unfold seq_. destruct (e ws) as [s a|s p]; cbn [left] in *; [|auto].
  rewrite H2. auto.
Qed.
Lemma same_look {A} (f : list N -> res A) : same_len (look f).
Proof. intros ws. unfold look. destruct (f ws); auto. Qed.
Lemma same_ret {A} (a : A) : same_len (ret a).
Proof. intros ws. auto. Qed.
Lemma same_modify f : (forall ws, length (f ws) = length ws) -> same_len (modify f).
Proof. intros H ws. apply H. Qed.
Lemma same_write f : (forall ws ws', f ws = Ok ws' -> length ws' = length ws) -> same_len (write f).
Proof. intros H ws. unfold write. destruct (f ws) as [ws'|] eqn:E; cbn [left]; auto. Qed.
Lemma set_idx_same (l l' : list N) i x : set_idx l i x = Ok l' -> length l' = length l.
Proof.
  unfold set_idx. destruct (set_nth l (N.to_nat i) x) as [r|] eqn:E; intros Q; [|discriminate].
  injection Q as <-. now apply set_nth_length in E.
Qed.
Lemma same_set_idx i x : same_len (write (fun ws => set_idx ws i x)).
Proof. apply same_write. intros ws ws' E. eapply set_idx_same; eauto. Qed.
Lemma map_last_same (f : N -> N) l l' : map_last f l = Ok l' -> length l' = length l.
Proof.
  unfold map_last. intros Q. rewrite <- (rev_length l). destruct (rev l) as [|x t]; [discriminate|].
  apply ok_inj in Q. subst l'. rewrite rev_length. reflexivity.
Qed.
Lemma same_mask m w : same_len (un_mask_msb m w).
Proof.
  apply same_seq; [apply same_look|]. intros _. apply same_seq; [apply same_look|]. intros k.
  apply same_write. intros ws ws'. apply map_last_same.
Qed.
Lemma ar_assign_same dst : forall src, length (ar_assign dst src) = length dst.
Proof. induction dst as [|d dst IH]; intros [|s src]; cbn [ar_assign length]; auto. Qed.
Lemma same_tail n f : (forall t, length (f t) = length t) -> same_len (write (fun dst => on_tail dst n f)).
Proof.
  intros H. apply same_write. intros ws ws' E. eapply on_tail_len; eauto.
Qed.
Lemma same_sign m src sw dw : same_len (un_sign_extend m src sw dw).
Proof.
  apply same_seq; [apply same_modify; intros; apply ar_assign_same|]. intros _.
  apply same_seq; [apply same_look|]. intros [|]; [apply same_seq|].
  - destruct (0 <? sw mod 64); [apply same_seq; [apply same_look|]|apply same_ret]. intros k.
    apply same_write. intros ws ws'. destruct (idx _ _); cbn [bind]; [|discriminate]. apply set_idx_same.
  - intros _. apply same_seq; [|intros _; apply same_mask]. apply same_tail. intros; apply map_length.
  - apply same_tail. intros; apply map_length.
Qed.
Lemma negate_loop_same l : forall c, length (ar_negate_loop c l) = length l.
Proof. induction l as [|x l IH]; intros c; [reflexivity|]. cbn [ar_negate_loop]. destruct (ar_adc _ _ _). cbn [length]. auto. Qed.
Lemma same_negate m w : same_len (un_negate_in_place m w).
Proof. apply same_seq; [apply same_modify; intros; apply negate_loop_same|intros; apply same_mask]. Qed.

Lemma same_write_word {A B} out_ii word (sub : res A) (f : A -> B) (b : bool) (e : B) :
  same_len (if b then
     do _ <- write (fun out => set_idx out out_ii word) ;; do x <- look (fun _ => sub) ;; ret (f x)
   else ret e).
Proof.
  destruct b; [|apply same_ret]. apply same_seq; [apply same_set_idx|]. intros _.
  apply same_seq; [apply same_look|]. intros x. apply same_ret.
Qed.
Lemma same_loop_2 m w digits : forall ii out_ii word, same_len (un_parse_base_2_loop m w digits ii out_ii word).
Proof.
  induction digits as [|c digits IH]; intros ii out_ii word; cbn [un_parse_base_2_loop].
  - apply same_seq; [apply same_look|]. intros _. apply same_seq; [apply same_set_idx|intros; apply same_ret].
  - apply same_seq; [apply same_look|]. intros t. apply same_seq; [apply same_look|]. intros rv.
    apply same_seq; [apply same_write_word|]. intros [oi wd].
    destruct (bin_digit_value c); [apply IH|apply same_ret].
Qed.
Lemma same_loop_16 m w digits : forall ii out_ii word, same_len (un_parse_base_16_loop m w digits ii out_ii word).
Proof.
  induction digits as [|c digits IH]; intros ii out_ii word; cbn [un_parse_base_16_loop].
  - apply same_seq; [apply same_look|]. intros _. apply same_seq; [apply same_set_idx|].
    intros _. apply same_seq; [apply same_look|intros; apply same_ret].
  - apply same_seq; [apply same_look|]. intros t. apply same_seq; [apply same_look|]. intros rv.
    apply same_seq; [apply same_write_word|]. intros [oi wd].
    destruct (hex_digit_value c); [apply IH|apply same_ret].
Qed.
Lemma same_magnitude m value radix w : same_len (un_parse_magnitude m value radix w).
Proof.
  intros ws. unfold un_parse_magnitude. unfold seq_ at 1. unfold look at 1.
  destruct (len ws =? 1) eqn:N1; [|destruct (len ws =? 2) eqn:N2].
  - unfold un_std_parse, seq_, look. destruct (debug_assert _ _); [|auto].
    destruct (std_from_str_radix _ _ _) as [r|]; [|auto]. destruct r; auto. cbn [modify left length].
    unfold len in N1. cbn. lia.
  - unfold un_std_parse, seq_, look. destruct (debug_assert _ _); [|auto].
    destruct (std_from_str_radix _ _ _) as [r|]; [|auto]. destruct r; auto. cbn [modify left length].
    unfold len in N2. cbn. lia.
  - revert ws N1 N2. intros ws _ _. revert ws.
    apply same_seq; [apply same_look|]. intros _. destruct (strip_plus value) as [digits|]; [|apply same_ret].
    destruct (radix =? 2); [|destruct (radix =? 10); [apply same_look|destruct (radix =? 16); [|apply same_look]]].
    + unfold un_parse_base_2. destruct (w <? _); [apply same_ret|]. apply same_seq; [apply same_look|].
      intros oi. apply same_loop_2.
    + unfold un_parse_base_16. apply same_seq; [apply same_look|]. intros b.
      apply same_seq; [apply same_look|]. intros oi. apply same_loop_16.
Qed.
Lemma same_from_str m value radix w : same_len (un_from_str_radix m value radix w).
Proof.
  unfold un_from_str_radix. destruct value as [|c value]; [apply same_ret|].
  destruct (strip_minus (c :: value)) as [neg v]. destruct (w =? 0).
  - destruct v as [|a [|b v]]; try apply same_ret. destruct (a =? c_0); apply same_ret.
  - destruct v as [|a v]; [apply same_ret|]. apply same_seq; [apply same_magnitude|]. intros [e|]; [apply same_ret|].
    destruct neg; [|apply same_ret]. apply same_seq; [apply same_negate|intros; apply same_ret].
Qed.

Lemma same_len_call m w op : same_len (reg_call m w op).
Proof.
  destruct op; cbn [reg_call].
  - apply same_seq; [apply same_look|]. intros _. intros ws. unfold seq_, look.
    destruct (debug_assert _ _); [|auto]. unfold assert. destruct (len ws =? len (words src)) eqn:E; [|auto].
    cbn [modify left]. unfold len in E. unfold modify. cbn. lia.
  - apply same_modify. intros; apply map_length.
  - apply same_seq; [apply same_modify; intros; apply map_length|intros; apply same_mask].
  - apply same_seq; [apply same_modify; intros; apply map_length|]. intros _.
    apply same_seq; [apply same_set_idx|]. intros _. apply same_seq; [apply same_mask|intros; apply same_look].
  - apply same_seq; [apply same_modify; intros; apply map_length|]. intros _.
    apply same_seq; [apply same_look|]. intros n. apply same_seq.
    + destruct (n =? 1); [apply same_seq; [apply same_look|intros; apply same_set_idx]|apply same_sign].
    + intros _. destruct m; [|apply same_ret]. apply same_seq; [apply same_look|]. intros neg.
      apply same_seq; [apply same_look|]. intros w0. destruct neg; [destruct (w <? 64)|]; try apply same_look.
      apply same_seq; [apply same_look|intros; apply same_look].
  - apply same_write. intros ws ws'. unfold ar_set_bit. destruct (idx _ _); cbn [bind]; [|discriminate].
    apply set_idx_same.
  - apply same_write. intros ws ws'. unfold ar_clear_bit. destruct (idx _ _); cbn [bind]; [|discriminate].
    apply set_idx_same.
  - apply same_mask.
  - apply same_seq; [apply same_set_idx|intros; apply same_mask].
  - apply same_seq; [apply same_from_str|intros; apply same_ret].
Qed.

(** *** calls that leave the state alone when they panic *)
Definition atomic {S A} (e : eff S A) (s : S) : Prop := forall s' p, e s = Unwound s' p -> s' = s.
Definition returns {S A} (e : eff S A) (s : S) : Prop := forall s' p, e s <> Unwound s' p.

Lemma returns_atomic {S A} (e : eff S A) s : returns e s -> atomic e s.
Proof. intros H s' p E. now apply H in E. Qed.
Lemma atomic_look {S A} (f : S -> res A) s : atomic (look f) s.
Proof. intros s' p. unfold look. destruct (f s); congruence. Qed.
Lemma atomic_write {S} (f : S -> res S) s : atomic (write f) s.
Proof. intros s' p. unfold write. destruct (f s); congruence. Qed.
Lemma atomic_look_seq {S A B} (f : S -> res A) (k : A -> eff S B) s :
  (forall a, f s = Ok a -> atomic (k a) s) -> atomic (seq_ (look f) k) s.
Proof. intros H s' p. unfold seq_, look. destruct (f s) as [a|]; [|congruence]. now apply H. Qed.
Lemma returns_look_seq {S A B} (f : S -> res A) (k : A -> eff S B) s a :
  f s = Ok a -> returns (k a) s -> returns (seq_ (look f) k) s.
Proof. intros H K s' p. unfold seq_, look. rewrite H. apply K. Qed.
Lemma returns_write_seq {S B} (f : S -> res S) (k : unit -> eff S B) s s1 :
  f s = Ok s1 -> returns (k tt) s1 -> returns (seq_ (write f) k) s.
Proof. intros H K s' p. unfold seq_, write. rewrite H. apply K. Qed.
Lemma atomic_seq_returns {S A B} (e : eff S A) (k : A -> eff S B) s :
  atomic e s -> (forall s1 a, e s = Returned s1 a -> returns (k a) s1) -> atomic (seq_ e k) s.
Proof.
  intros H K s' p. unfold seq_. destruct (e s) as [s1 a|s1 q] eqn:E.
  - intros Q. now apply (K s1 a eq_refl) in Q.
  - intros Q. injection Q as <- <-. eapply H; eauto.
Qed.
Lemma returns_ret {S A} (a : A) (s : S) : returns (ret a) s.
Proof. discriminate. Qed.
Lemma returns_seq_ret {S A B} (e : eff S A) (f : A -> B) s : returns e s -> returns (do a <- e ;; ret (f a)) s.
Proof. intros H s' p. unfold seq_. destruct (e s) as [s1 a|s1 q] eqn:E; [discriminate|]. now apply H in E. Qed.

(** *** the parsers of digits *)
Lemma usz_sub_fine m a b : b <= a -> usz_sub m a b = Ok (a - b).
Proof. intros H. unfold usz_sub. destruct (N.leb_spec b a); [auto|lia]. Qed.

(** the position of the next digit, and the word it goes to *)
Lemma loop_step m K num ii L out_ii : 1 < K -> num = ii + (L + 1) -> 0 < ii -> out_ii = (L + 1) / K ->
  usz_sub m num ii = Ok (L + 1) /\ usz_sub m (L + 1) 1 = Ok L /\
  if (0 <? ii) && ((L + 1) mod K =? 0)
  then 0 < out_ii /\ usz_sub m out_ii 1 = Ok (out_ii - 1) /\ out_ii - 1 = L / K
  else out_ii = L / K.
Proof.
  intros K1 -> Hi ->. rewrite !usz_sub_fine by lia.
  replace (ii + (L + 1) - ii) with (L + 1) by lia. replace (L + 1 - 1) with L by lia.
  split; [auto|]. split; [auto|]. destruct (N.ltb_spec 0 ii); [|lia]. cbn [andb].
  pose proof (N.div_mod (L + 1) K ltac:(lia)) as D. pose proof (N.mod_lt (L + 1) K ltac:(lia)).
  set (q := (L + 1) / K) in *. set (r := (L + 1) mod K) in *.
  destruct (N.eqb_spec r 0) as [E|E].
  - assert (0 < q). { destruct (N.eq_dec q 0) as [Q|]; [|lia]. rewrite Q, N.mul_0_r in D. lia. }
    split; [auto|]. rewrite usz_sub_fine by lia. split; [auto|].
    apply (N.div_unique L K (q - 1) (K - 1)); [lia|]. rewrite N.mul_sub_distr_l, N.mul_1_r.
    assert (K <= K * q) by (rewrite <- (N.mul_1_r K) at 1; apply N.mul_le_mono_l; lia). lia.
  - apply (N.div_unique L K q (r - 1)); lia.
Qed.

Lemma loop_16_fine m num digits : forall ii out out_ii word,
  num = ii + len digits -> 0 < ii -> num < 2 ^ 30 -> out_ii = len digits / 16 -> out_ii < len out ->
  returns (un_parse_base_16_loop m num digits ii out_ii word) out.
Proof.
  induction digits as [|c digits IH]; intros ii out out_ii word En Hi Hn Eo Ho; cbn [un_parse_base_16_loop].
  - change (len (@nil N) / 16) with 0 in Eo. subst out_ii.
    apply returns_look_seq with tt; [destruct m; auto|].
    eapply returns_write_seq; [apply set_idx_ok; auto|].
    eapply returns_look_seq; [|apply returns_ret].
    unfold u32_mul. rewrite (as_u32_ok num) by lia.
    destruct (N.ltb_spec (num * 4) B32) as [|B]; [auto|]. unfold B32 in B. lia.
  - rewrite len_cons in En, Eo.
    destruct (loop_step m 16 num ii (len digits) out_ii ltac:(lia) En Hi Eo) as (S1 & S2 & S3).
    eapply returns_look_seq; [apply S1|]. eapply returns_look_seq; [apply S2|].
    destruct (_ && _) in S3 |- *.
    + destruct S3 as (P & S3 & S4). intros s' p. unfold seq_ at 1 2. unfold write.
      destruct (set_idx out out_ii word) as [o|] eqn:E; [|now rewrite set_idx_ok in E by auto].
      unfold seq_, look. rewrite S3. unfold ret. destruct (hex_digit_value c); [|discriminate].
      apply set_idx_same in E. apply IH; auto; [lia|lia|]. unfold len in Ho |- *. lia.
    + intros s' p. unfold seq_, ret. destruct (hex_digit_value c); [|discriminate]. apply IH; auto; lia.
Qed.
Lemma loop_16_short m num digits : forall ii out out_ii word,
  num = ii + len digits -> 0 < ii -> out_ii = len digits / 16 -> len out <= out_ii -> 0 < len out ->
  atomic (un_parse_base_16_loop m num digits ii out_ii word) out.
Proof.
  induction digits as [|c digits IH]; intros ii out out_ii word En Hi Eo Ho Hl; cbn [un_parse_base_16_loop].
  - change (len (@nil N) / 16) with 0 in Eo. lia.
  - rewrite len_cons in En, Eo.
    destruct (loop_step m 16 num ii (len digits) out_ii ltac:(lia) En Hi Eo) as (S1 & S2 & S3).
    apply atomic_look_seq. intros t E. rewrite S1 in E. apply ok_inj in E. subst t.
    apply atomic_look_seq. intros t E. rewrite S2 in E. apply ok_inj in E. subst t.
    destruct (_ && _) in S3 |- *.
    + intros s' p. unfold seq_ at 1 2. unfold write. rewrite set_idx_panic by auto. congruence.
    + unfold atomic, seq_, ret. destruct (hex_digit_value c); [|discriminate]. apply IH; auto; lia.
Qed.
Lemma loop_2_fine m num digits : forall ii out out_ii word,
  num = ii + len digits -> 0 < ii -> out_ii = len digits / 64 -> out_ii < len out ->
  returns (un_parse_base_2_loop m num digits ii out_ii word) out.
Proof.
  induction digits as [|c digits IH]; intros ii out out_ii word En Hi Eo Ho; cbn [un_parse_base_2_loop].
  - change (len (@nil N) / 64) with 0 in Eo. subst out_ii.
    apply returns_look_seq with tt; [destruct m; auto|].
    eapply returns_write_seq; [apply set_idx_ok; auto|apply returns_ret].
  - rewrite len_cons in En, Eo.
    destruct (loop_step m 64 num ii (len digits) out_ii ltac:(lia) En Hi Eo) as (S1 & S2 & S3).
    eapply returns_look_seq; [apply S1|]. eapply returns_look_seq; [apply S2|].
    destruct (_ && _) in S3 |- *.
    + destruct S3 as (P & S3 & S4). intros s' p. unfold seq_ at 1 2. unfold write.
      destruct (set_idx out out_ii word) as [o|] eqn:E; [|now rewrite set_idx_ok in E by auto].
      unfold seq_, look. rewrite S3. unfold ret. destruct (bin_digit_value c); [|discriminate].
      apply set_idx_same in E. apply IH; auto; [lia|lia|]. unfold len in Ho |- *. lia.
    + intros s' p. unfold seq_, ret. destruct (bin_digit_value c); [|discriminate]. apply IH; auto; lia.
Qed.
Lemma loop_2_short m num digits : forall ii out out_ii word,
  num = ii + len digits -> 0 < ii -> out_ii = len digits / 64 -> len out <= out_ii -> 0 < len out ->
  atomic (un_parse_base_2_loop m num digits ii out_ii word) out.
Proof.
  induction digits as [|c digits IH]; intros ii out out_ii word En Hi Eo Ho Hl; cbn [un_parse_base_2_loop].
  - change (len (@nil N) / 64) with 0 in Eo. lia.
  - rewrite len_cons in En, Eo.
    destruct (loop_step m 64 num ii (len digits) out_ii ltac:(lia) En Hi Eo) as (S1 & S2 & S3).
    apply atomic_look_seq. intros t E. rewrite S1 in E. apply ok_inj in E. subst t.
    apply atomic_look_seq. intros t E. rewrite S2 in E. apply ok_inj in E. subst t.
    destruct (_ && _) in S3 |- *.
    + intros s' p. unfold seq_ at 1 2. unfold write. rewrite set_idx_panic by auto. congruence.
    + unfold atomic, seq_, ret. destruct (bin_digit_value c); [|discriminate]. apply IH; auto; lia.
Qed.

Lemma parse_16_atomic m digits out : len digits < 2 ^ 30 -> 0 < len out -> atomic (un_parse_base_16 m digits) out.
Proof.
  intros Hn Ho. unfold un_parse_base_16.
  assert (E4 : u32_mul m (as_u32 (len digits)) 4 = Ok (len digits * 4)).
  { unfold u32_mul. rewrite as_u32_ok by lia. destruct (N.ltb_spec (len digits * 4) B32) as [|B]; [auto|].
    unfold B32 in B. lia. }
  apply atomic_look_seq. intros b E. rewrite E4 in E. apply ok_inj in E. subst b.
  apply atomic_look_seq. intros oi Eo.
  destruct digits as [|c digits].
  - cbn [un_parse_base_16_loop]. apply atomic_look_seq. intros _ _. apply returns_atomic.
    eapply returns_write_seq; [apply set_idx_ok; auto|].
    eapply returns_look_seq; [|apply returns_ret]. rewrite E4. reflexivity.
  - rewrite len_cons in *. assert (Q : oi = len digits / 16).
    { rewrite div_ceil_eq in Eo. unfold u32_sub in Eo.
      destruct (N.leb_spec 1 (((len digits + 1) * 4 + 63) / 64)) as [|B].
      - apply ok_inj in Eo. subst oi. zify. Z.to_euclidean_division_equations. lia.
      - exfalso. zify. Z.to_euclidean_division_equations. lia. }
    cbn [un_parse_base_16_loop].
    apply atomic_look_seq. intros t _. apply atomic_look_seq. intros rv _.
    change (0 <? 0) with false. cbn [andb].
    unfold atomic, seq_, ret. destruct (hex_digit_value c); [|discriminate].
    destruct (N.le_gt_cases (len out) oi) as [G|G].
    + apply loop_16_short; auto; lia.
    + apply returns_atomic, loop_16_fine; auto; lia.
Qed.
Lemma parse_2_atomic m digits w out : len digits < 2 ^ 32 -> 0 < len out -> atomic (un_parse_base_2 m digits w) out.
Proof.
  intros Hn Ho. unfold un_parse_base_2. rewrite as_u32_ok by lia.
  destruct (w <? len digits); [discriminate|].
  apply atomic_look_seq. intros oi Eo.
  destruct digits as [|c digits].
  - cbn [un_parse_base_2_loop]. apply atomic_look_seq. intros _ _. apply returns_atomic.
    eapply returns_write_seq; [apply set_idx_ok; auto|apply returns_ret].
  - rewrite len_cons in *. assert (Q : oi = len digits / 64).
    { rewrite div_ceil_eq in Eo. unfold u32_sub in Eo.
      destruct (N.leb_spec 1 ((len digits + 1 + 63) / 64)) as [|B].
      - apply ok_inj in Eo. subst oi. zify. Z.to_euclidean_division_equations. lia.
      - exfalso. zify. Z.to_euclidean_division_equations. lia. }
    cbn [un_parse_base_2_loop].
    apply atomic_look_seq. intros t _. apply atomic_look_seq. intros rv _.
    change (0 <? 0) with false. cbn [andb].
    unfold atomic, seq_, ret. destruct (bin_digit_value c); [|discriminate].
    destruct (N.le_gt_cases (len out) oi) as [G|G].
    + apply loop_2_short; auto; lia.
    + apply returns_atomic, loop_2_fine; auto; lia.
Qed.
Lemma strip_plus_short s d : strip_plus s = Some d -> len d <= len s.
Proof.
  destruct s as [|c [|c' s]]; cbn [strip_plus].
  - intros Q. injection Q as <-. lia.
  - destruct (c =? c_plus); [discriminate|]. intros Q. injection Q as <-. lia.
  - destruct (c =? c_plus); intros Q; injection Q as <-; rewrite ?len_cons; lia.
Qed.
Lemma magnitude_atomic m value radix w out : len value < 2 ^ 30 -> 0 < len out ->
  atomic (un_parse_magnitude m value radix w) out.
Proof.
  intros Hn Ho. unfold un_parse_magnitude. apply atomic_look_seq. intros n _.
  assert (St : forall lim split, atomic (un_std_parse lim split radix value) out).
  { intros lim split. unfold un_std_parse. apply atomic_look_seq. intros r _. destruct r; discriminate. }
  destruct (n =? 1); [apply atomic_look_seq; intros _ _; apply St|].
  destruct (n =? 2); [apply atomic_look_seq; intros _ _; apply St|].
  apply atomic_look_seq. intros _ _. destruct (strip_plus value) as [d|] eqn:E; [|discriminate].
  apply strip_plus_short in E.
  destruct (radix =? 2); [apply parse_2_atomic; auto; lia|].
  destruct (radix =? 10); [apply atomic_look|].
  destruct (radix =? 16); [apply parse_16_atomic; auto; lia|apply atomic_look].
Qed.

Lemma mask_returns m w ws : len ws = (w + 63) / 64 -> 0 < w -> returns (un_mask_msb m w) ws.
Proof.
  intros Hl Hw. unfold un_mask_msb. eapply returns_look_seq with tt.
  { rewrite div_ceil_eq, Hl, N.eqb_refl. destruct m; auto. }
  eapply returns_look_seq; [apply ar_mask_ok; lia|].
  intros s' p. unfold write, map_last. destruct (rev ws) as [|x t] eqn:E; [|discriminate].
  apply (f_equal (@length N)) in E. rewrite rev_length in E. cbn [length] in E. unfold len in Hl.
  rewrite E in Hl. exfalso. zify. Z.to_euclidean_division_equations. lia.
Qed.
Lemma mod_returns m w ws f : (length (f ws) = length ws) -> len ws = (w + 63) / 64 -> 0 < w ->
  returns (do _ <- modify f ;; un_mask_msb m w) ws.
Proof.
  intros Hf Hl Hw s' p. unfold seq_, modify. apply mask_returns; auto. unfold len in *. now rewrite Hf.
Qed.

Lemma from_str_atomic m value radix w out : len value < 2 ^ 30 -> len out = (w + 63) / 64 ->
  atomic (un_from_str_radix m value radix w) out.
Proof.
  intros Hn Hl. unfold un_from_str_radix. destruct value as [|c value]; [discriminate|].
  destruct (strip_minus (c :: value)) as [neg v] eqn:E.
  assert (len v <= len (c :: value)).
  { unfold strip_minus in E. revert E.
    repeat (match goal with |- context [if ?b then _ else _] => destruct b end);
      intros Q; injection Q as <- <-; rewrite ?len_cons; lia. }
  destruct (N.eqb_spec w 0) as [|Hw].
  - destruct v as [|a [|b v]]; try discriminate. destruct (a =? c_0); discriminate.
  - destruct v as [|a v]; [discriminate|].
    assert (0 < len out) by (rewrite Hl; clear - Hw; zify; Z.to_euclidean_division_equations; lia).
    apply atomic_seq_returns; [apply magnitude_atomic; auto; lia|].
    intros s1 e E1. destruct e; [apply returns_ret|]. destruct neg; [|apply returns_ret].
    apply (returns_seq_ret _ (fun _ => None)). apply mod_returns; [apply negate_loop_same| |lia].
    pose proof (same_magnitude m (a :: v) radix w out) as L. rewrite E1 in L. cbn [Unwind.ret left] in L.
    unfold len in *. now rewrite L.
Qed.

(** *** what a panicking update leaves *)
Lemma left_zero ws x op : len ws = 0 -> x = 0 -> is_bv (mkbv 0 ws) 0 (reg_left 0 x op).
Proof.
  intros L ->. assert (ws = []) as -> by (destruct ws; [auto|rewrite len_cons in L; lia]).
  assert (reg_left 0 0 op = 0) as ->.
  { destruct op; auto; cbn [reg_left].
    - apply N.mod_1_r.
    - unfold wrap. change (2 ^ Z.of_N 0)%Z with 1%Z. now rewrite Z.mod_1_r. }
  apply is_bv_intro; auto; reflexivity.
Qed.

Lemma register_left m v w x op ws p : is_bv v w x -> reg_typed op ->
  reg_call m w op (words v) = Unwound ws p -> is_bv (mkbv w ws) w (reg_left w x op).
Proof.
  intros H T E. pose proof (is_bv_inv _ _ _ H) as (Ew & Hw & Hl & Wl & Vl & Bl).
  pose proof (same_len_call m w op (words v)) as SL. rewrite E in SL. cbn [left] in SL.
  destruct (N.eq_dec w 0) as [->|N0].
  { apply left_zero; [unfold len in *; rewrite SL; exact Hl|]. change (2 ^ 0) with 1 in Bl. lia. }
  assert (At : atomic (reg_call m w op) (words v) -> is_bv (mkbv w ws) w x).
  { intros A. apply A in E. subst ws. destruct v as [vw vs]. cbn [width words] in *. now subst vw. }
  assert (Rt : returns (reg_call m w op) (words v) -> is_bv (mkbv w ws) w (reg_left w x op)).
  { intros A. now apply A in E. }
  destruct op; cbn [reg_call reg_left reg_typed] in *.
  - apply At. unfold un_assign. do 3 (apply atomic_look_seq; intros _ _). discriminate.
  - apply Rt. discriminate.
  - apply Rt. apply mod_returns; auto; [apply map_length|lia].
  - unfold un_assign_from_u64, un_clear in E.
    unfold seq_ at 1 in E. unfold modify in E. unfold seq_ at 1 in E. unfold write in E.
    destruct (words_cases _ w 0 (clear_ok _ _ _ H) ltac:(lia)) as (x0 & t & Ec & H0 & Ht & Ex & Lt).
    cbn [bv_clear words] in Ec. rewrite Ec in E. unfold set_idx in E.
    change (set_nth (x0 :: t) (N.to_nat 0) n) with (Some (n :: t)) in E. cbv iota in E.
    assert (Zt : wv t = 0) by (clear - Ex; pose proof (pow_pos 64); nia).
    destruct (mask_msb_ok m (n :: t) w) as (l & El & Wl' & Ll & Vl').
    { constructor; auto. }
    { rewrite len_cons, Lt. clear - N0. dlia. }
    { lia. }
    rewrite wv_cons, Zt, N.mul_0_r, N.add_0_r in Vl'.
    unfold seq_ in E. pose proof (er_mask_msb m w (n :: t)) as Er. rewrite El in Er. cbn [bind] in Er.
    destruct (un_mask_msb m w (n :: t)) as [s1 a|]; [|discriminate]. injection Er as -> _.
    unfold look in E. destruct (bind _ _); [discriminate|]. injection E as <- _.
    assert (len l = (w + 63) / 64) by (rewrite Ll, len_cons, Lt; clear - N0; dlia).
    apply is_bv_intro; auto.
  - unfold un_assign_from_i64, un_clear in E.
    unfold seq_ at 1 in E. unfold modify in E. unfold seq_ at 1 in E. unfold look at 1 in E.
    destruct (assign_from_i64_words m v w x z H ltac:(lia) T) as (l & El & Ll & Wl' & Vl').
    unfold bv_clear in El. cbn [words] in El. set (ws0 := map (fun _ : N => 0) (words v)) in *.
    unfold seq_ at 1 in E.
    assert (Q : er ((if len ws0 =? 1 then
               do k <- look (fun _ => ar_mask w) ;;
               write (fun ws0 => set_idx ws0 0 (N.land (i64_as_u64 z) k))
             else un_sign_extend m [i64_as_u64 z] 64 w) ws0) = Ok (l, tt)).
    { destruct (len ws0 =? 1).
      - er. destruct (ar_mask w); cbn [bind] in *; [|discriminate]. er. now rewrite El.
      - rewrite er_sign_extend, El. reflexivity. }
    match type of E with match ?c with _ => _ end = _ => destruct c as [s1 a|] end; [|discriminate].
    injection Q as -> _. destruct m; [|discriminate].
    assert (ws = l) as ->.
    { clear At Rt SL. revert ws p E. cbv beta.
      match goal with |- forall ws p, ?e l = _ -> _ => assert (A : atomic e l) end.
      { do 2 (apply atomic_look_seq; intros ? _). destruct a0; [destruct (w <? 64)|]; try apply atomic_look.
        apply atomic_look_seq; intros ? _. apply atomic_look. }
      intros ws p E. now apply A in E. }
    apply is_bv_intro; auto using wrap_lt.
  - apply At, atomic_write.
  - apply At, atomic_write.
  - apply Rt, mask_returns; auto. lia.
  - apply At. apply atomic_seq_returns; [apply atomic_write|]. intros s1 a Q. apply mask_returns; [|lia].
    unfold write in Q. destruct (set_idx (words v) k n) as [r|] eqn:R; [|discriminate]. injection Q as -> _.
    apply set_idx_same in R. unfold len in *. now rewrite R.
  - apply At. intros s' q. unfold seq_. destruct (un_from_str_radix m s radix w (words v)) as [|s1 q1] eqn:F; [discriminate|].
    intros Q. injection Q as <- <-. eapply from_str_atomic; eauto.
Qed.

Lemma history_left m w : forall ops v x log ws, 0 < w -> is_bv v w x -> Forall reg_typed ops ->
  reg_caught m w (words v) ops = (log, ws) ->
  (forall op, In (op, false) log -> reg_legal m w op) ->
  is_bv (mkbv w ws) w (reg_reference w x log).
Proof.
  induction ops as [|op ops IH]; intros v x log ws Hw H T E L; cbn [reg_caught] in E.
  - injection E as <- <-. cbn [reg_reference]. destruct v as [vw vs]. cbn [words].
    pose proof (is_bv_inv _ _ _ H) as (Ew & _). cbn [width] in Ew. now subst vw.
  - inversion T as [|? ? T1 T2]; subst. pose proof (is_bv_inv _ _ _ H) as (Ew & _).
    pose proof (same_register m v op) as SR. rewrite Ew in SR.
    destruct (reg_call m w op (words v)) as [ws1 a|ws1 q] eqn:C.
    + destruct (reg_caught m w ws1 ops) as [log' ws2] eqn:R. injection E as <- <-.
      cbn [reg_reference]. destruct (reg_run_ok m v w x op Hw H) as (v' & E1 & H1).
      { apply L. now left. }
      rewrite SR in E1. injection E1 as <-. apply (IH (mkbv w ws1) _ log' ws2); auto.
      intros op' I. apply L. now right.
    + destruct (reg_caught m w ws1 ops) as [log' ws2] eqn:R. injection E as <- <-.
      cbn [reg_reference]. apply (IH (mkbv w ws1) _ log' ws2); auto.
      * eapply register_left; eauto.
      * intros op' I. apply L. now right.
Qed.

(** *** the other values of a shared store *)
Lemma store_left_ok m store i op : in_range store i ->
  exists store', store_left m store i op = Ok store' /\ len store' = len store
    /\ (forall j, in_range store j -> apart i j -> get_ref store' j = get_ref store j)
    /\ (forall p, ~ covers i p -> nth (N.to_nat p) store' 0 = nth (N.to_nat p) store 0).
Proof.
  intros H.
  destruct (update_ref_ok store i (fun v => Ok (mkbv (i_width i) (left (reg_call m (i_width i) op (words v))))) _
              H eq_refl) as (s & E & L & _ & A & B).
  - cbn [words]. pose proof (same_len_call m (i_width i) op (view store i)) as S.
    unfold len at 1. rewrite S. fold (len (view store i)). now apply view_len.
  - exists s. split; [|auto]. exact E.
Qed.

(** *** arrays *)
Lemma splice_range (l : list N) a b ws : range l a b = Ok ws -> splice l a ws = l.
Proof.
  unfold range, splice. destruct ((a <=? b) && (b <=? len l)) eqn:E; [|discriminate]. intros Q. apply ok_inj in Q. subst ws.
  unfold len in *. rewrite firstn_length, skipn_length.
  replace (N.to_nat a + min (N.to_nat (b - a)) (length l - N.to_nat a))%nat with (N.to_nat a + N.to_nat (b - a))%nat by lia.
  rewrite <- skipn_skipn. rewrite firstn_skipn. apply firstn_skipn.
Qed.

Lemma dense_store_er m a i x : er (un_dense_store m i x a) = let* a' := dense_store m a i x in Ok (a', tt).
Proof.
  unfold un_dense_store, dense_store, bv_set_bit, bv_clear_bit, bv_assign, un_assign, un_set_bit, un_clear_bit. er.
  destruct (debug_assert m (width i =? _)); cbn [bind]; [|reflexivity]. er.
  destruct (unwrap (bv_to_u64 i)); cbn [bind]; [|reflexivity]. er.
  destruct (debug_assert m (width x =? _)); cbn [bind]; [|reflexivity].
  destruct (d_data a); er.
  - destruct (bv_is_tru x) as [[|]|]; cbn [bind]; [| |reflexivity]; er.
    + destruct (ar_set_bit _ _); reflexivity.
    + destruct (ar_clear_bit _ _); reflexivity.
  - destruct (unwrap (bv_to_u64 x)); cbn [bind]; [|reflexivity]. er. destruct (set_idx _ _ _); reflexivity.
  - destruct (unwrap (bv_to_u64 x)); cbn [bind]; [|reflexivity]. er. destruct (set_idx _ _ _); reflexivity.
  - destruct (usz_mul _ _ _); cbn [bind]; [|reflexivity]. er.
    destruct (range _ _ _); cbn [bind]; [|reflexivity]. er. cbn [width words].
    destruct (debug_assert m (d_dw a =? _)); cbn [bind]; [|reflexivity]. er.
    destruct (debug_assert m (len _ =? _)); cbn [bind]; [|reflexivity]. er.
    destruct (assert _); reflexivity.
Qed.
Lemma dense_eta a : mkdense (d_iw a) (d_dw a) (d_data a) = a.
Proof. destruct a; reflexivity. Qed.
Lemma dense_store_atomic m a i x : atomic (un_dense_store m i x) a.
Proof.
  unfold un_dense_store. do 3 (apply atomic_look_seq; intros ? _).
  intros s p. unfold inside. destruct (d_data a) as [v|l|l|l] eqn:D.
  - match goal with |- context [?e (words v)] => assert (A : atomic e (words v)) end.
    { apply atomic_look_seq. intros [|] _; apply atomic_write. }
    destruct (seq_ _ _ (words v)) as [|ws q] eqn:F; [discriminate|]. specialize (A _ _ F). subst ws.
    intros Q. injection Q as <- _. rewrite <- (dense_eta a), D. now destruct v.
  - match goal with |- context [?e l] => assert (A : atomic e l) end.
    { apply atomic_look_seq. intros ? _; apply atomic_write. }
    destruct (seq_ _ _ l) as [|ws q] eqn:F; [discriminate|]. specialize (A _ _ F). subst ws.
    intros Q. injection Q as <- _. now rewrite <- (dense_eta a), D.
  - match goal with |- context [?e l] => assert (A : atomic e l) end.
    { apply atomic_look_seq. intros ? _; apply atomic_write. }
    destruct (seq_ _ _ l) as [|ws q] eqn:F; [discriminate|]. specialize (A _ _ F). subst ws.
    intros Q. injection Q as <- _. now rewrite <- (dense_eta a), D.
  - unfold seq_, look. destruct (usz_mul _ _ _) as [st|]; [|congruence].
    destruct (range l st _) as [ws|] eqn:R; [|congruence].
    assert (A : atomic (un_assign m (d_dw a) x) ws).
    { unfold un_assign. do 3 (apply atomic_look_seq; intros ? _). discriminate. }
    destruct (un_assign m (d_dw a) x ws) as [|ws' q] eqn:F; [discriminate|]. specialize (A _ _ F). subst ws'.
    apply splice_range in R. intros Q. injection Q as <- _. now rewrite <- (dense_eta a), D, R.
Qed.

Lemma sparse_store_er probe m a i x :
  er (un_sparse_store probe m i x a) = let* a' := sparse_store probe m a i x in Ok (a', tt).
Proof.
  unfold un_sparse_store, sparse_store. er.
  destruct (debug_assert m (width i =? _)); cbn [bind]; [|reflexivity]. er.
  destruct (debug_assert m (width x =? _)); cbn [bind]; [|reflexivity].
  destruct (s_data a); er.
  - destruct (unwrap (bv_to_u64 i)); cbn [bind]; [|reflexivity]. er.
    destruct (unwrap (bv_to_u64 x)); cbn [bind]; reflexivity.
  - destruct (unwrap (bv_to_u64 i)); cbn [bind]; [|reflexivity]. er.
    destruct (bv_is_equal _ _ _); cbn [bind]; reflexivity.
  - destruct (bv_is_equal _ _ _) as [[|]|]; cbn [bind]; [| |reflexivity]; er; [|reflexivity].
    destruct (hm_remove_borrowed _ _ _); reflexivity.
Qed.
Lemma sparse_eta a : mksparse (s_iw a) (s_dw a) (s_data a) = a.
Proof. destruct a; reflexivity. Qed.
Lemma sparse_store_atomic probe m a i x : atomic (un_sparse_store probe m i x) a.
Proof.
  unfold un_sparse_store. do 2 (apply atomic_look_seq; intros ? _).
  intros s p. unfold inside. destruct (s_data a) as [d l|d l|d l] eqn:D.
  - match goal with |- context [?e l] => assert (A : atomic e l) end.
    { do 2 (apply atomic_look_seq; intros ? _). discriminate. }
    destruct (seq_ _ _ l) as [|ws q] eqn:F; [discriminate|]. specialize (A _ _ F). subst ws.
    intros Q. injection Q as <- _. now rewrite <- (sparse_eta a), D.
  - match goal with |- context [?e l] => assert (A : atomic e l) end.
    { do 2 (apply atomic_look_seq; intros ? _). discriminate. }
    destruct (seq_ _ _ l) as [|ws q] eqn:F; [discriminate|]. specialize (A _ _ F). subst ws.
    intros Q. injection Q as <- _. now rewrite <- (sparse_eta a), D.
  - match goal with |- context [?e l] => assert (A : atomic e l) end.
    { apply atomic_look_seq; intros [|] _; [apply atomic_write|discriminate]. }
    destruct (seq_ _ _ l) as [|ws q] eqn:F; [discriminate|]. specialize (A _ _ F). subst ws.
    intros Q. injection Q as <- _. now rewrite <- (sparse_eta a), D.
Qed.

Lemma same_change probe ho m a c :
  match change_call probe ho m c a with
  | Returned a' _ => apply probe ho m a c = Ok a'
  | Unwound a' p => apply probe ho m a c = Panic p /\ a' = a
  end.
Proof.
  destruct c as [i x| |]; cbn [change_call apply].
  - unfold un_array_store, array_store, inside. destruct a as [v|v].
    + pose proof (sparse_store_er probe m v i x) as E. pose proof (sparse_store_atomic probe m v i x) as A.
      destruct (un_sparse_store probe m i x v) as [s t|s p] eqn:F; cbn [er] in E;
        destruct (sparse_store probe m v i x) as [v'|q]; cbn [bind] in *; try discriminate.
      * now injection E as -> _.
      * injection E as ->. now rewrite (A _ _ F).
    + pose proof (dense_store_er m v i x) as E. pose proof (dense_store_atomic m v i x) as A.
      destruct (un_dense_store m i x v) as [s t|s p] eqn:F; cbn [er] in E;
        destruct (dense_store m v i x) as [v'|q]; cbn [bind] in *; try discriminate.
      * now injection E as -> _.
      * injection E as ->. now rewrite (A _ _ F).
  - reflexivity.
  - unfold un_array_make_dense, array_make_dense. destruct a as [s|d]; [|reflexivity].
    unfold seq_, look. destruct (dense_of_sparse ho m s); cbn [bind modify]; auto.
Qed.

Lemma array_history probe ho m : forall cs a log a', array_caught probe ho m a cs = (log, a') ->
  map fst log = cs /\ apply_all probe ho m a (returned log) = Ok a'.
Proof.
  induction cs as [|c cs IH]; intros a log a' E; cbn [array_caught] in E.
  - now injection E as <- <-.
  - pose proof (same_change probe ho m a c) as S.
    destruct (change_call probe ho m c a) as [a1 t|a1 p].
    + destruct (array_caught probe ho m a1 cs) as [log' a2] eqn:R. injection E as <- <-.
      destruct (IH _ _ _ R) as (I1 & I2). cbn [map fst]. rewrite I1. split; [auto|].
      unfold returned. cbn [filter snd negb map fst apply_all]. now rewrite S.
    + destruct S as (S & ->).
      destruct (array_caught probe ho m a cs) as [log' a2] eqn:R. injection E as <- <-.
      destruct (IH _ _ _ R) as (I1 & I2). cbn [map fst]. rewrite I1. split; [auto|].
      unfold returned. cbn [filter snd negb map fst apply_all]. auto.
Qed.

(** *** the interner *)
Lemma same_interner m st v :
  match un_get_index m v st with
  | Returned st' i => interner_get_index m st v = Ok (st', i)
  | Unwound st' p => interner_get_index m st v = Panic p /\ st' = st
  end.
Proof.
  unfold un_get_index, interner_get_index.
  assert (Lg : forall ws,
    match (do _ <- look (fun _ => debug_assert m (64 <? width v)) ;;
      do o <- look (fun st => Ok (hm_get words_eqb (in_large st) ws)) ;;
      match o with
      | Some index => ret (index_new index (width v))
      | None =>
          do index <- look (fun st => Ok (as_u32 (len (in_words st)))) ;;
          do _ <- modify (fun st => mkinterner (in_words st ++ ws) (in_small st) (in_large st)) ;;
          do _ <- modify (fun st => mkinterner (in_words st) (in_small st)
                                      (hm_insert words_eqb (in_large st) ws index)) ;;
          ret (index_new index (width v))
      end) st with
    | Returned st' i => (let* _ := debug_assert m (64 <? width v) in
      match hm_get words_eqb (in_large st) ws with
      | Some index => Ok (st, index_new index (width v))
      | None =>
          let index := as_u32 (len (in_words st)) in
          Ok (mkinterner (in_words st ++ ws) (in_small st) (hm_insert words_eqb (in_large st) ws index),
              index_new index (width v))
      end) = Ok (st', i)
    | Unwound st' p => (let* _ := debug_assert m (64 <? width v) in
      match hm_get words_eqb (in_large st) ws with
      | Some index => Ok (st, index_new index (width v))
      | None =>
          let index := as_u32 (len (in_words st)) in
          Ok (mkinterner (in_words st ++ ws) (in_small st) (hm_insert words_eqb (in_large st) ws index),
              index_new index (width v))
      end) = Panic p /\ st' = st
    end).
  { intros ws. unfold seq_ at 1. unfold look at 1. destruct (debug_assert m (64 <? width v)); cbn [bind]; [|auto].
    unfold seq_ at 1. unfold look at 1. destruct (hm_get words_eqb (in_large st) ws); reflexivity. }
  destruct (words v) as [|word [|y t]]; [apply Lg| |apply Lg]. clear Lg.
  unfold seq_ at 1. unfold look at 1. destruct (debug_assert m (width v <=? 64)); cbn [bind]; [|auto].
  destruct (word <? 8); [reflexivity|]. unfold seq_ at 1. unfold look at 1.
  destruct (hm_get N.eqb (in_small st) word); reflexivity.
Qed.
