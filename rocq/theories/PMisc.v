(** * PMisc: fixed point, zero width, [Value], expressions. *)

From Coq Require Import ZifyBool ZifyNat ZifyN QArith Lqa.
From Verif Require Import Base Arith Strings Bytes BigInt Bv Map Array Spec ArraySpec ExprSpec.
From Verif Require Import PWords PArith PShift PropsArith PCompare PConv.
Open Scope N_scope.

Ltac Zify.zify_post_hook ::= idtac.

(** ** Fixed point *)

Definition two (f : N) : Q := inject_Z (2 ^ Z.of_N f).

Lemma unsigned_fixed_raw m a w x f : is_bv a w x -> f <= w -> f < 64 ->
  bv_to_unsigned_fixed_point m a f
  = Ok (if x <? 2 ^ 64 then Some (inject_Z (Z.of_N x) / two f)%Q else None).
Proof.
  intros Ha Hf H64. unfold bv_to_unsigned_fixed_point, u64_shl1, two.
  rewrite (to_u64_ok a w x Ha). replace (f <? 64) with true by lia.
  apply is_bv_inv in Ha as (Wa & _). rewrite Wa.
  replace (f <=? w) with true by lia. rewrite debug_assert_true. cbn [bind].
  rewrite Zpow. destruct (x <? 2 ^ 64); reflexivity.
Qed.

Lemma unsigned_fixed_ok m a w x f : is_bv a w x -> f <= w -> f < 64 ->
  (x < 2 ^ 64 -> exists q, bv_to_unsigned_fixed_point m a f = Ok (Some q)
     /\ (q == inject_Z (Z.of_N x) / inject_Z (2 ^ Z.of_N f))%Q)
  /\ (2 ^ 64 <= x -> bv_to_unsigned_fixed_point m a f = Ok None).
Proof.
  intros Ha Hf H64. rewrite (unsigned_fixed_raw m a w x f) by auto. split; intros H.
  - apply N.ltb_lt in H. rewrite H. eexists. split; [reflexivity|]. reflexivity.
  - apply N.ltb_ge in H. rewrite H. reflexivity.
Qed.

Lemma signed_fixed_ok m a w x f : 0 < w -> is_bv a w x -> f <= w -> f < 64 ->
  (w <= 64 -> exists q, bv_to_signed_fixed_point m a f = Ok (Some q)
     /\ (q == inject_Z (signed w x) / inject_Z (2 ^ Z.of_N f))%Q)
  /\ (64 < w -> (signed w x < 0)%Z -> bv_to_signed_fixed_point m a f = Ok None)
  /\ (64 < w -> (0 <= signed w x)%Z ->
      bv_to_signed_fixed_point m a f = bv_to_unsigned_fixed_point m a f).
Proof.
  intros Hw Ha Hf H64. unfold bv_to_signed_fixed_point.
  pose proof (is_bv_inv _ _ _ Ha) as (Wa & _ & _ & _ & _ & Ba). rewrite Wa.
  replace (f <=? w) with true by lia. rewrite debug_assert_true. cbn [bind].
  rewrite (is_negative_ok m a w x Hw Ha). cbn [bind].
  assert (Hs : signed w x = Z.of_N x \/ signed w x = (Z.of_N x - Z.of_N (2 ^ w))%Z).
  { unfold signed. rewrite Zpow. destruct (x <? 2 ^ (w - 1)); auto. }
  destruct (Z.ltb_spec (signed w x) 0) as [Hn|Hn].
  - split; [|split]; intros H; [|replace (64 <? w) with true by lia; auto|lia].
    replace (64 <? w) with false by lia.
    destruct (negate_ok m a w x Hw Ha) as (v & -> & Hv). cbn [bind].
    assert (Ev : Z.of_N (wrap w (- Z.of_N x)) = (- signed w x)%Z).
    { destruct Hs as [Hs|Hs]; [lia|].
      assert (Hx : x <> 0).
      { intros ->. unfold signed in Hn. pose proof (pow_pos (w - 1)) as P.
        apply N.ltb_lt in P. rewrite P in Hn. lia. }
      rewrite (wrap_eq w (2 ^ w - x) (- Z.of_N x) (-1)); lia. }
    rewrite (unsigned_fixed_raw m v w _ f Hv) by lia. cbn [bind].
    assert (B : wrap w (- Z.of_N x) < 2 ^ 64).
    { eapply N.lt_le_trans; [apply (is_bv_lt _ _ _ Hv)|]. apply pow_le. lia. }
    apply N.ltb_lt in B. rewrite B. eexists. split; [reflexivity|].
    rewrite Ev. unfold two. rewrite inject_Z_opp. unfold Qdiv. ring.
  - split; [|split]; intros H; [|lia|auto].
    assert (B : x < 2 ^ 64).
    { eapply N.lt_le_trans; [exact Ba|]. apply pow_le. lia. }
    destruct Hs as [Hs|Hs]; [|lia]. rewrite Hs.
    apply (unsigned_fixed_ok m a w x f); auto.
Qed.

(** a fraction width of 64 or more shifts [1u64] out of range *)
Lemma fixed_wide m a w x f : is_bv a w x -> f <= w -> 64 <= f ->
  bv_to_unsigned_fixed_point m a f
  = match m with
    | Debug => Panic POverflow
    | Release => Ok (if x <? 2 ^ 64
                     then Some (inject_Z (Z.of_N x) / inject_Z (2 ^ Z.of_N (f mod 64)))%Q
                     else None)
    end.
Proof.
  intros Ha Hf H64. unfold bv_to_unsigned_fixed_point, u64_shl1.
  rewrite (to_u64_ok a w x Ha). replace (f <? 64) with false by lia.
  apply is_bv_inv in Ha as (Wa & _). rewrite Wa.
  replace (f <=? w) with true by lia. rewrite debug_assert_true. cbn [bind].
  destruct m; cbn [bind]; auto. rewrite Zpow. destruct (x <? 2 ^ 64); reflexivity.
Qed.

Lemma fixed_refuted : exists a w x f, is_bv a w x /\ f <= w /\ x < 2 ^ 64
  /\ panics (bv_to_unsigned_fixed_point Debug a f)
  /\ panics (bv_to_signed_fixed_point Debug a f)
  /\ exists q, bv_to_unsigned_fixed_point Release a f = Ok (Some q)
       /\ ~ (q == inject_Z (Z.of_N x) / inject_Z (2 ^ Z.of_N f))%Q.
Proof.
  exists (bv_of 64 5), 64, 5, 64. split; [apply bv_of_is_bv; reflexivity|].
  split; [discriminate|]. split; [reflexivity|].
  split; [eexists; reflexivity|]. split; [eexists; reflexivity|].
  eexists. split; [reflexivity|]. vm_compute. discriminate.
Qed.

Lemma fixed_too_wide m a w x f : is_bv a w x -> w < f -> m = Debug ->
  panics (bv_to_unsigned_fixed_point m a f) /\ panics (bv_to_signed_fixed_point m a f).
Proof.
  intros Ha Hf ->. apply is_bv_inv in Ha as (Wa & _).
  unfold bv_to_unsigned_fixed_point, bv_to_signed_fixed_point. rewrite Wa.
  replace (f <=? w) with false by lia. split; eexists; reflexivity.
Qed.

(** ** The 0-bit value *)

Lemma zero_width_only a x : is_bv a 0 x -> a = bv_zero 0 /\ x = 0.
Proof.
  intros Ha. assert (Hx := is_bv_lt _ _ _ Ha). change (2 ^ 0) with 1 in Hx.
  assert (x = 0) by lia. subst x. split; auto.
  eapply is_bv_unique; [exact Ha|]. apply zero_is_bv. reflexivity.
Qed.

Lemma zero_width_works m a b : is_bv a 0 0 -> is_bv b 0 0 ->
  a = b
  /\ (bv_eq m a b = Ok true /\ bvref_eq m a b = Ok true /\ bv_is_equal m a b = Ok true
      /\ bv_is_not_equal m a b = Ok false)
  /\ (bv_is_greater m a b = Ok false /\ bv_is_less m a b = Ok false)
  /\ (yields (bv_and m a b) 0 0 /\ yields (bv_or m a b) 0 0 /\ yields (bv_xor m a b) 0 0)
  /\ (bv_is_zero a = true /\ bv_to_u64 a = Some 0 /\ bv_to_i64 m a = Ok (Some 0%Z)
      /\ bv_to_bool a = Ok None /\ bv_is_tru a = Ok false /\ bv_is_fals a = Ok false)
  /\ (bv_to_big_uint a = Ok 0 /\ bv_to_big_int m a = Ok 0%Z /\ bv_to_bytes_le a = [])
  /\ (bv_to_bit_str a = Ok [] /\ bv_to_hex_str m a = Ok [] /\ bv_to_dec_str m a = Ok [48])
  /\ (yields (bv_assign m a b) 0 0 /\ is_bv (bv_clear a) 0 0)
  /\ (bv_from_bit_str m [] = Ok (Parsed a) /\ bv_from_hex_str m [] = Ok (Parsed a)
      /\ bv_from_bytes_le m [] 0 = Ok a /\ bv_from_big_uint m 0 0 = Ok a
      /\ bv_from_big_int m 0 0 = Ok a /\ bv_zero 0 = a).
Proof.
  intros Ha Hb. assert (Z := Ha). apply zero_width_only in Ha as [-> _].
  apply zero_width_only in Hb as [-> _].
  assert (Y : forall r, r = Ok (bv_zero 0) -> yields r 0 0).
  { intros r ->. exists (bv_zero 0). auto. }
  split; [reflexivity|]. split; [destruct m; repeat split|].
  split; [destruct m; repeat split|].
  split; [split; [|split]; apply Y; destruct m; reflexivity|].
  split; [destruct m; repeat split|]. split; [destruct m; repeat split|].
  split; [destruct m; repeat split|].
  split; [split; [apply Y; destruct m; reflexivity|exact Z]|].
  destruct m; repeat split.
Qed.

Lemma zero_width_panics m a : is_bv a 0 0 ->
  (panics (bv_add m a a) /\ panics (bv_sub m a a) /\ panics (bv_mul m a a))
  /\ (panics (bv_shift_left m a a) /\ panics (bv_shift_right m a a)
      /\ panics (bv_arithmetic_shift_right m a a))
  /\ (panics (bv_not m a) /\ panics (bv_negate m a))
  /\ (panics (bv_is_negative m a) /\ panics (bv_is_greater_signed m a a)
      /\ panics (bv_is_greater_or_equal_signed m a a))
  /\ (panics (bv_to_bit_str_signed m a) /\ panics (bv_to_hex_str_signed m a))
  /\ (panics (bv_mask_msb m a) /\ panics (bv_assign_ones m a) /\ panics (bv_ones m 0))
  /\ (panics (bv_from_u64 m 0 0) /\ panics (bv_from_i64 m 0 0))
  /\ bv_is_greater_or_equal m a a = Ok false.
Proof.
  intros Ha. apply zero_width_only in Ha as [-> _].
  destruct m; repeat split; eexists; reflexivity.
Qed.

(** neutral for concatenation and extension exactly above 64 bits *)
Lemma zero_width_concat m z a w x : is_bv z 0 0 -> is_bv a w x ->
  (64 < w -> bv_concat m a z = Ok a /\ bv_concat m z a = Ok a)
  /\ (w <= 64 -> panics (bv_concat m a z) /\ panics (bv_concat m z a)).
Proof.
  intros Hz Ha. assert (Hw := is_bv_w _ _ _ Ha). split; intros H.
  - destruct (concat_any m a z w 0 x 0 Ha Hz) as (v & E & Hv); try lia.
    destruct (concat_any m z a 0 w 0 x Hz Ha) as (u & F & Hu); try lia.
    rewrite N.add_0_r in Hv. rewrite N.pow_0_r, N.mul_1_r, N.add_0_r in Hv.
    rewrite N.mul_0_l, !N.add_0_l in Hu.
    rewrite E, F. split; f_equal; eapply is_bv_unique; eauto.
  - apply zero_width_only in Hz as [-> _].
    apply is_bv_inv in Ha as (Wa & _ & La & _). unfold bv_concat. rewrite Wa.
    change (width (bv_zero 0)) with 0. change (words (bv_zero 0)) with (@nil N).
    rewrite !u32_add_ok by (change (2 ^ 32) with B32 in *; unfold B32 in *; lia). cbn [bind].
    rewrite N.add_0_r, N.add_0_l. replace (w <=? 64) with true by lia.
    change (range (@nil N) 0 1) with (@Panic (list N) PIndex).
    split; destruct (range (value_vec_zeros w) 0 1); try (eexists; reflexivity); cbn [bind];
      try (eexists; reflexivity);
      destruct (range (words a) 0 1); eexists; reflexivity.
Qed.

Lemma zero_width_extend m z by_ : is_bv z 0 0 -> by_ < 2 ^ 32 ->
  (64 < by_ -> yields (bv_zero_extend m z by_) by_ 0)
  /\ (by_ <= 64 -> panics (bv_zero_extend m z by_))
  /\ panics (bv_sign_extend m z by_).
Proof.
  intros Hz Hb. split; [|split].
  - intros H. change by_ with (0 + by_) at 2. apply zero_extend_any; auto.
  - intros H. apply zero_width_only in Hz as [-> _]. unfold bv_zero_extend.
    change (width (bv_zero 0)) with 0. change (words (bv_zero 0)) with (@nil N).
    rewrite !u32_add_ok by (change (2 ^ 32) with B32 in *; unfold B32 in *; lia). cbn [bind].
    rewrite N.add_0_l. replace (by_ <=? 64) with true by lia.
    change (range (@nil N) 0 1) with (@Panic (list N) PIndex).
    destruct (range (value_vec_zeros by_) 0 1); eexists; reflexivity.
  - apply zero_width_only in Hz as [-> _]. unfold bv_sign_extend.
    change (width (bv_zero 0)) with 0. change (words (bv_zero 0)) with (@nil N).
    rewrite !u32_add_ok by (change (2 ^ 32) with B32 in *; unfold B32 in *; lia). cbn [bind].
    rewrite N.add_0_l.
    change (range (@nil N) 0 1) with (@Panic (list N) PIndex).
    destruct (by_ <=? 64).
    + destruct (range (value_vec_zeros by_) 0 1); eexists; reflexivity.
    + destruct m; eexists; reflexivity.
Qed.

(** ** [Value] *)

Lemma try_from_ok v :
  (forall b, bv_try_from v = Some b <-> v = VBitVec b)
  /\ (forall a, array_try_from v = Some a <-> v = VArray a)
  /\ (bv_try_from v = None <-> exists a, v = VArray a)
  /\ (array_try_from v = None <-> exists b, v = VBitVec b).
Proof.
  destruct v as [a|b]; cbn; repeat split; intros; try discriminate; try congruence; eauto.
  - destruct H as (? & [=]).
  - destruct H as (? & [=]).
Qed.

Lemma value_eq_ok ho m :
  (forall a b, wf a -> wf b -> value_eq ho m (VBitVec a) (VBitVec b)
     = Ok ((width a =? width b) && (uval a =? uval b)))
  /\ (forall a b, value_eq ho m (VBitVec a) (VArray b) = Ok false
               /\ value_eq ho m (VArray b) (VBitVec a) = Ok false)
  /\ (forall a b, value_eq ho m (VArray a) (VArray b) = array_eq ho m a b).
Proof. split; [intros; apply bv_eq_ok; auto|]. split; intros; cbn; auto. Qed.

(** ** Expressions *)

Lemma typed_width ws e w : typed ws e w -> ewidth ws e = w /\ 0 < w /\ w < 2 ^ 32.
Proof.
  induction 1; cbn [ewidth]; repeat match goal with H : _ /\ _ |- _ => destruct H end;
    subst; try (split; [reflexivity|]); try lia.
Qed.

Lemma test2_ok m f x y w a b c : is_bv x w a -> is_bv y w b -> f x y = Ok c ->
  yields (test2 m f (Ok x) (Ok y)) 1 (truth c).
Proof.
  intros Hx Hy E. unfold test2. cbn [bind]. rewrite E. cbn [bind].
  destruct (bool_cases m c) as (v & -> & Hv & _). exists v. auto.
Qed.

Lemma sign_extend_wrap m a w x by_ : is_bv a w x -> 0 < w -> w + by_ < 2 ^ 32 ->
  yields (bv_sign_extend m a by_) (w + by_) (wrap (w + by_) (signed w x)).
Proof.
  intros Ha H0 Hw. destruct (sign_extend_signed m a w x by_ Ha H0 Hw) as (v & n & E & Hv & S).
  exists v. split; auto. rewrite <- S. rewrite wrap_signed; auto. apply (is_bv_lt _ _ _ Hv).
Qed.

Lemma asr_wrap m a b w x y : 0 < w -> is_bv a w x -> is_bv b w y ->
  yields (bv_arithmetic_shift_right m a b) w (wrap w (signed w x / 2 ^ Z.of_N y)).
Proof.
  intros H0 Ha Hb. destruct (asr_signed m a b w x y Ha Hb H0) as (v & n & E & Hv & S).
  exists v. split; auto. rewrite <- S. rewrite wrap_signed; auto. apply (is_bv_lt _ _ _ Hv).
Qed.

Lemma evaluate_ok m env ws vs e w : env_is env ws vs -> typed ws e w -> avoids ws vs e ->
  yields (evaluate m env e) w (meaning ws vs e).
Proof.
  intros He T. induction T; intros A; cbn [avoids] in A; cbn [evaluate meaning];
    repeat match goal with
    | H : _ /\ _ |- _ => destruct H
    | IH : avoids _ _ ?a -> _, H : avoids _ _ ?a |- _ => specialize (IH H)
    | H : yields (evaluate _ _ _) _ _ |- _ => destruct H as (? & -> & ?)
    | T : typed _ _ _ |- _ =>
        let E := fresh "E" in destruct (typed_width _ _ _ T) as (E & ? & ?); clear T;
        rewrite ?E in *
    end;
    unfold call2; cbn [bind];
    try (eapply test2_ok; [eassumption|eassumption|]).
  - exists (env i). auto.
  - eapply yields_eq; [apply from_u64_ok; auto|]. apply N.mod_small. auto.
  - exists (bv_zero w). split; auto using zero_is_bv.
  - apply ones_ok; auto.
  - rewrite <- N2Z.inj_add, wrap_mod. apply add_ok; auto.
  - apply sub_ok; auto.
  - rewrite <- N2Z.inj_mul, wrap_mod. eapply mul_cases; eauto.
  - apply and_ok; auto.
  - apply or_ok; auto.
  - apply xor_ok; auto.
  - apply shift_left_good; auto.
  - eapply shift_right_cases; eauto.
  - apply asr_wrap; auto.
  - apply not_ok; auto.
  - apply negate_ok; auto.
  - eapply slice_ok; eauto.
  - apply concat_ok; auto.
  - apply zero_extend_ok; auto.
  - apply sign_extend_wrap; auto.
  - eapply is_equal_ok; eauto.
  - eapply strict_cases; eauto.
  - eapply (greater_equal_good m _ _ w); eauto.
  - eapply (signed_cases m _ _ w); eauto.
  - eapply (signed_cases m _ _ w); eauto.
Qed.

(** debug and release builds agree *)
Lemma evaluate_modes env ws vs e w : env_is env ws vs -> typed ws e w -> avoids ws vs e ->
  evaluate Debug env e = evaluate Release env e.
Proof.
  intros He T A. destruct (evaluate_ok Debug env ws vs e w He T A) as (a & -> & Ha).
  destruct (evaluate_ok Release env ws vs e w He T A) as (b & -> & Hb).
  f_equal. eapply is_bv_unique; eauto.
Qed.

Lemma evaluate_refuted : exists env ws vs e w, env_is env ws vs /\ typed ws e w
  /\ panics (evaluate Debug env e) /\ panics (evaluate Release env e).
Proof.
  exists (fun _ => bv_of 65 3), (fun _ => 65), (fun _ => 3), (EMul (EVar 0) (EVar 1)), 65.
  split; [intros i _ _; apply bv_of_is_bv; reflexivity|].
  split; [constructor; apply (t_var (fun _ => 65)); reflexivity|].
  split; eexists; reflexivity.
Qed.

Lemma evaluate_shift_refuted : exists m env ws vs e w, env_is env ws vs /\ typed ws e w
  /\ exists v, evaluate m env e = Ok v /\ uval v <> meaning ws vs e.
Proof.
  set (e := EEq (EShl (EVar 0) (EWord 64 65)) (EShl (EWord 1 65) (EWord 64 65))).
  exists Debug, (fun _ => bv_of 65 7), (fun _ => 65), (fun _ => 7), e, 1.
  split; [intros i _ _; apply bv_of_is_bv; reflexivity|].
  split.
  { unfold e. apply (t_eq _ _ _ 65); repeat (constructor; try reflexivity);
      apply (t_var (fun _ => 65)); reflexivity. }
  eexists. split; [vm_compute; reflexivity|]. vm_compute. discriminate.
Qed.
