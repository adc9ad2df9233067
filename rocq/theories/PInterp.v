(** * PInterp: the reference interpreter agrees with the code (C77). *)

From Coq Require Import ZifyBool ZifyNat ZifyN.
From Verif Require Import Base Arith Strings Bytes BigInt Bv Spec TextSpec IoSpec ProfileSpec CallSpec
  PanicSpec ParseSpec MixedSpec DirtySpec InterpSpec.
From Verif Require Import PWords PArith PShift PropsArith PCompare PConv PText PParse PropsText PIo PRegister
  PMisc PReject PProfile PCall PShape PPanic PReading PMixed PDirty.
Ltac Zify.zify_post_hook ::= idtac.

(** [agrees] for a call that cannot report an error *)
Definition does (r : res bv) (o : outcome) : Prop :=
  match o with Gives w n => holds r w n | Errs => False | Stops => panics r end.

Lemma does_agrees r o : does r o -> agrees (let* v := r in Ok (Some v)) o.
Proof.
  destruct o; cbn [does agrees]; [|easy|].
  - intros (v & -> & H). exists v. split; [reflexivity|exact H].
  - intros (p & ->). eexists. reflexivity.
Qed.
Lemma does_yields r w n : yields r w n -> does r (Gives w n).
Proof. apply yields_holds. Qed.

Lemma fitsb_ok w z : fitsb w z = true <-> fits w z.
Proof. unfold fitsb, fits. lia. Qed.

(** ** Constructors *)

Lemma u64_does n w : n < 2 ^ 64 -> w < 2 ^ 32 ->
  does (bv_from_u64 Debug n w) (if (w =? 0) || (2 ^ w <=? n) then Stops else Gives w n).
Proof.
  intros Hn Hw. destruct (N.eqb_spec w 0) as [->|W]; cbn [orb].
  - eexists. reflexivity.
  - destruct (from_u64_cases n w ltac:(lia) Hw Hn) as (_ & C1 & C2).
    destruct (N.leb_spec (2 ^ w) n) as [L|L]; [now apply C2|now apply does_yields, C1].
Qed.

Lemma i64_does z w : fits 64 z -> w < 2 ^ 32 ->
  does (bv_from_i64 Debug z w) (if (w =? 0) || negb (fitsb w z) then Stops else Gives w (wrap w z)).
Proof.
  intros Hz Hw. destruct (N.eqb_spec w 0) as [->|W]; cbn [orb].
  - apply (settles_iff _ _ (i64_settles z 0 Hz eq_refl)). auto.
  - destruct (from_i64_cases z w ltac:(lia) Hw Hz) as (_ & C1 & C2).
    destruct (fitsb w z) eqn:F; cbn [negb].
    + apply does_yields, C1. now apply fitsb_ok.
    + apply C2. rewrite <- fitsb_ok. congruence.
Qed.

Lemma text_agrees r w o : parses_to r w o ->
  agrees (let* p := r in Ok (parsed_value p)) (read_fresh w o).
Proof.
  destruct o; cbn.
  - intros (v & -> & H & E1 & E2). exists v. split; [reflexivity|]. repeat split; auto; apply H.
  - now intros ->.
  - intros (p & ->). eexists. reflexivity.
Qed.

Lemma fresh_agrees c : fresh_range c -> agrees (run Debug c) (fresh c).
Proof.
  intros (Ho & Hr & Hm & Hl).
  destruct c; cbn [operands] in Ho; try discriminate Ho;
    cbn [run in_range in_memory fresh] in *; clear Ho.
  - exists (bv_zero w). split; [reflexivity|]. apply is_bv_stores, zero_is_bv. auto.
  - apply does_agrees. destruct (N.eqb_spec w 0) as [->|W].
    + eexists. reflexivity.
    + apply does_yields, ones_ok; lia.
  - apply does_agrees, u64_does; tauto.
  - apply does_agrees, i64_does; tauto.
  - apply does_agrees, does_yields. exists (bv_of 1 (if b then 1 else 0)).
    destruct b; (split; [reflexivity|]); (split; [|split; reflexivity]); repeat split; try reflexivity; repeat constructor.
  - apply does_agrees, does_yields. exists (bv_of 1 1).
    (split; [reflexivity|]); (split; [|split; reflexivity]); repeat split; try reflexivity; repeat constructor.
  - apply does_agrees, does_yields. exists (bv_of 1 0).
    (split; [reflexivity|]); (split; [|split; reflexivity]); repeat split; try reflexivity; repeat constructor.
  - apply text_agrees, reading_parse; tauto.
  - apply text_agrees, reading_bit_str; auto.
  - apply text_agrees, reading_hex_str; auto.
  - apply does_agrees. destruct Hr as [Hb Hw]. unfold places.
    destruct (N.ltb_spec 0 w) as [W|W]; cbn [andb].
    + destruct (N.ltb_spec (8 * ((w + 63) / 64)) (len bytes)) as [L|L].
      * now apply from_bytes_le_panics.
      * apply does_yields, from_bytes_le_ok; auto.
    + apply does_yields, from_bytes_le_ok; auto. left. lia.
  - apply does_agrees. destruct (N.eqb_spec w 0) as [->|W]; cbn [andb].
    + pose proof (big_int_settles z 0 Hr) as S. destruct (Z.ltb_spec z 0) as [L|L].
      * apply (settles_iff _ _ S). auto.
      * destruct (call_settles (KFromBigInt z 0)) as [[[_ K] _]|[_ (v & E)]]; try easy; [lia|].
        pose proof (made_shaped Debug any_call) as _.
        unfold bv_from_big_int, from_big_int, iter_to_word. cbn [N.eqb bind value_vec_zeros].
        replace (z <? 0)%Z with false by lia.
        exists (bv_zero 0). split; [reflexivity|].
        replace (wrap 0 z) with 0 by (unfold wrap; change (2 ^ Z.of_N 0)%Z with 1%Z; now rewrite Z.mod_1_r).
        apply is_bv_stores, zero_is_bv. reflexivity.
    + apply does_yields, from_big_int_ok; lia.
  - apply does_agrees, does_yields, from_big_uint_ok. auto.
  - apply does_agrees. pose proof (of_int_settles z Hm) as S.
    destruct (N.ltb_spec (2 ^ 32 - 64) (N.size (Z.abs_N z))) as [L|L].
    + now apply (settles_iff _ _ S).
    + destruct (of_big_int_ok Debug z) as (v & E & I & _).
      { revert L. generalize (N.size (Z.abs_N z)). clear. intros k L.
        change (2 ^ 32 - 64) with 4294967232 in L. change (2 ^ 32 - 63) with 4294967233. lia. }
      apply does_yields. exists v. auto.
  - apply does_agrees. pose proof (of_uint_settles n Hm) as S.
    destruct (N.ltb_spec (2 ^ 32 - 64) (N.size n)) as [L|L].
    + now apply (settles_iff _ _ S).
    + destruct (of_big_uint_ok Debug n) as (v & E & I & _).
      { revert L. generalize (N.size n). clear. intros k L.
        change (2 ^ 32 - 64) with 4294967232 in L. change (2 ^ 32 - 63) with 4294967233. lia. }
      apply does_yields. exists v. auto.
Qed.

(** ** Calls on one value *)

(** the calls that need at least one bit *)
Lemma zero_case c a n : stores a 0 n -> operands c = [a] -> in_range c -> in_memory c -> rejects c ->
  panics (run Debug c).
Proof.
  intros Ha Ho Hr Hm Hj. apply (settles_iff _ _ (call_settles c ltac:(rewrite Ho; intros b [<-|[]]; apply (stores_0 a n Ha)) Hr Hm)).
  auto.
Qed.

Lemma slice_does a w n msb lsb : stores a w n ->
  does (bv_slice Debug a msb lsb)
    (if (w <? msb) || (msb <? lsb)
        || ((msb =? w) && ((w mod 64 =? 0) || (msb - lsb + 1 =? 2 ^ 32)))
     then Stops
     else Gives (msb - lsb + 1) ((n / 2 ^ lsb) mod 2 ^ (msb - lsb + 1))).
Proof.
  intros Ha. pose proof (stores_inv _ _ _ Ha) as (Wa & Hw & La & Fa & Va & Ba).
  destruct (N.ltb_spec w msb) as [L1|L1]; cbn [orb].
  { apply slice_debug. left. congruence. }
  destruct (N.ltb_spec msb lsb) as [L2|L2]; cbn [orb].
  { apply slice_debug. auto. }
  destruct (N.eqb_spec msb w) as [E|E]; cbn [andb].
  2: { apply does_yields, (dirty_slice _ _ w); auto. lia. }
  destruct (N.eqb_spec (w mod 64) 0) as [M|M]; cbn [orb].
  - (* no unused bits *)
    assert (A : wf a).
    { apply (stores_is_bv a w n); auto. replace (64 * ((w + 63) / 64)) with w in Ba; auto. clear - M. dlia. }
    apply (settles_iff _ _ (slice_settles a msb lsb A)). cbn. rewrite Wa. auto.
  - destruct (N.eqb_spec (msb - lsb + 1) (2 ^ 32)) as [D|D].
    + cbn. unfold bv_slice. rewrite Wa. replace (msb <=? w) with true by lia.
      replace (lsb <=? msb) with true by lia.
      rewrite !debug_assert_true. cbn [bind]. rewrite u32_sub_ok by auto. cbn [bind]. apply panics_bind.
      unfold u32_add. rewrite D, B32_eq, N.ltb_irrefl. eexists. reflexivity.
    + assert (D' : msb - lsb + 1 < 2 ^ 32).
      { revert D. change (2 ^ 32) with 4294967296 in *. clear - Hw L1. lia. }
      cbn. unfold bv_slice. rewrite Wa. replace (msb <=? w) with true by lia.
      replace (lsb <=? msb) with true by lia.
      rewrite !debug_assert_true. cbn [bind].
      rewrite u32_sub_ok by auto. cbn [bind]. rewrite u32_add_ok by auto. cbn [bind].
      apply wres_holds; [auto|].
      apply (narrow_ok (fun o l => ar_slice Debug o l msb lsb)).
      { clear - E M La L2. subst msb. dlia. }
      rewrite <- Va. apply slice_wres; auto.
      * rewrite La, E. clear - M. dlia.
      * rewrite zeros_len. auto.
Qed.

Lemma zext_does a w n k : stores a w n -> k < 2 ^ 32 ->
  does (bv_zero_extend Debug a k)
    (if (2 ^ 32 <=? w + k) || ((w =? 0) && (k <=? 64)) then Stops else Gives (w + k) n).
Proof.
  intros Ha Hk. pose proof (stores_inv _ _ _ Ha) as (Wa & _).
  destruct (N.leb_spec (2 ^ 32) (w + k)) as [L|L]; cbn [orb].
  { rewrite <- Wa in L. exact (proj1 (proj2 (overflow_debug a a k) L)). }
  destruct (N.eqb_spec w 0) as [->|W]; cbn [andb].
  - destruct (stores_0 a n Ha) as [A ->]. destruct (zero_width_extend Debug a k) as (Z1 & Z2 & _); auto.
    { now apply stores_is_bv. }
    destruct (N.leb_spec k 64) as [G|G]; [now apply Z2|now apply does_yields, Z1].
  - apply (dirty_zext Debug a w n k); auto. lia.
Qed.

Lemma sext_does a w n k : stores a w n -> k < 2 ^ 32 ->
  does (bv_sign_extend Debug a k)
    (if (2 ^ 32 <=? w + k) || (w =? 0) then Stops
     else Gives (w + k) (if N.testbit n (w - 1) then wrap (w + k) (signed w (n mod 2 ^ w)) else n)).
Proof.
  intros Ha Hk. pose proof (stores_inv _ _ _ Ha) as (Wa & _).
  destruct (N.leb_spec (2 ^ 32) (w + k)) as [L|L]; cbn [orb].
  { rewrite <- Wa in L. exact (proj2 (proj2 (overflow_debug a a k) L)). }
  destruct (N.eqb_spec w 0) as [->|W].
  - destruct (stores_0 a n Ha) as [A ->]. destruct (zero_width_extend Debug a k) as (_ & _ & Z); auto.
    now apply stores_is_bv.
  - apply (dirty_sext Debug a w n k); auto. lia.
Qed.

Lemma clear_shaped a w n : stores a w n -> bv_clear a = bv_zero w.
Proof.
  intros Ha. pose proof (cleaned_ok a w n Ha) as C. rewrite <- clear_cleaned by apply Ha.
  rewrite clear_zero by apply C. destruct Ha as (_ & <- & _). reflexivity.
Qed.

Lemma set_does a w n pos : stores a w n ->
  does (bv_set_bit a pos) (if 64 * places w <=? pos then Stops else Gives w (N.setbit n pos)).
Proof.
  intros Ha. apply stores_inv in Ha as (Wa & Hw & La & Fa & Va & Ba). unfold places.
  unfold bv_set_bit. rewrite Wa. destruct (N.leb_spec (64 * ((w + 63) / 64)) pos) as [L|L]; cbn [does].
  - apply panics_bind. unfold ar_set_bit. rewrite idx_panic by (rewrite La; clear - L; dlia).
    eexists. reflexivity.
  - destruct (set_bit_words (words a) pos Fa) as (l & E & W & Ll & B); [dlia|].
    rewrite E. cbn [bind]. exists (mkbv w l). split; [reflexivity|]. apply stores_intro; auto; [congruence|].
    apply N.bits_inj. intros i. rewrite B, N.setbit_eqb, Va, N.eqb_sym.
    destruct (pos =? i); reflexivity.
Qed.
Lemma clear_does a w n pos : stores a w n ->
  does (bv_clear_bit a pos) (if 64 * places w <=? pos then Stops else Gives w (N.clearbit n pos)).
Proof.
  intros Ha. apply stores_inv in Ha as (Wa & Hw & La & Fa & Va & Ba). unfold places.
  unfold bv_clear_bit. rewrite Wa. destruct (N.leb_spec (64 * ((w + 63) / 64)) pos) as [L|L]; cbn [does].
  - apply panics_bind. unfold ar_clear_bit. rewrite idx_panic by (rewrite La; clear - L; dlia).
    eexists. reflexivity.
  - destruct (clear_bit_words (words a) pos Fa) as (l & E & W & Ll & B); [dlia|].
    rewrite E. cbn [bind]. exists (mkbv w l). split; [reflexivity|]. apply stores_intro; auto; [congruence|].
    apply N.bits_inj. intros i. rewrite B, N.clearbit_eqb, Va, (N.eqb_sym pos i).
    destruct (i =? pos); cbn [negb]; [now rewrite andb_false_r|now rewrite andb_true_r].
Qed.

Lemma unary_agrees u a w n : unary_range u -> stores a w n ->
  agrees (run Debug (unary_call u a)) (unary_result u w n).
Proof.
  intros Hu Ha. pose proof (stores_inv _ _ _ Ha) as (Wa & Hw & La & Fa & Va & Ba).
  assert (P : forall c, w = 0 -> operands c = [a] -> in_range c -> in_memory c -> rejects c ->
    panics (run Debug c)).
  { intros c ->. apply (zero_case c a n Ha). }
  destruct u; cbn [unary_call unary_result unary_range] in *.
  - destruct (N.eqb_spec w 0) as [E|E]; [apply P; cbn; auto; congruence|].
    apply does_agrees, does_yields, dirty_not; auto. lia.
  - destruct (N.eqb_spec w 0) as [E|E]; [apply P; cbn; auto; congruence|].
    apply does_agrees, does_yields, dirty_negate; auto. lia.
  - apply does_agrees, slice_does; auto.
  - apply does_agrees, zext_does; auto.
  - apply does_agrees, sext_does; auto.
  - destruct (N.eqb_spec w 0) as [E|E]; [apply P; cbn; auto; congruence|].
    apply does_agrees, does_yields, dirty_mask; auto. lia.
  - exists (bv_clear a). split; [reflexivity|]. rewrite (clear_shaped a w n Ha).
    apply is_bv_stores, zero_is_bv. auto.
  - destruct (N.eqb_spec w 0) as [E|E]; [apply P; cbn; auto; congruence|].
    rewrite ignores_ok by (try exact I; intros b [<-|[]]; apply Ha). cbn [clean_call].
    apply does_agrees, does_yields. eapply assign_ones_ok; [apply cleaned_ok; eauto|lia].
  - apply does_agrees. pose proof (u64_does n0 w Hu Hw) as D.
    unfold bv_from_u64, bv_assign_from_u64 in *. rewrite (clear_shaped a w n Ha).
    rewrite (clear_shaped (bv_zero w) w 0) in D by (apply is_bv_stores, zero_is_bv; auto).
    cbn [width bv_zero] in *. rewrite ?Wa. auto.
  - apply does_agrees. pose proof (i64_does z w Hu Hw) as D.
    unfold bv_from_i64, bv_assign_from_i64 in *. rewrite (clear_shaped a w n Ha).
    rewrite (clear_shaped (bv_zero w) w 0) in D by (apply is_bv_stores, zero_is_bv; auto).
    cbn [width bv_zero] in *. rewrite ?Wa. auto.
  - pose proof (reading_assign Debug a s radix (proj1 Ha) (proj1 Hu)) as R.
    destruct Ha as (_ & E1 & E2). rewrite E1, E2 in R. cbn [run].
    destruct (reading_of radix w n s) as [k|e k|]; cbn [assigned agrees] in *.
    + destruct R as (v & -> & S1 & S2 & S3). cbn [bind]. exists v. repeat split; auto; apply S1.
    + destruct R as (v & -> & S1 & S2 & S3). cbn [bind]. exists v. repeat split; auto; apply S1.
    + destruct R as (p & ->). eexists. reflexivity.
  - apply does_agrees, set_does; auto.
  - apply does_agrees, clear_does; auto.
Qed.

(** ** Calls on two values *)

Lemma concat_does a b w n w' k : stores a w n -> stores b w' k ->
  does (bv_concat Debug a b) (binary_result BConcat w n w' k).
Proof.
  intros Ha Hb. cbn [binary_result].
  pose proof (stores_inv _ _ _ Ha) as (Wa & _ & La & _). pose proof (stores_inv _ _ _ Hb) as (Wb & _ & Lb & _).
  destruct (N.leb_spec (2 ^ 32) (w + w')) as [L|L]; cbn [orb].
  { rewrite <- Wa, <- Wb in L. exact (proj1 (overflow_debug a b 0) L). }
  destruct (N.leb_spec (w + w') 64) as [G|G]; rewrite ?andb_true_r, ?andb_false_r.
  - destruct (N.eqb_spec w 0) as [Z|Z]; cbn [orb]; [|destruct (N.eqb_spec w' 0) as [Z'|Z']].
    + cbn [does]. unfold bv_concat. rewrite Wa, Wb, u32_add_ok by auto. cbn [bind].
      replace (w + w' <=? 64) with true by lia. apply panics_bind.
      destruct (range (value_vec_zeros (w + w')) 0 1) as [o|p]; [|exists p; reflexivity]. cbn [bind].
      apply panics_bind. unfold range. replace ((0 <=? 1) && (1 <=? len (words a))) with false.
      * eexists. reflexivity.
      * rewrite La, Z. reflexivity.
    + cbn [does]. unfold bv_concat. rewrite Wa, Wb, u32_add_ok by auto. cbn [bind].
      replace (w + w' <=? 64) with true by lia. apply panics_bind.
      destruct (range (value_vec_zeros (w + w')) 0 1) as [o|p]; [|exists p; reflexivity]. cbn [bind].
      destruct (range (words a) 0 1) as [o'|p]; [|exists p; reflexivity]. cbn [bind].
      apply panics_bind. unfold range. replace ((0 <=? 1) && (1 <=? len (words b))) with false.
      * eexists. reflexivity.
      * rewrite Lb, Z'. reflexivity.
    + apply dirty_concat; auto; lia.
  - cbn [does]. destruct (dirty_concat_wres Debug a b w w' n k) as (l & Hf & Hl & Wl & Vl); auto.
    exists (mkbv (w + w') l). split; [|apply stores_intro; auto].
    unfold bv_concat. rewrite Wa, Wb, u32_add_ok by auto. cbn [bind].
    replace (w + w' <=? 64) with false by lia. rewrite Hf. reflexivity.
Qed.

Lemma binary_agrees op a b w n w' k : stores a w n -> stores b w' k ->
  does (run_bin op Debug a b) (binary_result op w n w' k).
Proof.
  intros Ha Hb. destruct op; try (now apply concat_does); cbn [run_bin binary_result];
  pose proof Ha as (_ & Wa & _); pose proof Hb as (_ & Wb & _);
  (destruct (N.eqb_spec w w') as [<-|W];
   [|rewrite <- Wa, <- Wb in W; apply (mismatch_debug a b W)]); cbn [andb];
  try (now apply dirty_and); try (now apply dirty_or); try (now apply dirty_xor);
  (destruct (N.ltb_spec 0 w) as [L|L];
   [|apply N.le_0_r in L; clear Wa Wb; subst w; destruct (stores_0 a n Ha) as [A ->], (stores_0 b k Hb) as [B ->];
     assert (E : a = b) by (apply (zero_width_works Debug a b); apply stores_is_bv; auto; reflexivity);
     subst b;
     destruct (zero_width_panics Debug a) as ((P1 & P2 & P3) & (P4 & P5 & P6) & _);
     [apply stores_is_bv; auto; reflexivity|assumption]]); cbn [andb].
  - now apply does_yields, dirty_add.
  - now apply does_yields, dirty_sub.
  - destruct (N.leb_spec w 64) as [G|G].
    + now apply does_yields, dirty_mul.
    + eexists. apply (dirty_mul_todo Debug a b w n k); auto.
  - now apply dirty_shl.
  - now apply does_yields, dirty_shr.
  - now apply does_yields, dirty_ashr.
Qed.

Lemma assign_does a b w n w' k : stores a w n -> stores b w' k ->
  does (bv_assign Debug a b) (if w =? w' then Gives w k else Stops).
Proof.
  intros Ha Hb. apply stores_inv in Ha as (Wa & Hw & La & Fa & Va & Ba).
  apply stores_inv in Hb as (Wb & Hw' & Lb & Fb & Vb & Bb).
  destruct (N.eqb_spec w w') as [<-|W]; cbn [does].
  - unfold bv_assign. rewrite Wa, Wb, La, Lb, !N.eqb_refl, debug_assert_true. cbn [bind].
    exists (mkbv w (words b)). split; [reflexivity|]. apply stores_intro; auto.
  - apply mismatch_debug. congruence.
Qed.

(** ** Programs *)

Theorem execute_ok p : typed p -> agrees (execute Debug p) (meaning p).
Proof.
  induction p as [c|u p IH|op p IHp q IHq|p IHp q IHq]; cbn [typed execute meaning].
  - apply fresh_agrees.
  - intros [Hu Hp]. specialize (IH Hp). destruct (meaning p) as [w n| |]; cbn [agrees] in IH.
    + destruct IH as (a & -> & Ha). cbn [bind]. now apply unary_agrees.
    + rewrite IH. reflexivity.
    + destruct IH as (e & ->). eexists. reflexivity.
  - intros [Hp Hq]. specialize (IHp Hp). specialize (IHq Hq).
    destruct (meaning p) as [w n| |]; cbn [agrees] in IHp.
    + destruct IHp as (a & -> & Ha). cbn [bind]. destruct (meaning q) as [w' k| |]; cbn [agrees] in IHq.
      * destruct IHq as (b & -> & Hb). cbn [bind]. apply does_agrees. now apply binary_agrees.
      * rewrite IHq. reflexivity.
      * destruct IHq as (e & ->). eexists. reflexivity.
    + rewrite IHp. reflexivity.
    + destruct IHp as (e & ->). eexists. reflexivity.
  - intros [Hp Hq]. specialize (IHp Hp). specialize (IHq Hq).
    destruct (meaning p) as [w n| |]; cbn [agrees] in IHp.
    + destruct IHp as (a & -> & Ha). cbn [bind]. destruct (meaning q) as [w' k| |]; cbn [agrees] in IHq.
      * destruct IHq as (b & -> & Hb). cbn [bind]. apply (does_agrees (bv_assign Debug a b)). now apply (assign_does _ _ _ n).
      * rewrite IHq. reflexivity.
      * destruct IHq as (e & ->). eexists. reflexivity.
    + rewrite IHp. reflexivity.
    + destruct IHp as (e & ->). eexists. reflexivity.
Qed.

Lemma execute_same p : same_in_release (fun m => execute m p).
Proof.
  induction p as [c|u p IH|op p IHp q IHq|p IHp q IHq]; intros x; cbn [execute].
  - apply run_release.
  - destruct (execute Debug p) as [v|e] eqn:E; [|discriminate]. rewrite (IH v E). cbn [bind].
    destruct v; [|auto]. apply run_release.
  - destruct (execute Debug p) as [v|e] eqn:E; [|discriminate]. rewrite (IHp v E). cbn [bind].
    destruct v; [|auto]. destruct (execute Debug q) as [v|e] eqn:E'; [|discriminate]. rewrite (IHq v E'). cbn [bind].
    destruct v; [|auto]. apply run_release.
  - destruct (execute Debug p) as [v|e] eqn:E; [|discriminate]. rewrite (IHp v E). cbn [bind].
    destruct v; [|auto]. destruct (execute Debug q) as [v|e] eqn:E'; [|discriminate]. rewrite (IHq v E'). cbn [bind].
    destruct v; [|auto]. apply run_release.
Qed.

Theorem execute_release p : typed p -> meaning p <> Stops -> agrees (execute Release p) (meaning p).
Proof.
  intros Hp Hs. pose proof (execute_ok p Hp) as H. pose proof (execute_same p) as S. cbn beta in S.
  destruct (meaning p) as [w n| |]; cbn [agrees] in *; [|auto|easy].
  destruct H as (v & E & Hv). exists v. auto.
Qed.

(** Every value is the result of a program. *)
Theorem execute_all v : made Debug small v ->
  exists p, typed p /\ execute Debug p = Ok (Some v) /\ meaning p = Gives (width v) (uval v).
Proof.
  intros M. assert (X : exists p, typed p /\ execute Debug p = Ok (Some v)).
  { induction M as [c v _ IH Hr [Hm Hl] E].
    assert (U : forall u a, c = unary_call u a -> In a (operands c) -> unary_range u ->
      exists p, typed p /\ execute Debug p = Ok (Some v)).
    { intros u a -> Hin Hu. destruct (IH a Hin) as (p & T & X). exists (Un u p). cbn [typed execute].
      rewrite X. auto. }
    assert (F : operands c = [] -> exists p, typed p /\ execute Debug p = Ok (Some v)).
    { intros O. exists (Fresh c). cbn [typed execute]. split; [repeat split; auto|auto]. }
    destruct c; try (apply F; reflexivity).
    - destruct (IH a (or_introl eq_refl)) as (p & T & X), (IH b (or_intror (or_introl eq_refl))) as (q & T' & X').
      exists (Bin op p q). cbn [typed execute]. rewrite X. cbn [bind]. rewrite X'. auto.
    - apply (U UNot a); cbn; auto.
    - apply (U UNegate a); cbn; auto.
    - apply (U (USlice msb lsb) a); cbn; auto.
    - apply (U (UZeroExtend k) a); cbn; auto.
    - apply (U (USignExtend k) a); cbn; auto.
    - destruct (IH a (or_introl eq_refl)) as (p & T & X), (IH b (or_intror (or_introl eq_refl))) as (q & T' & X').
      exists (Assign p q). cbn [typed execute]. rewrite X. cbn [bind]. rewrite X'. auto.
    - apply (U UMask a); cbn; auto.
    - apply (U UClear a); cbn; auto.
    - apply (U UOnes a); cbn; auto.
    - apply (U (UAssignU64 n) a); cbn; auto.
    - apply (U (UAssignI64 z) a); cbn; auto.
    - apply (U (UAssignStr s radix) a); cbn; auto.
    - apply (U (USetBit pos) a); cbn; auto.
    - apply (U (UClearBit pos) a); cbn; auto. }
  destruct X as (p & T & X). exists p. split; [auto|]. split; [auto|].
  pose proof (execute_ok p T) as A. rewrite X in A. destruct (meaning p) as [w n| |]; cbn in A.
  - destruct A as (v' & [= <-] & _ & -> & ->). reflexivity.
  - discriminate.
  - destruct A as (e & [=]).
Qed.

(** ** Comparisons *)

Theorem test_ok t a b w n w' k : stores a w n -> stores b w' k ->
  match test_result t w n w' k with
  | Some x => run_test t Debug a b = Ok x /\ run_test t Release a b = Ok x
  | None => panics (run_test t Debug a b)
  end.
Proof.
  intros Ha Hb. pose proof Ha as (_ & Wa & _). pose proof Hb as (_ & Wb & _).
  destruct (N.eq_dec w w') as [<-|W].
  - destruct (N.eq_dec w 0) as [->|Z].
    + destruct (stores_0 a n Ha) as [A ->], (stores_0 b k Hb) as [B ->].
      assert (Ia : is_bv a 0 0) by (apply stores_is_bv; auto; reflexivity).
      assert (Ib : is_bv b 0 0) by (apply stores_is_bv; auto; reflexivity).
      destruct (zero_width_works Debug a b Ia Ib) as (E & _). subst b.
      assert (E : a = bv_zero 0).
      { pose proof (wf_0 a A Wa). auto. }
      subst a. destruct t; cbn; try (split; reflexivity); eexists; reflexivity.
    + assert (L : 0 < w) by lia.
      pose proof (dirty_test t Debug a b w n k L Ha Hb). pose proof (dirty_test t Release a b w n k L Ha Hb).
      unfold test_result. rewrite N.eqb_refl. replace (0 <? w) with true by lia.
      destruct t; cbn [andb]; auto.
  - unfold test_result. replace (w =? w') with false by lia. cbn [andb].
    assert (W' : width a <> width b) by congruence.
    destruct (mismatch_debug a b W') as (_ & _ & _ & (P1 & P2) & (P3 & P4 & P5 & P6) & (P7 & P8 & P9 & P10) & _).
    destruct t; cbn [run_test]; try assumption.
    + unfold bv_eq. rewrite Wa, Wb. replace (w' =? w) with false by lia. split; reflexivity.
    + unfold bvref_eq. rewrite Wa, Wb. replace (w' =? w) with false by lia. split; reflexivity.
Qed.

Lemma interp_example :
  let p := Un (UZeroExtend 62) (Fresh (KFromI64 (-3) 8)) in
  let q := Fresh (KFromStr [49; 102] 16 70) in
  let r := Bin BShl (Fresh (KFromU64 255 70)) (Fresh (KFromU64 64 70)) in
  let s := Un (USlice 70 64) r in
  typed p /\ typed q /\ typed r /\ typed s
  /\ meaning (Bin BAdd p q) = Gives 70 (253 + 31)
  /\ meaning r = Gives 70 (255 * 2 ^ 64)
  /\ meaning s = Gives 7 127
  /\ meaning (Bin BAdd r (Fresh (KZero 70))) = Gives 70 (63 * 2 ^ 64)
  /\ meaning (Bin BAdd s (Fresh (KFromBitStr [48; 50]))) = Errs
  /\ meaning (Bin BXor s p) = Stops
  /\ execute Debug s = Ok (Some (bv_of 7 127))
  /\ (exists v, execute Debug r = Ok (Some v) /\ ~ wf v).
Proof.
  intros p q r s.
  assert (T : typed p /\ typed q /\ typed r /\ typed s).
  { repeat split; try reflexivity; try exact I; vm_compute; discriminate. }
  destruct T as (T1 & T2 & T3 & T4). do 4 (split; [assumption|]).
  do 7 (split; [vm_compute; reflexivity|]).
  eexists. split; [vm_compute; reflexivity|]. intros (_ & _ & _ & B). vm_compute in B. discriminate B.
Qed.
