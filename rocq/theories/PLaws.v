(** * PLaws: the laws of LawSpec.v hold of the library's operations. *)

From Coq Require Import ZifyBool ZifyNat ZifyN.
From Verif Require Import Base Bv Spec ExprSpec LawSpec.
From Verif Require Import PWords PArith PShift PropsArith PCompare PConv PMisc.
Ltac Zify.zify_post_hook ::= idtac.

(** ** Two expressions with the same meaning evaluate to the same bit-vector *)
Lemma evaluate_eq m env ws vs e1 e2 w : env_is env ws vs -> typed ws e1 w -> typed ws e2 w ->
  avoids ws vs e1 -> avoids ws vs e2 -> meaning ws vs e1 = meaning ws vs e2 ->
  evaluate m env e1 = evaluate m env e2 /\ exists v, evaluate m env e1 = Ok v.
Proof.
  intros He T1 T2 A1 A2 E.
  destruct (evaluate_ok m env ws vs e1 w He T1 A1) as (u & -> & Hu).
  destruct (evaluate_ok m env ws vs e2 w He T2 A2) as (v & -> & Hv).
  split; [|eauto]. f_equal. eapply is_bv_unique; [exact Hu|]. now rewrite E.
Qed.

Definition wenv (w : N) : N -> N := fun _ => w.
Definition venv (x y z : N) : N -> N := fun i => if i =? 0 then x else if i =? 1 then y else z.

Lemma operands_env a b c w x y z : is_bv a w x -> is_bv b w y -> is_bv c w z ->
  env_is (operands a b c) (wenv w) (venv x y z).
Proof.
  intros Ha Hb Hc i _ _. unfold operands, venv, wenv.
  destruct (i =? 0); auto. destruct (i =? 1); auto.
Qed.

Lemma law_ok m a b c w x y z l r ow : is_bv a w x -> is_bv b w y -> is_bv c w z ->
  typed (wenv w) l ow -> typed (wenv w) r ow ->
  avoids (wenv w) (venv x y z) l -> avoids (wenv w) (venv x y z) r ->
  meaning (wenv w) (venv x y z) l = meaning (wenv w) (venv x y z) r -> holds m a b c (l, r).
Proof.
  intros Ha Hb Hc T1 T2 A1 A2 E. unfold holds. cbn [fst snd].
  eapply evaluate_eq; eauto. eapply operands_env; eauto.
Qed.

(** ** Widths *)
Lemma typed_eq ws e w w' : typed ws e w -> w = w' -> typed ws e w'.
Proof. intros H <-. exact H. Qed.
Lemma t_v w i : 0 < w -> w < 2 ^ 32 -> typed (wenv w) (EVar i) w.
Proof. intros. now apply (t_var (wenv w) i). Qed.
Lemma one_lt w : 0 < w -> 1 < 2 ^ w.
Proof. intros H. change 1 with (2 ^ 0). now apply pow_lt. Qed.
Lemma t_one w : 0 < w -> w < 2 ^ 32 -> typed (wenv w) (one w) w.
Proof. intros. apply t_word; auto; [reflexivity|]. now apply one_lt. Qed.
Lemma t_sign w : 0 < w -> w < 2 ^ 32 -> typed (wenv w) (sign_bit w) w.
Proof. intros. apply t_not, t_shr; [now apply t_ones|now apply t_one]. Qed.

Ltac ty := repeat first
  [ apply t_v | apply t_one | apply t_sign | apply t_zero | apply t_ones
  | apply t_add | apply t_sub | apply t_mul | apply t_and | apply t_or | apply t_xor
  | apply t_shl | apply t_shr | apply t_asr | apply t_not | apply t_neg ]; auto.

(** ** Arithmetic *)
Lemma Zwrap w z : Z.of_N (wrap w z) = (z mod Z.of_N (2 ^ w))%Z.
Proof.
  unfold wrap. rewrite Zpow. apply Z2N.id. apply Z.mod_pos_bound. assert (H := pow_pos w). lia.
Qed.
Lemma wrap_cong w z z' k : z = (z' + k * Z.of_N (2 ^ w))%Z -> wrap w z = wrap w z'.
Proof.
  intros ->. apply N2Z.inj. rewrite !Zwrap. apply Z_mod_plus_full.
Qed.
Lemma wrap_mod_eq w z z' : (z mod Z.of_N (2 ^ w) = z' mod Z.of_N (2 ^ w))%Z -> wrap w z = wrap w z'.
Proof. intros H. apply N2Z.inj. rewrite !Zwrap. exact H. Qed.
Lemma wrap_id w n : n < 2 ^ w -> wrap w (Z.of_N n) = n.
Proof. intros H. rewrite wrap_mod. now apply mod_small_pow. Qed.

Ltac push := rewrite ?Zwrap;
  repeat first [ rewrite Zplus_mod_idemp_l | rewrite Zplus_mod_idemp_r
               | rewrite Zminus_mod_idemp_l | rewrite Zminus_mod_idemp_r
               | rewrite Zmult_mod_idemp_l | rewrite Zmult_mod_idemp_r ].
Lemma Zopp_mod_idemp a n : ((- (a mod n)) mod n = (- a) mod n)%Z.
Proof. rewrite <- !Z.sub_0_l. apply Zminus_mod_idemp_r. Qed.
Ltac ring_law := apply wrap_mod_eq; push; rewrite ?Zopp_mod_idemp; push; f_equal; ring.

(** ** Bits *)
Lemma not_bits w x i : x < 2 ^ w -> N.testbit (2 ^ w - 1 - x) i = (i <? w) && negb (N.testbit x i).
Proof.
  intros H. replace (2 ^ w - 1 - x) with (N.lnot x w).
  - destruct (N.ltb_spec i w).
    + now rewrite N.lnot_spec_low.
    + rewrite N.lnot_spec_high by auto. now rewrite (testbit_high x w i).
  - destruct (N.eq_dec x 0) as [->|Hn].
    + rewrite N.lnot_0_l, N.ones_equiv. lia.
    + rewrite N.lnot_sub_low.
      * rewrite N.ones_equiv. lia.
      * apply N.log2_lt_pow2; lia.
Qed.
Lemma not_lt w x : 2 ^ w - 1 - x < 2 ^ w.
Proof. assert (H := pow_pos w). lia. Qed.
Lemma land_lt w x y : x < 2 ^ w -> N.land x y < 2 ^ w.
Proof.
  intros H. apply lt_pow_bits. intros i Hi. rewrite N.land_spec, (testbit_high x w i); auto.
Qed.
Lemma lor_lt w x y : x < 2 ^ w -> y < 2 ^ w -> N.lor x y < 2 ^ w.
Proof.
  intros H H'. apply lt_pow_bits. intros i Hi.
  rewrite N.lor_spec, (testbit_high x w i), (testbit_high y w i); auto.
Qed.
Lemma lxor_lt w x y : x < 2 ^ w -> y < 2 ^ w -> N.lxor x y < 2 ^ w.
Proof.
  intros H H'. apply lt_pow_bits. intros i Hi.
  rewrite N.lxor_spec, (testbit_high x w i), (testbit_high y w i); auto.
Qed.
Ltac bits w := apply N.bits_inj; intros i;
  repeat rewrite ?N.land_spec, ?N.lor_spec, ?N.lxor_spec, ?N.bits_0, ?testbit_ones_sub;
  rewrite ?not_bits by auto using land_lt, lor_lt, lxor_lt, not_lt;
  repeat rewrite ?N.land_spec, ?N.lor_spec, ?N.lxor_spec, ?N.bits_0, ?testbit_ones_sub;
  rewrite ?not_bits by auto using land_lt, lor_lt, lxor_lt, not_lt;
  destruct (N.ltb_spec i w) as [Hi|Hi];
  [| repeat match goal with H : ?u < 2 ^ w |- context [N.testbit ?u i] =>
       rewrite (testbit_high u w i H Hi) end];
  repeat match goal with |- context [N.testbit ?u i] => destruct (N.testbit u i) end; reflexivity.

Lemma half u : u = 2 * N.div2 u + N.b2n (N.odd u).
Proof. apply N.div2_odd. Qed.
Lemma odd_bit u : N.odd u = N.testbit u 0.
Proof. symmetry. apply N.bit0_odd. Qed.
Lemma add_bits x : forall y, N.lxor x y + 2 * N.land x y = x + y /\ N.land x y + N.lor x y = x + y.
Proof.
  induction x as [x IH] using (well_founded_induction N.lt_wf_0). intros y.
  destruct (N.eq_dec x 0) as [->|Hx].
  - rewrite N.lxor_0_l, N.land_0_l, N.lor_0_l. lia.
  - assert (Hd : N.div2 x < x) by (rewrite N.div2_div; apply N.div_lt; lia).
    destruct (IH _ Hd (N.div2 y)) as (E1 & E2). clear IH Hd.
    rewrite (half (N.lxor x y)), (half (N.land x y)), (half (N.lor x y)).
    rewrite !N.div2_spec, N.shiftr_lxor, N.shiftr_land, N.shiftr_lor, <- !N.div2_spec.
    rewrite !odd_bit, N.lxor_spec, N.land_spec, N.lor_spec, <- !odd_bit.
    assert (Hxx := half x). assert (Hyy := half y).
    destruct (N.odd x), (N.odd y); cbn [xorb andb orb N.b2n] in *; lia.
Qed.

(** ** The sign bit *)
Lemma sign_bit_val w : 0 < w -> 2 ^ w - 1 - (2 ^ w - 1) / 2 ^ 1 = 2 ^ (w - 1).
Proof.
  intros H. replace (2 ^ w) with (2 * 2 ^ (w - 1)) by (rewrite <- pow_S; f_equal; lia).
  assert (P := pow_pos (w - 1)). change (2 ^ 1) with 2. set (p := 2 ^ (w - 1)) in *.
  replace ((2 * p - 1) / 2) with (p - 1); [lia|].
  apply (N.div_unique _ 2 _ 1); lia.
Qed.
Lemma flip_sign w x : 0 < w -> x < 2 ^ w ->
  Z.of_N (N.lxor x (2 ^ (w - 1))) = (signed w x + 2 ^ (Z.of_N w - 1))%Z.
Proof.
  intros H Hx. unfold signed.
  replace (Z.of_N w - 1)%Z with (Z.of_N (w - 1)) by lia. rewrite !Zpow.
  assert (E : 2 ^ w = 2 * 2 ^ (w - 1)) by (rewrite <- pow_S; f_equal; lia).
  assert (P := pow_pos (w - 1)).
  destruct (N.ltb_spec x (2 ^ (w - 1))) as [L|L].
  - rewrite <- N.add_nocarry_lxor; [lia|].
    apply N.bits_inj. intros i. rewrite N.land_spec, N.bits_0, N.pow2_bits_eqb.
    destruct (N.eqb_spec (w - 1) i) as [<-|]; [|apply andb_false_r].
    now rewrite (testbit_high x (w - 1) (w - 1)).
  - assert (F : x = (x - 2 ^ (w - 1)) + 2 ^ (w - 1)) by lia.
    assert (L' : x - 2 ^ (w - 1) < 2 ^ (w - 1)) by lia.
    set (r := x - 2 ^ (w - 1)) in *.
    assert (NC : N.land r (2 ^ (w - 1)) = 0).
    { apply N.bits_inj. intros i. rewrite N.land_spec, N.bits_0, N.pow2_bits_eqb.
      destruct (N.eqb_spec (w - 1) i) as [<-|]; [|apply andb_false_r].
      now rewrite (testbit_high r (w - 1) (w - 1)). }
    rewrite (N.add_nocarry_lxor r (2 ^ (w - 1)) NC) in F.
    replace (N.lxor x (2 ^ (w - 1))) with r.
    + rewrite E. rewrite <- (N.add_nocarry_lxor r (2 ^ (w - 1)) NC) in F. lia.
    + rewrite F, N.lxor_assoc, N.lxor_nilpotent, N.lxor_0_r. reflexivity.
Qed.

Ltac tyc := repeat first
  [ eapply t_eq | eapply t_gt | eapply t_ge | eapply t_gts | eapply t_ges
  | apply t_v | apply t_one | apply t_sign | apply t_zero | apply t_ones
  | apply t_add | apply t_sub | apply t_mul | apply t_and | apply t_or | apply t_xor
  | apply t_shl | apply t_shr | apply t_asr | apply t_not | apply t_neg ]; auto.
Ltac vals x y z :=
  unfold vx, vy, vz, one, sign_bit; cbn [meaning ewidth]; unfold wenv;
  change (venv x y z 0) with x; change (venv x y z 1) with y; change (venv x y z 2) with z.
Ltac law x y z := eapply law_ok; [eassumption|eassumption|eassumption|tyc|tyc
  |cbn; auto 20|cbn; auto 20|vals x y z].

Lemma laws_ok m a b c w x y z : 0 < w -> is_bv a w x -> is_bv b w y -> is_bv c w z ->
  Forall (holds m a b c) (laws w).
Proof.
  intros Hw Ha Hb Hc.
  assert (Hx := is_bv_lt _ _ _ Ha). assert (Hy := is_bv_lt _ _ _ Hb). assert (Hz := is_bv_lt _ _ _ Hc).
  assert (H32 := is_bv_w _ _ _ Ha). assert (P := pow_pos w).
  unfold laws. repeat apply Forall_cons; [..|apply Forall_nil].
  all: law x y z.
  - f_equal. lia.
  - ring_law.
  - rewrite Z.add_0_r. now apply wrap_id.
  - transitivity (wrap w (Z.of_N 0)); [ring_law|now apply wrap_id].
  - ring_law.
  - transitivity (wrap w (Z.of_N x)); [ring_law|now apply wrap_id].
  - transitivity (wrap w (Z.of_N 0)); [f_equal; lia|now apply wrap_id].
  - transitivity (wrap w (Z.of_N x)); [ring_law|now apply wrap_id].
  - apply wrap_cong with (k := (-1)%Z). lia.
  - ring_law.
  - rewrite <- (wrap_id w (2 ^ w - 1 - x)) by lia. f_equal. lia.
  - apply N.land_comm.
  - apply N.lor_comm.
  - apply N.lxor_comm.
  - symmetry. apply N.land_assoc.
  - symmetry. apply N.lor_assoc.
  - apply N.lxor_assoc.
  - bits w.
  - bits w.
  - bits w.
  - bits w.
  - bits w.
  - bits w.
  - bits w.
  - bits w.
  - bits w.
  - bits w.
  - lia.
  - bits w.
  - bits w.
  - bits w.
  - bits w.
  - bits w.
  - apply wrap_mod_eq. push. f_equal. assert (E := proj1 (add_bits x y)). lia.
  - apply wrap_mod_eq. f_equal. assert (E := proj2 (add_bits x y)). lia.
  - rewrite sign_bit_val by auto. f_equal.
    assert (F1 := flip_sign w x Hw Hx). assert (F2 := flip_sign w y Hw Hy). lia.
  - change (2 ^ 1) with 2. destruct (N.eqb_spec x y), (N.ltb_spec y x), (N.ltb_spec x y);
      try reflexivity; exfalso; lia.
  - f_equal. destruct (N.eqb_spec x y) as [->|Hn].
    + replace (wrap w _) with 0; [reflexivity|]. rewrite Z.sub_diag. symmetry.
      now apply (wrap_id w 0).
    + symmetry. apply N.eqb_neq. intros E. apply (f_equal Z.of_N) in E. rewrite Zwrap in E.
      apply Hn. clear - E Hx Hy P.
      assert (D : (Z.of_N (2 ^ w) | Z.of_N x - Z.of_N y)%Z) by (apply Z.mod_divide; lia).
      destruct D as (k & D). assert (k = 0%Z) by nia. subst. lia.
  - change (2 ^ 1) with 2. destruct (Z.leb_spec (signed w y) (signed w x)),
      (Z.ltb_spec (signed w x) (signed w y)); try reflexivity; exfalso; lia.
Qed.

Lemma mul_laws_ok m a b c w x y z : 0 < w -> w <= 64 -> is_bv a w x -> is_bv b w y -> is_bv c w z ->
  Forall (holds m a b c) (mul_laws w).
Proof.
  intros Hw H64 Ha Hb Hc.
  assert (Hx := is_bv_lt _ _ _ Ha). assert (Hy := is_bv_lt _ _ _ Hb). assert (Hz := is_bv_lt _ _ _ Hc).
  assert (H32 := is_bv_w _ _ _ Ha). assert (P := pow_pos w).
  unfold mul_laws. repeat apply Forall_cons; [..|apply Forall_nil].
  all: law x y z.
  - f_equal. lia.
  - ring_law.
  - ring_law.
  - rewrite Z.mul_1_r. now apply wrap_id.
  - rewrite Z.mul_0_r. now apply (wrap_id w 0).
  - replace (Z.of_N (2 ^ w - 1)) with (Z.of_N (2 ^ w) - 1)%Z by lia. apply wrap_cong with (k := Z.of_N x). ring.
  - ring_law.
Qed.

Lemma t_slice' ws e msb lsb w ow : typed ws e w -> lsb <= msb -> msb < w -> ow = msb - lsb + 1 ->
  typed ws (ESlice e msb lsb) ow.
Proof. intros T H1 H2 ->. now apply (t_slice ws e msb lsb w). Qed.
Lemma t_concat' ws e f we wf ow : typed ws e we -> typed ws f wf -> we + wf = ow -> ow < 2 ^ 32 ->
  typed ws (EConcat e f) ow.
Proof. intros T1 T2 <- H. now apply t_concat. Qed.
Lemma t_zext' ws e k w ow : typed ws e w -> w + k = ow -> ow < 2 ^ 32 -> typed ws (EZext e k) ow.
Proof. intros T <- H. now apply t_zext. Qed.
Lemma t_sext' ws e k w ow : typed ws e w -> w + k = ow -> ow < 2 ^ 32 -> typed ws (ESext e k) ow.
Proof. intros T <- H. now apply t_sext. Qed.
Lemma t_const w k : 0 < w -> w < 2 ^ 32 -> k < w -> typed (wenv w) (EWord k w) w.
Proof.
  intros H0 H1 H2. apply t_word; auto; [lia|]. assert (L := N.pow_gt_lin_r 2 w eq_refl). lia.
Qed.
Ltac tys := repeat first
  [ eapply t_slice' | eapply t_concat' | eapply t_zext' | eapply t_sext'
  | apply t_v | apply t_const | apply t_zero | apply t_shr | apply t_asr | apply t_shl ];
  first [lia | reflexivity].
Ltac slaw ow x y z := eapply (law_ok _ _ _ _ _ _ _ _ _ _ ow); [eassumption|eassumption|eassumption|tys|tys
  |cbn; auto 20|cbn; auto 20|vals x y z].

Lemma cut x k : x = x / 2 ^ k * 2 ^ k + x mod 2 ^ k.
Proof. assert (H := N.div_mod x (2 ^ k) (pow_nz k)). lia. Qed.
Lemma div_pow_0 x : x / 2 ^ 0 = x.
Proof. apply N.div_1_r. Qed.

Lemma signed_slice w x k : 0 < k -> k < w -> x < 2 ^ w ->
  signed (w - 1 - k + 1) (x / 2 ^ k) = (signed w x / 2 ^ Z.of_N k)%Z.
Proof.
  intros H0 H1 Hx. unfold signed. replace (w - 1 - k + 1 - 1) with (w - 1 - k) by lia.
  replace (w - 1 - k + 1) with (w - k) by lia.
  assert (E : 2 ^ (w - 1) = 2 ^ k * 2 ^ (w - 1 - k)) by (rewrite <- N.pow_add_r; f_equal; lia).
  assert (E2 : 2 ^ w = 2 ^ k * 2 ^ (w - k)) by (rewrite <- N.pow_add_r; f_equal; lia).
  assert (C : (x / 2 ^ k <? 2 ^ (w - 1 - k)) = (x <? 2 ^ (w - 1))).
  { rewrite E. destruct (N.ltb_spec x (2 ^ k * 2 ^ (w - 1 - k))) as [L|L].
    - apply N.ltb_lt. apply N.div_lt_upper_bound; auto.
    - apply N.ltb_ge. apply N.div_le_lower_bound; auto. }
  rewrite C. rewrite !Zpow. assert (P := pow_pos k).
  destruct (x <? 2 ^ (w - 1)).
  - apply N2Z.inj_div.
  - rewrite E2, N2Z.inj_mul, N2Z.inj_div.
    replace (Z.of_N x - Z.of_N (2 ^ k) * Z.of_N (2 ^ (w - k)))%Z
      with (Z.of_N x + - Z.of_N (2 ^ (w - k)) * Z.of_N (2 ^ k))%Z by ring.
    rewrite Z.div_add by lia. lia.
Qed.

Lemma split_laws_ok m a b c w k x y z : 0 < k -> k < w -> w + w + k < 2 ^ 32 ->
  is_bv a w x -> is_bv b w y -> is_bv c w z -> Forall (holds m a b c) (split_laws w k).
Proof.
  intros H0 Hk Hww Ha Hb Hc.
  assert (Hx := is_bv_lt _ _ _ Ha). assert (Hy := is_bv_lt _ _ _ Hb).
  assert (P := pow_pos w).
  assert (Hd : x / 2 ^ k < 2 ^ (w - 1 - k + 1)).
  { apply div_lt_pow. replace (k + (w - 1 - k + 1)) with w by lia. auto. }
  assert (S : w - 1 - 0 + 1 = w) by lia.
  unfold split_laws. repeat apply Forall_cons; [..|apply Forall_nil].
  all: first [slaw w x y z | slaw (w + k) x y z | slaw (w + (k + k)) x y z]; rewrite ?S, ?div_pow_0.
  - rewrite (N.mod_small (x / 2 ^ k)) by exact Hd. replace (k - 1 - 0 + 1) with k by lia.
    symmetry. apply cut.
  - now apply mod_small_pow.
  - rewrite N.add_comm, N.mod_add by auto. now apply mod_small_pow.
  - rewrite N.div_add_l by auto. rewrite (N.div_small y) by auto. rewrite N.add_0_r.
    replace (w + w - 1 - w + 1) with w by lia. now apply mod_small_pow.
  - now apply mod_small_pow.
  - rewrite wrap_wrap by lia. now apply wrap_signed.
  - reflexivity.
  - rewrite (signed_wrap w (w + k) x) by (auto; lia). f_equal. lia.
  - symmetry. now apply N.mod_small.
  - rewrite (N.mod_small (x / 2 ^ k)) by exact Hd. rewrite signed_slice by auto. f_equal. lia.
Qed.

Lemma shift_left_laws_ok m a b c w k x y z : 0 < k -> k < w -> w mod 64 = 0 \/ k mod 64 <> 0 ->
  is_bv a w x -> is_bv b w y -> is_bv c w z -> Forall (holds m a b c) (shift_left_laws w k).
Proof.
  intros H0 Hk Hm Ha Hb Hc.
  assert (Hx := is_bv_lt _ _ _ Ha). assert (H32 := is_bv_w _ _ _ Ha).
  unfold shift_left_laws. repeat apply Forall_cons; [|apply Forall_nil].
  slaw w x y z.
  - cbn. unfold wenv. destruct Hm; auto 10.
  - replace (w - 1 - k - 0 + 1) with (w - k) by lia. rewrite div_pow_0, N.add_0_r.
    rewrite N.mul_comm, (N.mul_comm (x mod _)).
    rewrite <- N.mul_mod_distr_l by auto. f_equal. rewrite <- N.pow_add_r. f_equal. lia.
Qed.
