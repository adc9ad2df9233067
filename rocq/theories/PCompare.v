(** * PCompare: equality and order. *)

From Coq Require Import ZifyBool ZifyNat ZifyN.
From Verif Require Import Base Arith Bv Spec PWords PArith PShift PropsArith.

Ltac Zify.zify_post_hook ::= idtac.

Lemma len1_branch {A} (l : list A) (T : Type) (f g : res T) :
  f = g -> (if len l =? 1 then f else g) = g.
Proof. intros ->. destruct (len l =? 1); auto. Qed.

(** ** Equality *)

Lemma cmp_equal_ok a b : Words a -> Words b -> len a = len b ->
  ar_cmp_equal a b = (wv a =? wv b).
Proof.
  intros Ha. revert b. induction Ha as [|x a Hx Ha IH]; intros [|y b] Hb Hl; auto.
  - rewrite len_cons in Hl. nils. lia.
  - rewrite len_cons in Hl. nils. lia.
  - inversion Hb as [|? ? Hy Hb']; subst. rewrite !len_cons in Hl.
    cbn [ar_cmp_equal]. rewrite IH by (auto; lia). rewrite !wv_cons.
    destruct (N.eqb_spec x y) as [->|E]; cbn [andb].
    + pose proof (pow_pos 64). lia.
    + symmetry. apply N.eqb_neq. intros H. apply E.
      rewrite <- (add_mul_mod0 x (wv a) 64), <- (add_mul_mod0 y (wv b) 64), H; auto.
Qed.

Lemma words_eqb_ok a b : Words a -> Words b -> len a = len b ->
  words_eqb a b = (wv a =? wv b).
Proof.
  intros Ha Hb Hl. rewrite <- cmp_equal_ok by auto. clear Ha Hb.
  revert b Hl. induction a as [|x a IH]; intros [|y b] Hl; auto; rewrite ?len_cons in Hl;
    nils; try lia. cbn [words_eqb ar_cmp_equal]. rewrite IH; auto. lia.
Qed.

Lemma is_equal_ok m a b w x y : is_bv a w x -> is_bv b w y ->
  bv_is_equal m a b = Ok (x =? y).
Proof.
  intros Ha Hb. apply is_bv_inv in Ha as (Wa & _ & La & Fa & Va & Ba).
  apply is_bv_inv in Hb as (Wb & _ & Lb & Fb & Vb & Bb).
  unfold bv_is_equal. rewrite Wa, Wb, La, Lb, !N.eqb_refl, !debug_assert_true. cbn [bind].
  rewrite cmp_equal_ok by (auto; congruence). rewrite Va, Vb.
  destruct ((w + 63) / 64 =? 1); auto.
Qed.

Lemma is_not_equal_ok m a b w x y : is_bv a w x -> is_bv b w y ->
  bv_is_not_equal m a b = Ok (negb (x =? y)).
Proof.
  intros Ha Hb. unfold bv_is_not_equal. rewrite (is_equal_ok m a b w x y) by auto. auto.
Qed.

Lemma bv_eq_ok m a b : wf a -> wf b ->
  bv_eq m a b = Ok ((width a =? width b) && (uval a =? uval b)).
Proof.
  intros (Wa & La & Fa & Ba) (Wb & Lb & Fb & Bb). unfold bv_eq, uval.
  destruct (N.eqb_spec (width b) (width a)) as [E|E].
  - rewrite E, Lb, E, <- La, !N.eqb_refl. cbn [negb orb]. rewrite debug_assert_true.
    cbn [bind andb]. rewrite words_eqb_ok by (auto; congruence). rewrite N.eqb_sym. auto.
  - cbn [negb orb]. rewrite debug_assert_true. cbn [bind andb].
    replace (width a =? width b) with false by lia. auto.
Qed.

Lemma bvref_eq_ok m a b : wf a -> wf b ->
  bvref_eq m a b = Ok ((width a =? width b) && (uval a =? uval b)).
Proof.
  intros Ha Hb. unfold bvref_eq. rewrite N.eqb_sym.
  destruct (N.eqb_spec (width a) (width b)) as [E|E]; cbn [andb]; auto.
  apply is_equal_ok with (w := width a).
  - apply wf_is_bv. auto.
  - rewrite E. apply wf_is_bv. auto.
Qed.

(** ** Unsigned order *)

Lemma greater_loop_ok ra rb : Words ra -> Words rb -> len ra = len rb ->
  ar_greater_loop ra rb
  = match wv (rev ra) ?= wv (rev rb) with Lt => Some false | Eq => None | Gt => Some true end.
Proof.
  intros Ha. revert rb. induction Ha as [|x a Hx Ha IH]; intros [|y b] Hb Hl; auto.
  - rewrite len_cons in Hl. nils. lia.
  - rewrite len_cons in Hl. nils. lia.
  - inversion Hb as [|? ? Hy Hb']; subst. rewrite !len_cons in Hl.
    assert (Hl' : len a = len b) by lia.
    cbn [ar_greater_loop rev]. rewrite !wv_app, !wv_cons, !len_rev. nils.
    rewrite !N.mul_0_r, !N.add_0_r, <- Hl'.
    assert (A1 : wv (rev a) < 2 ^ (64 * len a)).
    { rewrite <- len_rev. apply wv_bound. apply Forall_rev. auto. }
    assert (B1 : wv (rev b) < 2 ^ (64 * len a)).
    { rewrite Hl', <- len_rev. apply wv_bound. apply Forall_rev. auto. }
    rewrite IH by auto.
    generalize dependent (2 ^ (64 * len a)). intros K A1 B1.
    generalize dependent (wv (rev a)). generalize dependent (wv (rev b)).
    intros p Hp q Hq. clear - Hp Hq.
    destruct (N.compare_spec x y) as [->|E|E].
    + destruct (N.compare_spec q p), (N.compare_spec (q + K * y) (p + K * y)); try lia; auto.
    + destruct (N.compare_spec (q + K * x) (p + K * y)); auto; nia.
    + destruct (N.compare_spec (q + K * x) (p + K * y)); auto; nia.
Qed.

Lemma greater_not_less_ok a b : Words a -> Words b -> len a = len b ->
  ar_is_greater_and_not_less a b
  = match wv a ?= wv b with Lt => Some false | Eq => None | Gt => Some true end.
Proof.
  intros Ha Hb Hl. unfold ar_is_greater_and_not_less.
  rewrite greater_loop_ok, !rev_involutive; auto; try (apply Forall_rev; auto).
  rewrite !len_rev. auto.
Qed.

Lemma cmp_greater_ok a b : Words a -> Words b -> len a = len b ->
  ar_cmp_greater a b = (wv b <? wv a).
Proof.
  intros Ha Hb Hl. unfold ar_cmp_greater. rewrite greater_not_less_ok by auto.
  destruct (N.compare_spec (wv a) (wv b)); cbn [unwrap_or]; lia.
Qed.
Lemma cmp_greater_equal_ok a b : Words a -> Words b -> len a = len b ->
  ar_cmp_greater_equal a b = (wv b <=? wv a).
Proof.
  intros Ha Hb Hl. unfold ar_cmp_greater_equal. rewrite greater_not_less_ok by auto.
  destruct (N.compare_spec (wv a) (wv b)); cbn [unwrap_or]; lia.
Qed.

(** the shape shared by the comparison methods *)
Lemma cmp_fn_ok (f g : list N -> list N -> res bool) m a b w x y r :
  is_bv a w x -> is_bv b w y ->
  (len (words a) = 1 -> f (words a) (words b) = r) ->
  (len (words a) <> 1 -> g (words a) (words b) = r) ->
  (let* _ := debug_assert m (width a =? width b) in
   let* _ := debug_assert m (len (words a) =? len (words b)) in
   if len (words a) =? 1 then
     let* a := range (words a) 0 1 in
     let* b := range (words b) 0 1 in
     f a b
   else g (words a) (words b)) = r.
Proof.
  intros Ha Hb Hf Hg.
  apply is_bv_inv in Ha as (Wa & _ & La & Fa & Va & Ba).
  apply is_bv_inv in Hb as (Wb & _ & Lb & Fb & Vb & Bb).
  rewrite Wa, Wb, La, Lb in *. rewrite !N.eqb_refl, !debug_assert_true. cbn [bind].
  destruct (N.eqb_spec ((w + 63) / 64) 1) as [E|E]; auto.
  rewrite !range_all by congruence. cbn [bind]. auto.
Qed.

Lemma is_greater_ok m a b w x y : is_bv a w x -> is_bv b w y ->
  bv_is_greater m a b = Ok (y <? x).
Proof.
  intros Ha Hb.
  apply (cmp_fn_ok (fun a b => Ok (ar_cmp_greater a b)) (fun a b => Ok (ar_cmp_greater a b))
           m a b w x y); auto; intros _;
  apply is_bv_inv in Ha as (Wa & _ & La & Fa & Va & Ba);
  apply is_bv_inv in Hb as (Wb & _ & Lb & Fb & Vb & Bb);
  rewrite cmp_greater_ok by (auto; congruence); congruence.
Qed.

(** What [is_greater_or_equal] computes for every width *)
Lemma is_greater_or_equal_raw m a b w x y : is_bv a w x -> is_bv b w y ->
  bv_is_greater_or_equal m a b
  = Ok (if (1 <=? w) && (w <=? 64) then y <=? x else y <? x).
Proof.
  intros Ha Hb.
  apply (cmp_fn_ok (fun a b => Ok (ar_cmp_greater_equal a b)) (fun a b => Ok (ar_cmp_greater a b))
           m a b w x y); auto;
  apply is_bv_inv in Ha as (Wa & _ & La & Fa & Va & Ba);
  apply is_bv_inv in Hb as (Wb & _ & Lb & Fb & Vb & Bb); intros L; f_equal.
  - rewrite cmp_greater_equal_ok by (auto; congruence).
    replace ((1 <=? w) && (w <=? 64)) with true by dlia. congruence.
  - rewrite cmp_greater_ok by (auto; congruence).
    replace ((1 <=? w) && (w <=? 64)) with false by dlia. congruence.
Qed.

(** ** Signed order *)

Lemma signed_cmp w x y : 0 < w -> x < 2 ^ w -> y < 2 ^ w ->
  (signed w y <? signed w x)%Z
  = match 2 ^ (w - 1) <=? x, 2 ^ (w - 1) <=? y with
    | true, false => false | false, true => true | _, _ => y <? x end
  /\ (signed w y <=? signed w x)%Z
  = match 2 ^ (w - 1) <=? x, 2 ^ (w - 1) <=? y with
    | true, false => false | false, true => true | _, _ => y <=? x end.
Proof.
  intros Hw Hx Hy. unfold signed. rewrite !Zpow.
  rewrite (N.ltb_antisym _ x), (N.ltb_antisym _ y).
  destruct (N.leb_spec (2 ^ (w - 1)) x), (N.leb_spec (2 ^ (w - 1)) y); cbn [negb];
    split; lia.
Qed.

Lemma is_greater_signed_ok m a b w x y : 0 < w -> is_bv a w x -> is_bv b w y ->
  bv_is_greater_signed m a b = Ok (signed w y <? signed w x)%Z.
Proof.
  intros Hw Ha Hb.
  assert (Hc : ar_cmp_greater_signed m (words a) (words b) (width a)
               = Ok (signed w y <? signed w x)%Z).
  { pose proof (is_neg_ok m a w x Hw Ha) as Na. pose proof (is_neg_ok m b w y Hw Hb) as Nb.
    apply is_bv_inv in Ha as (Wa & _ & La & Fa & Va & Ba).
    apply is_bv_inv in Hb as (Wb & _ & Lb & Fb & Vb & Bb).
    unfold ar_cmp_greater_signed. rewrite Wa, Na, Nb. cbn [bind].
    rewrite (proj1 (signed_cmp w x y Hw Ba Bb)).
    rewrite cmp_greater_ok, Va, Vb by (auto; congruence).
    destruct (2 ^ (w - 1) <=? x), (2 ^ (w - 1) <=? y); auto. }
  apply (cmp_fn_ok (fun p q => ar_cmp_greater_signed m p q (width a))
           (fun p q => ar_cmp_greater_signed m p q (width a)) m a b w x y); auto.
Qed.

Lemma is_greater_or_equal_signed_ok m a b w x y : 0 < w -> is_bv a w x -> is_bv b w y ->
  bv_is_greater_or_equal_signed m a b = Ok (signed w y <=? signed w x)%Z.
Proof.
  intros Hw Ha Hb.
  assert (Hc : ar_cmp_greater_equal_signed m (words a) (words b) (width a)
               = Ok (signed w y <=? signed w x)%Z).
  { pose proof (is_neg_ok m a w x Hw Ha) as Na. pose proof (is_neg_ok m b w y Hw Hb) as Nb.
    apply is_bv_inv in Ha as (Wa & _ & La & Fa & Va & Ba).
    apply is_bv_inv in Hb as (Wb & _ & Lb & Fb & Vb & Bb).
    unfold ar_cmp_greater_equal_signed. rewrite Wa, Na, Nb. cbn [bind].
    rewrite (proj2 (signed_cmp w x y Hw Ba Bb)).
    rewrite cmp_greater_equal_ok, Va, Vb by (auto; congruence).
    destruct (2 ^ (w - 1) <=? x), (2 ^ (w - 1) <=? y); auto. }
  apply (cmp_fn_ok (fun p q => ar_cmp_greater_equal_signed m p q (width a))
           (fun p q => ar_cmp_greater_equal_signed m p q (width a)) m a b w x y); auto.
Qed.

Lemma is_negative_ok m a w x : 0 < w -> is_bv a w x ->
  bv_is_negative m a = Ok (signed w x <? 0)%Z.
Proof.
  intros Hw Ha. unfold bv_is_negative. pose proof (is_neg_ok m a w x Hw Ha) as Na.
  apply is_bv_inv in Ha as (Wa & _ & La & Fa & Va & Ba). rewrite Wa, Na. f_equal.
  unfold signed. rewrite Zpow, (N.ltb_antisym _ x).
  destruct (N.leb_spec (2 ^ (w - 1)) x); cbn [negb]; lia.
Qed.

(** ** Derived order and hash *)

Lemma words_cmp_refl a : words_cmp a a = Eq.
Proof. induction a; cbn [words_cmp]; auto. rewrite N.compare_refl. auto. Qed.
Lemma words_cmp_eq a b : words_cmp a b = Eq -> a = b.
Proof.
  revert b. induction a as [|x a IH]; intros [|y b]; cbn [words_cmp]; try congruence.
  destruct (N.compare_spec x y); try congruence. intros H'. f_equal; auto.
Qed.
Lemma words_cmp_sym a b : words_cmp b a = CompOpp (words_cmp a b).
Proof.
  revert b. induction a as [|x a IH]; intros [|y b]; cbn [words_cmp]; auto.
  rewrite (N.compare_antisym x y). destruct (x ?= y); cbn [CompOpp]; auto.
Qed.
Lemma words_cmp_trans a b c : words_cmp a b = Lt -> words_cmp b c = Lt -> words_cmp a c = Lt.
Proof.
  revert b c. induction a as [|x a IH]; intros [|y b] [|z c]; cbn [words_cmp]; try congruence.
  destruct (N.compare_spec x y), (N.compare_spec y z), (N.compare_spec x z);
    try congruence; try lia; subst; eauto.
Qed.

Lemma bv_cmp_eq a b : bv_cmp a b = Eq <-> a = b.
Proof.
  unfold bv_cmp. split.
  - destruct a as [wa la], b as [wb lb]; cbn [width words].
    destruct (N.compare_spec wa wb); try congruence. subst.
    intros H. apply words_cmp_eq in H. congruence.
  - intros <-. rewrite N.compare_refl. apply words_cmp_refl.
Qed.
Lemma bv_cmp_sym a b : bv_cmp b a = CompOpp (bv_cmp a b).
Proof.
  unfold bv_cmp. rewrite (N.compare_antisym (width a)).
  destruct (width a ?= width b); cbn [CompOpp]; auto. apply words_cmp_sym.
Qed.
Lemma bv_cmp_trans a b c : bv_cmp a b = Lt -> bv_cmp b c = Lt -> bv_cmp a c = Lt.
Proof.
  unfold bv_cmp. destruct (N.compare_spec (width a) (width b)),
    (N.compare_spec (width b) (width c)), (N.compare_spec (width a) (width c));
    try congruence; try lia. apply words_cmp_trans.
Qed.
