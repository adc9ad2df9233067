(** * PMachine: programs over a shared store and arrays (C61). *)

From Coq Require Import ZifyBool ZifyNat ZifyN.
From Verif Require Import Base Arith Strings Bytes BigInt Bv Map Indexed Array.
From Verif Require Import Spec RegSpec StoreSpec ArraySpec ExprSpec MachineSpec.
From Verif Require Import ProfileSpec PWords PArith PropsArith PCompare PConv PRegister PStore PArrays PMisc PProfile.
Ltac Zify.zify_post_hook ::= idtac.

Lemma get_refs_ok store : forall is, (forall k, (k < length is)%nat -> in_range store (index_at is k)) ->
  exists vs, get_refs store is = Ok vs /\ length vs = length is
    /\ forall k, (k < length is)%nat -> get_ref store (index_at is k) = Ok (nth k vs (bv_zero 0)).
Proof.
  induction is as [|i is IH]; intros H.
  - exists []. split; [auto|]. split; [auto|]. cbn. intros k Hk. lia.
  - destruct IH as (vs & E & L & G). { intros k Hk. apply (H (S k)). cbn. lia. }
    specialize (H 0%nat). cbn in H. specialize (H ltac:(lia)).
    cbn [get_refs]. rewrite (get_ref_in store i H). cbn [bind]. rewrite E. cbn [bind].
    eexists. split; [reflexivity|]. split; [cbn; lia|]. intros [|k] Hk.
    + unfold index_at. cbn [nth]. rewrite (get_ref_in store i H). reflexivity.
    + cbn in Hk. unfold index_at. cbn [nth]. apply G. lia.
Qed.

Lemma eval_in_ok m is s c e w : laid_out is (s_store s) -> holds_regs is s c ->
  fine (reg_widths is) (reg_values (c_regs c)) e w ->
  yields (eval_in m (s_store s) is e) w (value_of is c e).
Proof.
  intros (H1 & _) (_ & H2) (T & A). unfold eval_in.
  destruct (get_refs_ok (s_store s) is) as (vs & E & L & G). { intros k Hk. apply H1; auto. }
  rewrite E. cbn [bind]. apply evaluate_ok; auto.
  intros i P _. unfold reg_widths, reg_values in *.
  destruct (Nat.lt_ge_cases (N.to_nat i) (length is)) as [Hi|Hi].
  - destruct (H2 _ Hi) as (v & Ev & Hv). rewrite G in Ev by auto. injection Ev as ->. auto.
  - unfold index_at in P. rewrite nth_overflow in P by auto. cbn in P. lia.
Qed.

Lemma set_array_len arrs k a : (k < length arrs)%nat -> length (set_array arrs k a) = length arrs.
Proof. intros H. unfold set_array. rewrite app_length, firstn_length. cbn [length]. rewrite skipn_length. lia. Qed.

Lemma set_array_nth arrs k a j : (k < length arrs)%nat ->
  nth_error (set_array arrs k a) j = if Nat.eqb j k then Some a else nth_error arrs j.
Proof.
  intros H. unfold set_array.
  assert (Lf : length (firstn k arrs) = k) by (rewrite firstn_length; lia).
  destruct (Nat.eqb j k) eqn:E.
  - apply Nat.eqb_eq in E. subst j. rewrite nth_error_app2 by lia. rewrite Lf, Nat.sub_diag. reflexivity.
  - apply Nat.eqb_neq in E. rewrite <- (firstn_skipn k arrs) at 3.
    destruct (Nat.lt_ge_cases j k).
    + rewrite !nth_error_app1 by lia. reflexivity.
    + rewrite !nth_error_app2 by lia. rewrite Lf.
      destruct (j - k)%nat as [|d] eqn:Ed; [lia|].
      destruct (skipn k arrs) as [|b t] eqn:Es.
      * assert (L := skipn_length k arrs). rewrite Es in L. cbn in L. lia.
      * cbn [nth_error]. f_equal.
        clear - Es H. revert arrs b t Es H. induction k as [|k IH]; intros [|x arrs] b t Es H; cbn in H, Es; try lia.
        -- injection Es as -> ->. reflexivity.
        -- cbn [skipn]. apply (IH arrs b t Es). lia.
Qed.

(** Writing a register keeps the invariants. *)
Lemma write_ok is s c dst v x w pc r :
  laid_out is (s_store s) -> holds_regs is s c -> (dst < length is)%nat ->
  is_bv v w x -> i_width (index_at is dst) = w ->
  (forall f, f (mkbv (i_width (index_at is dst)) (view (s_store s) (index_at is dst))) = Ok v ->
     update_ref (s_store s) (index_at is dst) f = r) ->
  exists st, r = Ok st /\ len st = len (s_store s)
    /\ laid_out is st
    /\ holds_regs is (mkstate pc st (s_arrays s)) (mkconf pc (set_reg (c_regs c) dst x) (c_mems c))
    /\ forall p, (forall j, (j < length is)%nat -> ~ covers (index_at is j) p) ->
         nth (N.to_nat p) st 0 = nth (N.to_nat p) (s_store s) 0.
Proof.
  intros (H1 & H2) (_ & H3) Hd Hv Hw Hr. subst w.
  destruct (write_step is (s_store s) (c_regs c) dst v x 0 r) as (st & E1 & E2 & E3 & E4); auto.
  { intros k Hk. split; [apply H1|apply H3]; auto. }
  exists st. split; [auto|]. split; [auto|]. split; [|split; [|auto]].
  - split; [|auto]. intros k Hk. split; [apply H1; auto|apply E3; auto].
  - split; [reflexivity|]. intros k Hk. apply E3. auto.
Qed.

(** ... in the form of an assignment through [get_mut_ref]. *)
Lemma assign_ok m is s c dst v x w pc :
  laid_out is (s_store s) -> holds_regs is s c -> (dst < length is)%nat ->
  is_bv v w x -> i_width (index_at is dst) = w ->
  exists st, update_ref (s_store s) (index_at is dst) (fun d => bv_assign m d v) = Ok st
    /\ len st = len (s_store s) /\ laid_out is st
    /\ holds_regs is (mkstate pc st (s_arrays s)) (mkconf pc (set_reg (c_regs c) dst x) (c_mems c))
    /\ forall p, (forall j, (j < length is)%nat -> ~ covers (index_at is j) p) ->
         nth (N.to_nat p) st 0 = nth (N.to_nat p) (s_store s) 0.
Proof.
  intros H1 H2 Hd Hv Hw. apply (write_ok is s c dst v x w pc); auto.
  intros f Hf. destruct H1 as (H1 & _). destruct H2 as (_ & H2). destruct (H1 dst Hd) as (_ & R).
  destruct (H2 dst Hd) as (d & Ed & Hdv). unfold update_ref, get_mut_ref. rewrite Ed. cbn [bind].
  rewrite (bv_assign_ok m d v _ _ Hdv); [|apply Hv|rewrite Hw; apply Hv].
  rewrite get_ref_in in Ed by auto. injection Ed as <-. rewrite Hf. reflexivity.
Qed.

Definition inv probe ho m is shapes store0 s c : Prop :=
  laid_out is (s_store s) /\ holds_regs is s c /\ made_arrays probe ho m shapes s c
  /\ len (s_store s) = len store0
  /\ forall p, (forall j, (j < length is)%nat -> ~ covers (index_at is j) p) ->
       nth (N.to_nat p) (s_store s) 0 = nth (N.to_nat p) store0 0.

(** Changing an array. *)
Lemma change_ok probe ho m is shapes store0 s c k a' f pc :
  inv probe ho m is shapes store0 s c -> (k < length shapes)%nat ->
  built probe ho m a' (fst (shape_at shapes k)) (snd (shape_at shapes k)) f ->
  inv probe ho m is shapes store0 (mkstate pc (s_store s) (set_array (s_arrays s) k a'))
    (mkconf pc (c_regs c) (set_mem (c_mems c) k f)).
Proof.
  intros (H1 & (H2 & H3) & (H4 & H5) & H6 & H7) Hk B. split; [auto|]. split; [split; auto|].
  split; [|split; auto]. cbn [s_arrays c_mems]. unfold made_arrays; cbn [s_arrays c_mems].
  rewrite set_array_len by lia. split; [auto|]. intros j a. rewrite set_array_nth by lia. unfold set_mem.
  destruct (Nat.eqb j k) eqn:E; [|apply H5]. apply Nat.eqb_eq in E. subst j. intros [= <-]. split; [|auto].
  destruct (nth_error (s_arrays s) k) as [a0|] eqn:Ea; [apply (H5 k a0 Ea)|].
  apply nth_error_None in Ea. lia.
Qed.

Lemma array_at_ok probe ho m is shapes store0 s c k :
  inv probe ho m is shapes store0 s c -> (k < length shapes)%nat ->
  exists a, array_at (s_arrays s) k = Ok a /\ fst (shape_at shapes k) <= 64
    /\ built probe ho m a (fst (shape_at shapes k)) (snd (shape_at shapes k)) (c_mems c k).
Proof.
  intros (_ & _ & (H4 & H5) & _) Hk. unfold array_at.
  destruct (nth_error (s_arrays s) k) as [a|] eqn:E.
  - exists a. split; [reflexivity|]. apply (H5 k a E).
  - apply nth_error_None in E. lia.
Qed.

Lemma inv_write probe ho m is shapes store0 s c st pc dst x :
  inv probe ho m is shapes store0 s c ->
  len st = len (s_store s) -> laid_out is st ->
  holds_regs is (mkstate pc st (s_arrays s)) (mkconf pc (set_reg (c_regs c) dst x) (c_mems c)) ->
  (forall p, (forall j, (j < length is)%nat -> ~ covers (index_at is j) p) ->
     nth (N.to_nat p) st 0 = nth (N.to_nat p) (s_store s) 0) ->
  inv probe ho m is shapes store0 (mkstate pc st (s_arrays s))
    (mkconf pc (set_reg (c_regs c) dst x) (c_mems c)).
Proof.
  intros (H1 & H2 & H3 & H4 & H5) E1 E2 E3 E4. split; [auto|]. split; [auto|]. split; [exact H3|].
  cbn [s_store]. split; [congruence|]. intros p Hp. rewrite E4, H5; auto.
Qed.

Lemma step_ok probe ho m is shapes code store0 s c : hashing probe -> reorders ho ->
  inv probe ho m is shapes store0 s c -> legal m is shapes code c ->
  exists s', step probe ho m is code s = Ok s'
    /\ inv probe ho m is shapes store0 s' (next is code c).
Proof.
  intros P Ho HI HL. assert (HI' := HI). destruct HI' as (H1 & H2 & H3 & H4 & H5).
  assert (Hpc : s_pc s = c_pc c) by apply H2.
  unfold step, next, legal in *. rewrite Hpc. destruct (nth_error code (c_pc c)) as [i|] eqn:En; [|eauto].
  destruct i as [dst e|dst a b e|dst op|dst src|dst k index|k index data|k|k|target cond].
  - destruct HL as (Hd & F). destruct (eval_in_ok m is s c e _ H1 H2 F) as (v & -> & Hv). cbn [bind].
    destruct (assign_ok m is s c dst v _ _ (S (c_pc c)) H1 H2 Hd Hv eq_refl) as (st & -> & E1 & E2 & E3 & E4).
    cbn [bind]. eexists. split; [reflexivity|]. apply (inv_write probe ho m is shapes store0 s c); auto.
  - destruct HL as (Hd & Ha & Hb & Na & Nb & T & A).
    destruct H1 as (L1 & L2). destruct H2 as (_ & R). assert (Rd := L1 dst Hd). assert (Ra := L1 a Ha). assert (Rb := L1 b Hb).
    destruct (mut_3_cases m (s_store s) (index_at is dst) (index_at is a) (index_at is b)) as (C & _).
    destruct C as (vd & va & vb & C1 & C2 & C3 & C4).
    { repeat split; try tauto; apply L2; auto. }
    rewrite C1. cbn [bind].
    destruct (R dst Hd) as (d' & Ed & Hvd). rewrite C2 in Ed. injection Ed as <-.
    destruct (R a Ha) as (d' & Ed & Hva). rewrite C3 in Ed. injection Ed as <-.
    destruct (R b Hb) as (d' & Ed & Hvb). rewrite C4 in Ed. injection Ed as <-.
    assert (Ev : env_is (fun i => if i =? 0 then va else vb)
      (pair_of (i_width (index_at is a)) (i_width (index_at is b))) (pair_of (c_regs c a) (c_regs c b))).
    { intros i P1 P2. unfold pair_of in *. destruct (i =? 0); [auto|]. destruct (i =? 1); [auto|lia]. }
    destruct (evaluate_ok m _ _ _ e _ Ev T A) as (v & -> & Hv).
    cbn [bind]. rewrite (bv_assign_ok m vd v _ _ Hvd); [|apply Hv|apply Hv]. cbn [bind].
    destruct (write_ok is s c dst v (value_of_2 is c a b e) _ (S (c_pc c)) (Ok (splice (s_store s) (i_index (index_at is dst)) (words v)))
       (conj L1 L2) (conj Hpc R) Hd Hv eq_refl) as (st & Est & E1 & E2 & E3 & E4).
    { intros f Hf. unfold update_ref, get_mut_ref. rewrite C2. cbn [bind].
      rewrite get_ref_in in C2 by tauto. injection C2 as <-. rewrite Hf. reflexivity. }
    injection Est as <-. eexists. split; [reflexivity|]. apply (inv_write probe ho m is shapes store0 s c); auto.
  - destruct HL as (Hd & Lo). destruct H1 as (L1 & L2). destruct H2 as (_ & R).
    destruct (R dst Hd) as (v & E & Hv).
    destruct (reg_run_ok m v _ _ op (proj1 (L1 dst Hd)) Hv Lo) as (v' & E' & Hv').
    destruct (write_ok is s c dst v' _ _ (S (c_pc c)) (update_ref (s_store s) (index_at is dst) (fun d => reg_run m d op))
       (conj L1 L2) (conj Hpc R) Hd Hv' eq_refl) as (st & -> & E1 & E2 & E3 & E4).
    { intros f Hf. unfold update_ref, get_mut_ref. rewrite E. cbn [bind]. rewrite E'.
      rewrite get_ref_in in E by (apply L1; auto). injection E as <-. rewrite Hf. reflexivity. }
    cbn [bind]. eexists. split; [reflexivity|]. apply (inv_write probe ho m is shapes store0 s c); auto.
  - destruct HL as (Hd & Hs & Hne & Ew). destruct H1 as (L1 & L2). destruct H2 as (_ & R).
    destruct (R dst Hd) as (vd & Ed & Hvd). destruct (R src Hs) as (vs & Es & Hvs).
    destruct (write_ok is s c dst vs _ _ (S (c_pc c)) (update_ref_2 m (s_store s) (index_at is dst) (index_at is src) (bv_assign m))
       (conj L1 L2) (conj Hpc R) Hd Hvs Ew) as (st & -> & E1 & E2 & E3 & E4).
    { intros f Hf. unfold update_ref_2, update_ref, get_mut_ref.
      destruct (mut_2_cases m (s_store s) (index_at is dst) (index_at is src)) as (C & _).
      destruct C as (va & vb & C1 & C2 & C3).
      { split; [apply L1; auto|]. split; [apply L1; auto|]. apply L2; auto. }
      rewrite C1, C2. cbn [bind]. rewrite C2 in Ed. rewrite C3 in Es. injection Ed as ->. injection Es as ->.
      rewrite (bv_assign_ok m vd vs _ _ Hvd); [|apply Hvs|rewrite Ew; apply Hvs].
      rewrite get_ref_in in C2 by (apply L1; auto). injection C2 as <-. rewrite Hf. reflexivity. }
    cbn [bind]. eexists. split; [reflexivity|]. apply (inv_write probe ho m is shapes store0 s c); auto.
  - destruct HL as (Hd & Hk & F & Ew). destruct (eval_in_ok m is s c index _ H1 H2 F) as (i & -> & Hi). cbn [bind].
    destruct (array_at_ok _ _ _ _ _ _ _ _ _ HI Hk) as (a & -> & I64 & B). cbn [bind].
    destruct (built_reads probe ho m a _ _ _ P Ho B I64) as (_ & _ & Rd).
    destruct (Rd i) as (v & -> & Hv); [apply Hi|apply Hi|]. cbn [bind].
    replace (uval i) with (value_of is c index) in Hv by (symmetry; apply Hi).
    destruct (assign_ok m is s c dst v _ _ (S (c_pc c)) H1 H2 Hd Hv Ew) as (st & -> & E1 & E2 & E3 & E4).
    cbn [bind]. eexists. split; [reflexivity|]. apply (inv_write probe ho m is shapes store0 s c); auto.
  - destruct HL as (Hk & Fi & Fd). destruct (eval_in_ok m is s c index _ H1 H2 Fi) as (i & -> & Hi). cbn [bind].
    destruct (eval_in_ok m is s c data _ H1 H2 Fd) as (d & -> & Hdv). cbn [bind].
    destruct (array_at_ok _ _ _ _ _ _ _ _ _ HI Hk) as (a & -> & I64 & B). cbn [bind].
    assert (Lg : arr_legal (fst (shape_at shapes k)) (snd (shape_at shapes k)) (AStore i d)).
    { cbn. destruct Hi as (? & ? & _), Hdv as (? & ? & _). auto. }
    destruct (built_mutates probe ho m a _ _ _ _ P Ho B I64 Lg) as (a' & E).
    assert (B' := built_step _ _ _ _ _ _ _ _ _ B Lg E). cbn [arr_run] in E. rewrite E. cbn [bind].
    eexists. split; [reflexivity|]. apply change_ok; auto. cbn [arr_step] in B'.
    replace (uval i) with (value_of is c index) in B' by (symmetry; apply Hi).
    replace (uval d) with (value_of is c data) in B' by (symmetry; apply Hdv). exact B'.
  - destruct (array_at_ok _ _ _ _ _ _ _ _ _ HI HL) as (a & -> & I64 & B). cbn [bind].
    eexists. split; [reflexivity|]. apply change_ok; auto.
    apply (built_step _ _ _ a _ _ (c_mems c k) AClear); auto. exact I.
  - destruct HL as (Hk & Fd & C). destruct (array_at_ok _ _ _ _ _ _ _ _ _ HI Hk) as (a & -> & I64 & B). cbn [bind].
    destruct (make_dense_ok probe ho m a _ _ _ P Ho B Fd C) as (a' & E & _ & _). rewrite E. cbn [bind].
    eexists. split; [reflexivity|].
    assert (B' := built_make_dense _ _ _ _ _ _ _ _ B (proj1 Fd) E).
    destruct (change_ok probe ho m is shapes store0 s c k a' (c_mems c k) (S (c_pc c)) HI Hk B')
      as (G1 & G2 & (G3 & G4) & G5 & G6).
    split; [auto|]. split; [exact G2|]. split; [|split; auto]. split; [exact G3|].
    intros j b Hj. destruct (G4 j b Hj) as (G7 & G8). split; [auto|]. cbn [c_mems] in *. unfold set_mem in G8.
    destruct (Nat.eqb j k) eqn:Ej; [|auto]. apply Nat.eqb_eq in Ej. subst j. auto.
  - destruct (eval_in_ok m is s c cond _ H1 H2 HL) as (v & -> & Hv). cbn [bind].
    rewrite (is_tru_ok v _ _ Hv). cbn [bind]. rewrite N.eqb_refl. cbn [andb].
    eexists. split; [reflexivity|]. split; [auto|]. split; [split; [reflexivity|apply H2]|]. split; [exact H3|]. auto.
Qed.

Lemma steps_ok probe ho m is shapes code n s c : hashing probe -> reorders ho ->
  laid_out is (s_store s) -> holds_regs is s c -> made_arrays probe ho m shapes s c ->
  (forall k, (k < n)%nat -> legal m is shapes code (after is code k c)) ->
  exists s', steps probe ho m is code n s = Ok s'
    /\ holds_regs is s' (after is code n c) /\ holds_arrays probe m shapes s' (after is code n c)
    /\ len (s_store s') = len (s_store s)
    /\ forall p, (forall j, (j < length is)%nat -> ~ covers (index_at is j) p) ->
         nth (N.to_nat p) (s_store s') 0 = nth (N.to_nat p) (s_store s) 0.
Proof.
  intros P Ho H1 H2 H3 HL.
  assert (X : exists s', steps probe ho m is code n s = Ok s'
    /\ inv probe ho m is shapes (s_store s) s' (after is code n c)).
  { induction n as [|n IH].
    - exists s. split; [reflexivity|]. split; [exact H1|]. split; [exact H2|]. split; [exact H3|]. auto.
    - destruct IH as (s1 & E & HI); [intros; apply HL; lia|]. cbn [steps after]. rewrite E. cbn [bind].
      apply step_ok with (shapes := shapes); auto. }
  destruct X as (s' & E & (G1 & G2 & (G3 & G4) & G5 & G6)). exists s'. split; [auto|]. split; [auto|].
  split; [|split; auto]. split; [auto|]. intros k a Ha. destruct (G4 k a Ha). apply (built_reads probe ho m); auto.
Qed.

(** ** Build profiles *)

Lemma le_evaluate env e : le (evaluate Debug env e) (evaluate Release env e).
Proof. induction e; cbn [evaluate]; unfold call2, test2, bv_and, bv_or, bv_xor; le_solve; auto. Qed.
Lemma le_reg_run v op : le (reg_run Debug v op) (reg_run Release v op).
Proof. destruct op; cbn [reg_run]; le_solve. Qed.
Lemma le_eval_in store is e : le (eval_in Debug store is e) (eval_in Release store is e).
Proof. unfold eval_in. apply le_bind; [apply le_refl|]. intros vs. apply le_evaluate. Qed.
Lemma le_step probe ho is code s : le (step probe ho Debug is code s) (step probe ho Release is code s).
Proof.
  unfold step. destruct (nth_error code (s_pc s)) as [i|]; [|apply le_refl].
  destruct i; unfold update_ref, update_ref_2, array_select, array_store, array_make_dense;
    le_solve; auto using le_eval_in, le_evaluate, le_reg_run.
Qed.
Lemma profile_steps probe ho is code n s :
  same_in_release (fun m => steps probe ho m is code n s).
Proof.
  change (le (steps probe ho Debug is code n s) (steps probe ho Release is code n s)).
  induction n as [|n IH]; [apply le_refl|]. cbn [steps]. apply le_bind; [exact IH|]. intros s'. apply le_step.
Qed.
