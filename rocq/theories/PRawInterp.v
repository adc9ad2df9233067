(** * PRawInterp: programs over arrays with any operands (C87). *)

From Coq Require Import String ZifyBool ZifyNat ZifyN Permutation.
From Verif Require Import Base Arith Map Bv Array Serde Unwind Spec CallSpec ArraySpec DirtySpec MixedSpec KindSpec
  UnwindSpec ArrayInterpSpec RawArraySpec.
From Verif Require Import PWords PropsArith PDirty PSparse PSerde PReject PUnwind PRawArray.
Ltac Zify.zify_post_hook ::= idtac.
Open Scope list_scope.

(** ** Reloading *)
Lemma de_bv_shaped v : well_shaped v -> de_bv (ser_bv v) = Some v.
Proof.
  intros (A & B & C). unfold ser_bv, de_bv.
  change (field "width" [("width"%string, TInt (width v)); ("words"%string, TSeq (map TInt (words v)))])
    with (Some (TInt (width v))).
  change (field "words" [("width"%string, TInt (width v)); ("words"%string, TSeq (map TInt (words v)))])
    with (Some (TSeq (map TInt (words v)))).
  cbn [obind]. rewrite de_int_ok by (rewrite B32_eq; auto). cbn [obind].
  rewrite de_seq_ok; [destruct v; reflexivity|]. exact C.
Qed.

Lemma de_dense_raw iw dw d : iw < 2 ^ 32 -> dw < 2 ^ 32 -> de_dense_impl (ser_dense_impl d) = Some d ->
  de_array (ser_array (fun _ l => l) (ADense (mkdense iw dw d))) = Some (ADense (mkdense iw dw d)).
Proof.
  intros A B Hi.
  change (obind (de_dense (ser_dense (mkdense iw dw d))) (fun s => Some (ADense s)) = Some (ADense (mkdense iw dw d))).
  unfold ser_dense, de_dense. set (fs := [("index_width"%string, _); _; _]).
  change (field "index_width" fs) with (Some (TInt iw)).
  change (field "data_width" fs) with (Some (TInt dw)).
  change (field "data" fs) with (Some (ser_dense_impl d)).
  cbn [obind]. rewrite de_int_ok by (rewrite B32_eq; auto). cbn [obind].
  rewrite de_int_ok by (rewrite B32_eq; auto). cbn [obind]. rewrite Hi. reflexivity.
Qed.

Lemma de_sparse_raw order iw dw s s' : iw < 2 ^ 32 -> dw < 2 ^ 32 ->
  de_sparse_impl (ser_sparse_impl order s) = Some s' ->
  de_array (ser_array order (ASparse (mksparse iw dw s))) = Some (ASparse (mksparse iw dw s')).
Proof.
  intros A B Hi.
  change (obind (de_sparse (ser_sparse order (mksparse iw dw s))) (fun s => Some (ASparse s))
          = Some (ASparse (mksparse iw dw s'))).
  unfold ser_sparse, de_sparse. set (fs := [("index_width"%string, _); _; _]).
  change (field "index_width" fs) with (Some (TInt iw)).
  change (field "data_width" fs) with (Some (TInt dw)).
  change (field "data" fs) with (Some (ser_sparse_impl order s)).
  cbn [obind]. rewrite de_int_ok by (rewrite B32_eq; auto). cbn [obind].
  rewrite de_int_ok by (rewrite B32_eq; auto). cbn [obind]. rewrite Hi. reflexivity.
Qed.

Lemma reload_told order a r : reorders order -> rholds a r ->
  exists a', de_array (ser_array order a) = Some a' /\ rholds a' r.
Proof.
  intros Or R. assert (H := R). destruct H as (A & B & H). destruct r as [iw dw c]. cbn [q_iw q_dw q_cells] in *.
  destruct c as [n|b l|b l|b l|b l].
  - destruct H as (_ & v & -> & S). eexists. split; [|exact R].
    apply (de_dense_raw iw dw (DBit v) A B).
    cbn [ser_dense_impl de_dense_impl String.eqb Ascii.eqb Bool.eqb]. rewrite de_bv_shaped by apply S. reflexivity.
  - destruct H as (_ & _ & ws & -> & _ & _ & F). eexists. split; [|exact R].
    apply (de_dense_raw iw dw _ A B).
    destruct (dw <=? 8); cbn [ser_dense_impl de_dense_impl String.eqb Ascii.eqb Bool.eqb];
      rewrite de_seq_ok; try reflexivity; exact F.
  - destruct H as (_ & ws & -> & _ & _ & F). eexists. split; [|exact R].
    apply (de_dense_raw iw dw _ A B). cbn [ser_dense_impl de_dense_impl String.eqb Ascii.eqb Bool.eqb].
    rewrite de_seq_ok; [reflexivity|exact F].
  - destruct H as (I & D & Lb & t & -> & Nd & G & F).
    assert (M : de_map N.eqb (de_int B64) (de_int B64) (ser_map order TInt TInt t) = Some (order _ t)).
    { apply (de_map_ok N.eqb N_eqb_eq); auto. eapply Forall_impl; [|exact F].
      intros e (E1 & E2). now rewrite !de_int_ok by (rewrite B64_eq; auto). }
    eexists. split.
    + apply de_sparse_raw; auto. cbn [ser_sparse_impl de_sparse_impl String.eqb Ascii.eqb Bool.eqb].
      rewrite de_int_ok by (rewrite B64_eq; auto). cbn [obind]. rewrite M. reflexivity.
    + unfold rholds. cbn [q_iw q_dw q_cells]. do 5 (split; [auto|]). eexists. split; [reflexivity|].
      assert (P := Or _ t). split; [|split].
      * eapply Permutation_NoDup; [apply Permutation_map, P|auto].
      * intros i. rewrite <- G. apply (get_perm _ N_eqb_eq); auto.
      * eapply Permutation_Forall; [exact P|auto].
  - destruct H as (I & D & Lb & t & -> & Nd & G & F).
    assert (M : de_map N.eqb (de_int B64) de_bv (ser_map order TInt ser_bv t) = Some (order _ t)).
    { apply (de_map_ok N.eqb N_eqb_eq); auto. apply Forall_forall. intros [i x] X. cbn [fst snd].
      assert (E : hm_get N.eqb t i = Some x) by (apply (PSparse.in_get _ N_eqb_eq); auto).
      rewrite G in E. destruct (entry_at l i) as [s|] eqn:El; [|discriminate E]. cbn [option_map] in E.
      destruct (F i s El) as (F1 & F2 & F3). assert (Ex : x = bv_of (fst s) (snd s)) by congruence. subst x.
      rewrite de_int_ok by (rewrite B64_eq; auto). rewrite de_bv_shaped; auto.
      apply (stores_bv_of (fst s) (snd s) F2 F3). }
    eexists. split.
    + apply de_sparse_raw; auto. cbn [ser_sparse_impl de_sparse_impl String.eqb Ascii.eqb Bool.eqb].
      rewrite de_bv_shaped by (apply (stores_bv_of dw b B Lb)). cbn [obind]. rewrite M. reflexivity.
    + unfold rholds. cbn [q_iw q_dw q_cells]. do 5 (split; [auto|]). eexists. split; [reflexivity|].
      assert (P := Or _ t). split; [|split].
      * eapply Permutation_NoDup; [apply Permutation_map, P|auto].
      * intros i. rewrite <- G. apply (get_perm _ N_eqb_eq); auto.
      * exact F.
Qed.

(** ** Changing *)
Lemma change_told probe ho m a r c : reorders ho -> rholds a r ->
  match c with Store i x => well_shaped i /\ well_shaped x | _ => True end ->
  told (wrote_to r) (apply probe ho m a c) (raw_changed m r c).
Proof.
  intros Ho R T. destruct c as [i x| |]; cbn [apply raw_changed].
  - apply write_told; auto; now apply shaped_stores.
  - eexists. split; [reflexivity|]. now apply clear_told.
  - now apply densify_told.
Qed.

(** ** Programs *)
Definition agree (env : N -> option array) (ref : N -> option raw) : Prop :=
  forall k, match env k, ref k with Some a, Some r => rholds a r | None, None => True | _, _ => False end.

Lemma agree_update env ref k a r : agree env ref -> rholds a r -> agree (update env k a) (update ref k r).
Proof. intros A H j. unfold update. destruct (j =? k); [exact H|apply A]. Qed.
Lemma agree_keep env ref k a : agree env ref -> env k = Some a -> agree (update env k a) ref.
Proof.
  intros A E j. unfold update. destruct (N.eqb_spec j k) as [->|]; [|apply A]. specialize (A k). now rewrite E in A.
Qed.

Lemma raw_step probe ho order m env ref c ref' o : reorders ho -> reorders order ->
  agree env ref -> raw_range c -> raw_predict1 m ref c = Some (ref', o) ->
  snd (perform1 probe ho order m env c) = o /\ agree (fst (perform1 probe ho order m env c)) ref'.
Proof.
  intros Ho Or A T. destruct c as [k o1|k j|k i|k c|k j|k|k]; cbn [perform1 raw_predict1 raw_range] in *.
  - assert (X := created_told m o1 T). destruct (raw_created m o1) as [r| |]; intros E; try discriminate E;
      injection E as <- <-.
    + destruct X as (a & -> & H). split; [reflexivity|]. now apply agree_update.
    + destruct X as (p & ->). auto.
  - assert (X := A j). destruct (env j) as [a|], (ref j) as [r|]; try easy; intros E; injection E as <- <-; auto.
    split; [reflexivity|]. now apply agree_update.
  - assert (X := A k). destruct (env k) as [a|], (ref k) as [r|]; try easy; [|intros E; injection E as <- <-; auto].
    assert (Y := read_told probe m a r i (width i) (uval i) X (shaped_stores i T)).
    destruct (raw_read m r (width i) (uval i)) as [[w n]| |]; intros E; try discriminate E; injection E as <- <-.
    + destruct Y as (v & -> & V). split; [|exact A]. cbn [snd]. f_equal. now apply stores_unique.
    + destruct Y as (p & ->). auto.
  - assert (X := A k). destruct (env k) as [a|] eqn:Ek, (ref k) as [r|]; try easy; [|intros E; injection E as <- <-; auto].
    assert (Y := change_told probe ho m a r c Ho X). assert (S := same_change probe ho m a c).
    destruct (raw_changed m r c) as [r'| |]; intros E; try discriminate E; injection E as <- <-.
    + destruct (change_call probe ho m c a) as [a' ?|a' p].
      * destruct Y as (a2 & E & H); [destruct c; exact T|]. rewrite S in E. apply ok_inj in E. subst a2.
        split; [reflexivity|]. now apply agree_update.
      * destruct S as (S & _). destruct Y as (a2 & E & H); [destruct c; exact T|]. congruence.
    + destruct (change_call probe ho m c a) as [a' ?|a' p].
      * destruct Y as (q & Y); [destruct c; exact T|]. congruence.
      * destruct S as (S & ->). split; [reflexivity|]. now apply agree_keep.
  - assert (X := A k). assert (Y := A j).
    destruct (env k) as [a|], (ref k) as [r|]; try easy; [|intros E; injection E as <- <-; auto].
    destruct (env j) as [b|], (ref j) as [s|]; try easy; [|intros E; injection E as <- <-; auto].
    assert (Z := compare_told ho m a b r s Ho X Y).
    destruct (raw_compared m r s) as [x| |]; intros E; try discriminate E; injection E as <- <-.
    + destruct Z as (y & -> & ->). auto.
    + destruct Z as (p & ->). auto.
  - assert (X := A k). intros E; injection E as <- <-.
    destruct (env k) as [a|], (ref k) as [r|] eqn:Ek; try easy.
    destruct (reload_told order a r Or X) as (a' & -> & X'). split; [reflexivity|].
    intros j. cbn [fst]. unfold update. destruct (N.eqb_spec j k) as [->|]; [now rewrite Ek|apply A].
  - assert (X := A k). intros E; injection E as <- <-.
    destruct (env k) as [a|], (ref k) as [r|]; try easy. split; [|exact A]. cbn [snd].
    destruct (rholds_type _ _ X) as (-> & -> & ->). reflexivity.
Qed.

Lemma raw_perform_ok probe ho order m cs os : reorders ho -> reorders order -> Forall raw_range cs ->
  raw_predict m cs = Some os -> perform probe ho order m cs = os.
Proof.
  intros Ho Or. unfold perform, raw_predict.
  assert (G : forall cs env ref os, agree env ref -> Forall raw_range cs -> raw_predict_from m ref cs = Some os ->
    perform_from probe ho order m env cs = os).
  { clear cs os. induction cs as [|c cs IH]; intros env ref os A T E; cbn [perform_from raw_predict_from] in *;
      [congruence|].
    inversion_clear T as [|? ? T1 T2]. destruct (raw_predict1 m ref c) as [[ref' o]|] eqn:E1; [|discriminate E].
    destruct (raw_step probe ho order m env ref c ref' o Ho Or A T1 E1) as (Eo & A').
    destruct (perform1 probe ho order m env c) as [e1 o1]. cbn [fst snd] in *.
    destruct (raw_predict_from m ref' cs) as [l|] eqn:E2; [|discriminate E].
    injection E as <-. rewrite Eo. f_equal. now apply (IH _ ref'). }
  apply G. intros k. exact Logic.I.
Qed.

(** ** When the interpreter knows the result *)
Definition low_cells (dw : N) (c : cells) : Prop :=
  match c with
  | RSmall _ l => dw <= 64 /\ Forall (fun e => fst e < 2 ^ 32) l
  | RBig _ l => dw < 2 ^ 32 /\ Forall (fun e => fst e < 2 ^ 32) l
  | _ => True
  end.
Definition knows {A} (g : guess A) : Prop := g <> Unknown.

Lemma knows_checked {A} m b (g : guess A) : knows g -> knows (checked m b g).
Proof. unfold knows. intros H. destruct m; cbn [checked]; [destruct b|]; easy. Qed.
Lemma knows_required {A} b (g : guess A) : knows g -> knows (required b g).
Proof. unfold knows. intros H. destruct b; cbn [required]; easy. Qed.
Lemma knows_known {A} (a : A) : knows (Known a).
Proof. unfold knows. easy. Qed.
Ltac known := repeat first [apply knows_known | apply knows_checked | apply knows_required].

Lemma entries_low {A} (l : list (N * option A)) : Forall (fun e => fst e < 2 ^ 32) l ->
  Forall (fun e => fst e < 2 ^ 32) (entries l).
Proof.
  intros F. unfold entries. apply Forall_flat_map. eapply Forall_impl; [|exact F]. intros e E.
  destruct (entry_at l (fst e)); constructor; auto.
Qed.

Lemma dense_knows m iw dw n : knows (raw_dense m iw dw n).
Proof.
  unfold raw_dense. known. destruct (dw =? 1); [destruct (n =? 1); known|destruct (dw <=? 64); known].
Qed.
Lemma number_knows m w x : knows (from_number m w x).
Proof. unfold from_number. known. Qed.

Lemma bits_knows m iw n (l : list (N * N)) : Forall (fun e => fst e < 2 ^ 32) l -> knows (into_bits m iw n l).
Proof.
  intros F. unfold into_bits. known. destruct (existsb _ l) eqn:E; [|known]. exfalso.
  apply existsb_exists in E. destruct E as (e & I1 & E). apply existsb_exists in E. destruct E as (f & I2 & E).
  rewrite Forall_forall in F. rewrite !N.mod_small in E by now apply F.
  destruct (fst e =? fst f); discriminate E.
Qed.

Lemma densify_knows m r : low_cells (q_dw r) (q_cells r) -> knows (densified m r).
Proof.
  destruct r as [iw dw c]. unfold densified. cbn [q_iw q_dw q_cells]. destruct c as [n|b l|b l|b l|b l]; intros H; known.
  - destruct H as (D & F). assert (K := number_knows m dw b). destruct (from_number m dw b) as [[w n]| |]; [|easy..].
    clear K. assert (K := dense_knows m iw dw n). destruct (raw_dense m iw dw n) as [c| |] eqn:E; [|easy..].
    unfold raw_dense, checked, required in E. apply N.leb_le in D.
    destruct c; [apply bits_knows, entries_low, F|known|exfalso..];
      destruct m, (negb (refused iw dw)), (dw =? 1), (n =? 1), (0 <? bits iw), (n =? 0); rewrite ?D in E;
      try destruct (_ <? 2 ^ 63) in E; discriminate E.
  - destruct H as (D & F). assert (K := dense_knows m iw dw b). destruct (raw_dense m iw dw b); [|easy..]. known.
    destruct (existsb _ _) eqn:E; [|known]. exfalso. apply existsb_exists in E. destruct E as (e & I & E).
    apply N.leb_le in E. apply entries_low in F. rewrite Forall_forall in F. specialize (F e I).
    assert (P : places dw <= 2 ^ 26) by (unfold places; dlia).
    assert (Q : places dw * fst e <= 2 ^ 26 * 2 ^ 32) by (apply N.mul_le_mono; lia).
    change (2 ^ 26 * 2 ^ 32) with (2 ^ 58) in Q. lia.
Qed.

Definition low_env (env : N -> option raw) : Prop :=
  forall k, match env k with Some r => low_cells (q_dw r) (q_cells r) | None => True end.
Lemma low_update env k r : low_env env -> low_cells (q_dw r) (q_cells r) -> low_env (update env k r).
Proof. intros A H j. unfold update. destruct (j =? k); [exact H|apply A]. Qed.

Lemma created_low m o : raw_origin o ->
  match raw_created m o with Known r => low_cells (q_dw r) (q_cells r) | Panicking => True | Unknown => False end.
Proof.
  intros T. destruct o as [iw d|iw d|l|l|l]; cbn [raw_created]; unfold required;
    try destruct (_ <? 2 ^ 63); try exact Logic.I.
  - assert (K := dense_knows m iw (width d) (uval d)). destruct (raw_dense m iw (width d) (uval d)) as [c| |] eqn:E; [|easy..].
    cbn [q_dw q_cells]. unfold raw_dense, checked, required in E.
    destruct m, (negb (refused iw (width d))), (width d =? 1), (uval d =? 1), (0 <? bits iw), (uval d =? 0), (width d <=? 64);
      try destruct (_ <? 2 ^ 63) in E; try discriminate E; injection E as <-; exact Logic.I.
  - cbn [q_dw q_cells]. destruct (N.leb_spec (width d) 64); cbn [low_cells].
    + split; [auto|constructor].
    + split; [apply T|constructor].
Qed.

Lemma changed_low m r c : low_cells (q_dw r) (q_cells r) ->
  match c with Store i _ => uval i < 2 ^ 32 | _ => True end ->
  match raw_changed m r c with Known d => low_cells (q_dw r) d | Panicking => True | Unknown => False end.
Proof.
  intros H T. destruct c as [i x| |]; cbn [raw_changed].
  - unfold raw_write, position, checked, required. destruct r as [iw dw c]. cbn [q_iw q_dw q_cells] in *.
    destruct m, c as [n|b l|b l|b l|b l]; cbn [low_cells] in *; cbv zeta;
      repeat match goal with
             | |- True => exact Logic.I
             | |- match Panicking with _ => _ end => exact Logic.I
             | |- _ /\ _ => split; [apply H|constructor; [exact T|apply H]]
             | |- match (if ?b then _ else _) with _ => _ end => destruct b
             | |- match Known _ with _ => _ end => cbn [low_cells]
             | |- low_cells _ _ => progress cbn [low_cells]
             end.
  - destruct (q_cells r); cbn [raw_cleared low_cells] in *; try exact Logic.I; (split; [apply H|constructor]).
  - assert (K := densify_knows m r H). destruct (densified m r) as [d| |] eqn:E; [|easy..].
    unfold densified, into_bits, checked, required in E. destruct (q_cells r) as [n|b l|b l|b l|b l];
      try (injection E as <-; exact Logic.I).
    + destruct (from_number m (q_dw r) b) as [[w n]| |]; try discriminate E.
      destruct (raw_dense m (q_iw r) (q_dw r) n) as [[]| |]; try discriminate E.
      * destruct m, (forallb _ _); try discriminate E; [destruct (forallb _ _); try discriminate E|];
          (destruct (existsb _ _); try discriminate E); injection E as <-; exact Logic.I.
      * destruct (forallb _ _); [|discriminate E]. injection E as <-. exact Logic.I.
    + destruct (raw_dense m (q_iw r) (q_dw r) b); try discriminate E.
      destruct m, (match entries l with [] => true | _ => false end); try discriminate E;
        (destruct (existsb _ _); try discriminate E); (destruct (forallb _ _); try discriminate E);
        injection E as <-; exact Logic.I.
Qed.

Lemma low_step m env c : low_env env -> raw_range c -> low_call c ->
  exists env' o, raw_predict1 m env c = Some (env', o) /\ low_env env'.
Proof.
  intros A T L. destruct c as [k o1|k j|k i|k c|k j|k|k]; cbn [raw_predict1 raw_range low_call] in *.
  - assert (X := created_low m o1 T). destruct (raw_created m o1); [|eauto|easy].
    eexists _, _. split; [reflexivity|]. now apply low_update.
  - assert (X := A j). destruct (env j); [|eauto]. eexists _, _. split; [reflexivity|]. now apply low_update.
  - destruct (env k) as [r|]; [|eauto].
    assert (K : knows (raw_read m r (width i) (uval i))).
    { unfold raw_read, position. known. destruct (q_cells r); known; apply number_knows. }
    destruct (raw_read m r (width i) (uval i)) as [[w n]| |]; [eauto..|easy].
  - assert (X := A k). destruct (env k) as [r|]; [|eauto]. assert (Y := changed_low m r c X).
    destruct (raw_changed m r c).
    + eexists _, _. split; [reflexivity|]. apply low_update; [auto|]. apply Y. destruct c; exact L || exact Logic.I.
    + eauto.
    + destruct Y. destruct c; exact L || exact Logic.I.
  - assert (X := A k). assert (Y := A j). destruct (env k) as [r|], (env j) as [s|]; eauto.
    assert (K : knows (raw_compared m r s)).
    { unfold raw_compared. destruct (_ && _); [|known]. destruct (Bool.eqb _ _); [known|].
      assert (K1 := densify_knows m r X). assert (K2 := densify_knows m s Y).
      destruct (densified m r), (densified m s); easy. }
    destruct (raw_compared m r s); [eauto..|easy].
  - eauto.
  - eauto.
Qed.

Lemma raw_predict_known m cs : Forall raw_range cs -> Forall low_call cs -> exists os, raw_predict m cs = Some os.
Proof.
  unfold raw_predict. assert (A : low_env (fun _ => None)) by (intros k; exact Logic.I). revert A.
  generalize (fun _ : N => @None raw). induction cs as [|c cs IH]; intros env A T L; cbn [raw_predict_from]; [eauto|].
  inversion_clear T as [|? ? T1 T2]. inversion_clear L as [|? ? L1 L2].
  destruct (low_step m env c A T1 L1) as (env' & o & -> & A').
  destruct (IH env' A' T2 L2) as (os & ->). eauto.
Qed.

(** ** The interpreter for valid operands *)
From Verif Require PArrayInterp PArrays.
Lemma raw_predict_agrees cs os : Forall raw_range cs -> Forall acall_range cs -> raw_predict Debug cs = Some os ->
  os = predict cs.
Proof.
  intros T T' E. assert (R : reorders (fun _ l => l)) by (intros ? ?; reflexivity).
  rewrite <- (PArrayInterp.perform_ok PArrays.some_probe _ _ cs PArrays.some_probe_hashing R R T').
  symmetry. now apply raw_perform_ok.
Qed.

From Verif Require PArrays.
Import PArrays(some_probe).
Lemma raw_array_example :
  let i n := bv_of 3 n in
  let x n := bv_of 5 n in
  let cs := [New 0 (NewDense 3 (x 9)); Change 0 (Store (i 2) (x 255)); Select 0 (i 2); Select 0 (bv_of 70 1);
             Change 0 (Store (i 8) (x 1)); Change 0 (Store (i 4) (bv_of 80 (2 ^ 70)));
             Change 0 (Store (i 4) (bv_of 80 1000)); Select 0 (i 4);
             New 1 (NewSparse 3 (x 9)); Change 1 (Store (i 2) (x 255)); Change 1 (Store (i 4) (bv_of 80 1000));
             Compare 0 1; Change 1 (Store (bv_of 30 9) (x 1)); Select 1 (bv_of 9 9); Compare 0 1; Reload 1;
             New 2 (NewSparse 2 (bv_of 70 (2 ^ 66))); Change 2 (Store (bv_of 2 1) (bv_of 80 (2 ^ 79 + 1)));
             Select 2 (bv_of 2 1); Change 2 (Store (bv_of 2 2) (bv_of 8 0)); Select 2 (bv_of 2 2);
             Change 2 MakeDense; Select 2 (bv_of 2 1); Change 2 (Store (bv_of 2 2) (bv_of 8 1));
             Change 2 (Store (bv_of 64 (2 ^ 63 + 2)) (bv_of 128 1)); Select 2 (bv_of 2 2);
             New 3 (NewSparse 5 (bv_of 1 1)); Change 3 (Store (bv_of 5 7) (bv_of 1 3)); Change 3 MakeDense;
             Describe 3; Select 3 (bv_of 5 7); Select 3 (bv_of 50 60)] in
  Forall raw_range cs
  /\ raw_predict Release cs = Some
     [Done; Done; Saw (x 31); Saw (x 9);
      Panicked; Panicked;
      Done; Saw (x 8);
      Done; Done; Done;
      Answered (Some true); Done; Saw (x 1); Panicked; Done;
      Done; Done;
      Saw (bv_of 80 (2 ^ 79 + 1)); Done; Saw (bv_of 70 (2 ^ 66));
      Done; Saw (bv_of 70 (2 ^ 79 + 1)); Panicked;
      Done; Saw (bv_of 70 1);
      Done; Done; Done;
      Described true 5 1; Saw (bv_of 1 0); Saw (bv_of 1 0)]
  /\ raw_predict Debug cs = Some
     [Done; Done; Panicked; Panicked;
      Panicked; Panicked;
      Panicked; Saw (x 9);
      Done; Done; Panicked;
      Answered (Some true); Panicked; Panicked; Answered (Some true); Done;
      Done; Panicked;
      Saw (bv_of 70 (2 ^ 66)); Panicked; Saw (bv_of 70 (2 ^ 66));
      Done; Saw (bv_of 70 (2 ^ 66)); Panicked;
      Panicked; Saw (bv_of 70 (2 ^ 66));
      Done; Done; Panicked;
      Described false 5 1; Panicked; Panicked]
  /\ Some (perform some_probe (fun _ l => rev l) (fun _ l => l) Release cs) = raw_predict Release cs.
Proof.
  cbv zeta. match goal with |- Forall _ ?l /\ _ => assert (T : Forall raw_range l) end.
  { repeat (apply Forall_cons || apply Forall_nil); cbn [raw_range raw_origin]; try exact Logic.I;
      unfold well_shaped, bv_of; cbn -[N.pow]; repeat split; repeat constructor; vm_compute; congruence. }
  split; [exact T|]. split; [vm_compute; reflexivity|]. split; [vm_compute; reflexivity|].
  vm_compute. reflexivity.
Qed.
