(** * PWhole: the reference interpreter for the whole library is right (C85). *)

From Coq Require Import ZifyBool ZifyNat ZifyN Permutation.
From Verif Require Import Base Bv Map Array Indexed Unwind Spec ArraySpec CallSpec PanicSpec KindSpec UnwindSpec DirtySpec
  AnswerSpec StoreSpec.
From Verif Require ArrayInterpSpec BvInterpSpec PArrayInterp PBvInterp.
Import ArrayInterpSpec(New, Change, perform1, predict1, acall_range).
Import BvInterpSpec(slot, set, vperform1, vpredict1, Make, Update, Inspect, Binary, Done, Panicked, Missing, Says, Tells,
  ISetBit).
From Verif Require Import PWords PropsArith PDirty PDense PSparse PArrays PUnwind PIntern WholeSpec.
Import PArrayInterp(agree).
Import PBvInterp(related).
Ltac Zify.zify_post_hook ::= idtac.

(** ** Values *)
Lemma stores_value v w n : stores v w n -> v = value (w, n).
Proof.
  intros ((H32 & L & W) & Ew & En). unfold value, bv_of. cbn [fst snd].
  destruct (words_of_ok (N.to_nat ((w + 63) / 64)) n) as (W' & L' & V'). destruct v as [vw l].
  unfold uval in *. cbn [width words] in *. subst vw. f_equal. rewrite N2Nat.id in L', V'. apply wv_inj; auto; [lia|].
  rewrite V', <- En, <- L. symmetry. apply N.mod_small. now apply wv_bound.
Qed.
Lemma stores_same v w n : stores v w n -> stores (value (w, n)) w n.
Proof. intros H. now rewrite <- (stores_value v w n H). Qed.
Lemma tidy_wf v w n : stores v w n -> tidy (w, n) = true -> wf v.
Proof. intros H T. unfold tidy in T. cbn [fst snd] in T. apply (stores_is_bv v w n H). lia. Qed.

(** ** The interner *)
Definition handed (p : interner) (hs : N -> option bvindex) (ms : N -> option slot) : Prop :=
  forall h, match hs h, ms h with
            | Some i, Some s => interned p (value s) i /\ stores (value s) (fst s) (snd s) /\ 0 < fst s
            | None, None => True
            | _, _ => False
            end.

Lemma handed_extends p p' hs ms : extends p p' -> handed p hs ms -> handed p' hs ms.
Proof.
  intros E H h. specialize (H h). destruct (hs h), (ms h); auto. destruct H as (A & B).
  split; [now apply (interned_extends p)|exact B].
Qed.
Lemma handed_set p hs ms h i s : handed p hs ms -> interned p (value s) i -> stores (value s) (fst s) (snd s) ->
  0 < fst s -> handed p (set hs h i) (set ms h s).
Proof. intros H A B C g. unfold set. destruct (g =? h); [auto|apply H]. Qed.

Lemma same_handle p s t i j : interned p (value s) i -> interned p (value t) j ->
  stores (value s) (fst s) (snd s) -> stores (value t) (fst t) (snd t) ->
  (i_width i =? i_width j) && (i_index i =? i_index j) = (fst s =? fst t) && (snd s =? snd t).
Proof.
  intros I J S T. apply eq_true_iff_eq. rewrite !andb_true_iff, !N.eqb_eq. split; intros (X & Y).
  - assert (i = j) as -> by (destruct i, j; cbn in *; congruence).
    assert (A := interned_read_shaped p _ _ I (proj1 S)). assert (B := interned_read_shaped p _ _ J (proj1 T)).
    assert (E : value s = value t) by (apply ok_inj; congruence).
    destruct S as (_ & <- & <-), T as (_ & <- & <-). now rewrite E.
  - assert (s = t) as -> by (destruct s, t; cbn in *; congruence).
    now rewrite (interned_unique p _ _ _ I J).
Qed.

(** ** Steps *)
Definition tracks (w : world) (r : image) : Prop :=
  related (vectors w) (numbers r) /\ agree (arrays w) (memories r)
  /\ inv (pool w) /\ counts (pool w) (known r) /\ handed (pool w) (handles w) (meant r).

Definition calm (m : mode) (o : seen) : Prop := m = Debug \/ panicked o = false.

Definition wstep probe ho order (m : mode) (w : world) (c : wcall) (r' : image) (o : seen) : Prop :=
  tracks (fst (wperform1 probe ho order m w c)) r' /\ snd (wperform1 probe ho order m w c) = o.

Lemma array_step probe ho order m env ref c : hashing probe -> reorders ho -> reorders order ->
  agree env ref -> acall_range c -> calm m (A (snd (predict1 ref c))) ->
  snd (perform1 probe ho order m env c) = snd (predict1 ref c)
  /\ agree (fst (perform1 probe ho order m env c)) (fst (predict1 ref c)).
Proof.
  intros P Ho Or Ag T F. destruct (PArrayInterp.step_ok probe ho order env ref c P Ho Or Ag T) as (E & Ag').
  destruct m; [auto|]. destruct F as [F|F]; [discriminate F|].
  rewrite (PArrayInterp.step_release probe ho order env c); [auto|]. rewrite E. intros X. rewrite X in F. discriminate F.
Qed.

Lemma saw_wf env ref k i v : agree env ref -> wf i ->
  snd (predict1 ref (ArrayInterpSpec.Select k i)) = ArrayInterpSpec.Saw v -> wf v.
Proof.
  intros Ag W E. assert (H := Ag k). cbn [predict1 snd] in E.
  destruct (ref k) as [r|]; [|discriminate E]. destruct (env k) as [a|]; [|easy].
  cbn [snd] in E. destruct (ArrayInterpSpec.usable r i) eqn:U; [|discriminate E]. injection E as <-.
  unfold ArrayInterpSpec.usable in U. apply andb_prop in U as [Ei U]. apply N.eqb_eq in Ei.
  assert (Y : forall q, yields q (ArrayInterpSpec.r_dw r) (ArrayInterpSpec.elem r (uval i)) ->
    wf (bv_of (ArrayInterpSpec.r_dw r) (ArrayInterpSpec.elem r (uval i)))).
  { intros q (x & _ & Hx). apply (bv_of_is_bv _ _ (is_bv_w _ _ _ Hx) (is_bv_lt _ _ _ Hx)). }
  destruct H as (K & H). destruct (ArrayInterpSpec.r_dense r); cbn [andb] in U.
  - destruct (ArrayInterpSpec.roomless _ _); [discriminate U|]. destruct H as (d & _ & H).
    eapply Y. now apply (dense_is_reads some_probe Debug d _ _ _ H).
  - destruct H as (I & s & _ & H & _). eapply Y. now apply (sparse_is_reads some_probe Debug s _ _ _ H I).
Qed.

Lemma on_array_ok probe ho order m w r c : hashing probe -> reorders ho -> reorders order ->
  tracks w r -> acall_range c -> calm m (snd (of_array r c)) ->
  tracks (fst (on_array probe ho order m w c)) (fst (of_array r c))
  /\ snd (on_array probe ho order m w c) = snd (of_array r c).
Proof.
  intros P Ho Or (R & Ag & I & C & H) T F. unfold on_array, of_array in *.
  assert (X := array_step probe ho order m (arrays w) (memories r) c P Ho Or Ag T).
  destruct (predict1 (memories r) c) as [e o]. cbn [fst snd] in *. destruct (X F) as (E & Ag').
  destruct (perform1 probe ho order m (arrays w) c) as [e' o']. cbn [fst snd] in *. subst o'.
  split; [|reflexivity]. split; [exact R|]. split; [exact Ag'|cbn; auto].
Qed.

Lemma assign_ok w r k v n x : tracks w r -> stores v n x ->
  tracks (fst (assign w k v)) (fst (number r k (n, x))) /\ snd (assign w k v) = snd (number r k (n, x)).
Proof.
  intros (R & Ag & I & C & H) S. split; [|reflexivity]. split; [|cbn; auto]. cbn. now apply PBvInterp.related_set.
Qed.

Lemma intern_step m w r h k v s : tracks w r -> vectors w k = Some v -> numbers r k = Some s -> 0 < fst s ->
  stored (known r ++ [value s]) <= 2 ^ 32 ->
  exists p i, un_get_index m v (pool w) = Returned p i
    /\ tracks (mkworld (vectors w) (arrays w) (set (handles w) h i) p)
              (mkimage (numbers r) (memories r) (set (meant r) h s) (known r ++ [value s])).
Proof.
  intros (R & Ag & I & C & H) Ek Er Pos Lim. assert (X := R k). rewrite Ek, Er in X. destruct s as [n x].
  cbn [fst] in Pos. assert (Ev := stores_value _ _ _ X). assert (Sh := stores_same _ _ _ X). destruct X as (Wv & Ew & En).
  destruct (get_index_shaped m (pool w) v I Wv ltac:(lia)) as (p & i & G & _ & K).
  assert (C' := counts_shaped m _ _ _ _ _ C Wv ltac:(lia) G). rewrite Ev in C'.
  destruct (counts_stored _ _ C') as (_ & _ & L). destruct (K ltac:(lia)) as (I' & Ex & In).
  assert (U := same_interner m (pool w) v). destruct (un_get_index m v (pool w)) as [p' i'|p' q].
  - rewrite G in U. injection U as <- <-. exists p, i. split; [reflexivity|]. split; [exact R|]. split; [exact Ag|].
    split; [exact I'|]. split; [exact C'|]. cbn. apply handed_set; auto; [now apply (handed_extends (pool w))|].
    now rewrite <- Ev.
  - destruct U as (U & _). congruence.
Qed.

Lemma wstep_ok probe ho order m w r c r' o : hashing probe -> reorders ho -> reorders order ->
  tracks w r -> wcall_range c -> wpredict1 r c = Some (r', o) -> calm m o -> wstep probe ho order m w c r' o.
Proof.
  intros P Ho Or Tr T E F. assert (Tr' := Tr). destruct Tr as (R & Ag & I & C & H). unfold wstep.
  destruct c as [c|c|a dense iw d|k a i|a i x|h k|k h|h g|h|h]; cbn [wperform1 wpredict1 wcall_range] in *.
  - assert (X := PBvInterp.step_ok m (vectors w) (numbers r) c R T). destruct (vpredict1 (numbers r) c) as [e q] eqn:Ep.
    injection E as <- <-. unfold PBvInterp.step in X. rewrite Ep in X. cbn [fst snd] in X.
    destruct X as (X1 & X2).
    { destruct F as [F|F]; [now left|]. right. intros ->. discriminate F. }
    destruct (vperform1 m (vectors w) c) as [e' q']. cbn [fst snd] in *. subst q'. split; [|reflexivity].
    split; [exact X1|cbn; auto].
  - injection E as E. assert (X := on_array_ok probe ho order m w r c P Ho Or Tr' T). rewrite E in X. now apply X.
  - assert (Rd := R d). destruct (vectors w d) as [v|], (numbers r d) as [[n x]|]; try easy.
    + destruct (tidy (n, x) && (0 <? fst (n, x)) && (dense || (iw <=? 64))) eqn:B; [|discriminate E].
      apply andb_prop in B as [B B3]. apply andb_prop in B as [B1 B2]. cbn [fst] in B2.
      rewrite <- (stores_value v n x Rd) in E.
      injection E as E. assert (X := on_array_ok probe ho order m w r (New a (origin dense iw v)) P Ho Or Tr').
      rewrite E in X. apply X; auto. assert (Wv := tidy_wf v n x Rd B1). destruct Rd as (_ & Ew & _).
      destruct dense; cbn; [split; [auto|lia]|]. split; [auto|]. cbn in B3. lia.
    + injection E as <- <-. auto.
  - assert (Ri := R i). destruct (vectors w i) as [v|], (numbers r i) as [[n x]|]; try easy.
    + destruct (tidy (n, x)) eqn:B; [|discriminate E]. rewrite <- (stores_value v n x Ri) in E.
      assert (Wv := tidy_wf v n x Ri B).
      assert (X := on_array_ok probe ho order m w r (ArrayInterpSpec.Select a v) P Ho Or Tr' Wv).
      destruct (of_array r (ArrayInterpSpec.Select a v)) as [r1 o1] eqn:Eo. cbn [fst snd] in X.
      assert (F1 : calm m o1).
      { destruct F as [F|F]; [now left|]. right. destruct o1 as [o1|o1]; [|destruct o1]; auto; now injection E as <- <-. }
      destruct (X F1) as (X1 & X2).
      destruct (on_array probe ho order m w (ArrayInterpSpec.Select a v)) as [w1 o2]. cbn [fst snd] in *. subst o2.
      destruct o1 as [o1|o1]; [injection E as <- <-; auto|].
      destruct o1; try (injection E as <- <-; auto).
      assert (Sh : stores v0 (width v0) (uval v0)).
      { apply shaped_stores, wf_shaped, (saw_wf (arrays w) (memories r) a v v0 Ag Wv).
        unfold of_array in Eo. destruct (predict1 (memories r) (ArrayInterpSpec.Select a v)) as [e2 o2].
        now injection Eo as <- ->. }
      destruct (assign_ok w1 r1 k v0 (width v0) (uval v0) X1 Sh) as (Y1 & Y2). auto.
    + injection E as <- <-. auto.
  - assert (Ri := R i). assert (Rx := R x).
    destruct (vectors w i) as [v|], (numbers r i) as [[n y]|]; try easy; [|injection E as <- <-; auto].
    destruct (vectors w x) as [u|], (numbers r x) as [[n' y']|]; try easy; [|injection E as <- <-; auto].
    destruct (tidy (n, y) && tidy (n', y')) eqn:B; [|discriminate E]. apply andb_prop in B as [B1 B2].
    rewrite <- (stores_value v n y Ri), <- (stores_value u n' y' Rx) in E. injection E as E.
    assert (X := on_array_ok probe ho order m w r (Change a (KindSpec.Store v u)) P Ho Or Tr').
    rewrite E in X. apply X; auto. split; [now apply (tidy_wf v n y)|now apply (tidy_wf u n' y')].
  - assert (Rk := R k). destruct (vectors w k) as [v|] eqn:Ek, (numbers r k) as [[n x]|] eqn:Er; try easy.
    + cbn [fst] in E. destruct (n =? 0) eqn:Z.
      * injection E as <- <-. destruct F as [->|F]; [|discriminate F].
        assert (U := same_interner Debug (pool w) v). destruct Rk as ((_ & L & _) & Ew & _).
        assert (Ez : n = 0) by lia. rewrite Ew, Ez in L. change ((0 + 63) / 64) with 0 in L.
        destruct (words v) eqn:Wv; [|rewrite len_cons in L; exfalso; clear - L; lia].
        unfold interner_get_index in U. rewrite Wv, Ew, Ez in U. cbn in U.
        destruct (un_get_index Debug v (pool w)); [discriminate U|]. destruct U as (_ & ->). destruct w. auto.
      * destruct (_ <=? _) eqn:B; [|discriminate E]. injection E as <- <-.
        destruct (intern_step m w r h k v (n, x) Tr' Ek Er ltac:(cbn; lia) ltac:(lia)) as (p & i & -> & X). auto.
    + injection E as <- <-. auto.
  - injection E as E. assert (Hh := H h). destruct (handles w h) as [i|], (meant r h) as [s|]; try easy.
    + destruct Hh as (A & S & Pos). unfold interner_words. rewrite (interned_read_shaped _ _ _ A (proj1 S)).
      destruct s as [n x]. destruct (assign_ok w r k (value (n, x)) n x Tr' S) as (Y1 & Y2).
      rewrite E in Y1, Y2. auto.
    + injection E as <- <-. auto.
  - injection E as <- <-. split; [exact Tr'|]. cbn [snd]. assert (Hh := H h). assert (Hg := H g).
    destruct (handles w h) as [i|], (meant r h) as [s|]; try easy.
    destruct (handles w g) as [j|], (meant r g) as [t|]; try easy.
    do 2 f_equal. now apply (same_handle (pool w)).
  - injection E as <- <-. split; [exact Tr'|]. cbn [snd]. assert (Hh := H h).
    destruct (handles w h) as [i|], (meant r h) as [s|]; try easy. destruct Hh as (A & S & Pos).
    do 2 f_equal. unfold interner_is_zero, constant.
    rewrite (interned_const_shaped (pool w) (value s) i 0 ltac:(lia) I A (proj1 S));
      destruct S as (_ & -> & En); [now rewrite En|exact Pos].
  - injection E as <- <-. split; [exact Tr'|]. cbn [snd]. assert (Hh := H h).
    destruct (handles w h) as [i|], (meant r h) as [s|]; try easy. destruct Hh as (A & S & Pos).
    do 2 f_equal. unfold interner_is_one, constant.
    rewrite (interned_const_shaped (pool w) (value s) i 1 ltac:(lia) I A (proj1 S));
      destruct S as (_ & -> & En); [now rewrite En|exact Pos].
Qed.

Lemma wperform_from_ok probe ho order m : hashing probe -> reorders ho -> reorders order ->
  forall cs w r os, tracks w r -> Forall wcall_range cs -> wpredict_from r cs = Some os ->
  (m = Debug \/ forallb (fun o => negb (panicked o)) os = true) -> wperform_from probe ho order m w cs = os.
Proof.
  intros P Ho Or. induction cs as [|c cs IH]; intros w r os Tr T E F; cbn [wpredict_from wperform_from] in *.
  { now injection E as <-. }
  inversion_clear T as [|? ? T1 T2]. destruct (wpredict1 r c) as [[r' o]|] eqn:E1; [|discriminate E].
  destruct (wpredict_from r' cs) as [l|] eqn:E2; [|discriminate E]. injection E as <-.
  assert (F1 : calm m o).
  { destruct F as [F|F]; [now left|]. right. cbn [forallb] in F. apply andb_prop in F as [F _]. now destruct (panicked o). }
  assert (F2 : m = Debug \/ forallb (fun o => negb (panicked o)) l = true).
  { destruct F as [F|F]; [now left|]. right. cbn [forallb] in F. now apply andb_prop in F. }
  destruct (wstep_ok probe ho order m w r c r' o P Ho Or Tr T1 E1 F1) as (X1 & X2).
  destruct (wperform1 probe ho order m w c) as [w' o']. cbn [fst snd] in *. subst o'. f_equal. now apply (IH w' r').
Qed.

Lemma tracks_fresh : tracks fresh blank.
Proof.
  split; [intros k; exact I|]. split; [intros k; exact I|]. split; [apply inv_new|]. split; [apply counts_new|].
  intros k. exact I.
Qed.

Lemma wperform_debug probe ho order cs os : hashing probe -> reorders ho -> reorders order ->
  Forall wcall_range cs -> wpredict cs = Some os -> wperform probe ho order Debug cs = os.
Proof. intros P Ho Or T E. apply (wperform_from_ok _ _ _ _ P Ho Or cs fresh blank); auto using tracks_fresh. Qed.

Lemma wperform_release probe ho order cs os : hashing probe -> reorders ho -> reorders order ->
  Forall wcall_range cs -> wpredict cs = Some os -> (forall o, In o os -> panicked o = false) ->
  wperform probe ho order Release cs = os.
Proof.
  intros P Ho Or T E F. apply (wperform_from_ok _ _ _ _ P Ho Or cs fresh blank); auto using tracks_fresh.
  right. apply forallb_forall. intros o X. now rewrite (F o X).
Qed.

Lemma whole_example :
  let cs := [OnVector (Make 0 (KFromU64 7 65)); OnVector (Make 1 (KFromU64 2 2)); NewArray 0 false 2 0;
             OnVector (Binary 2 BAdd 0 0); Store 0 1 2; Select 3 0 1; OnVector (BvInterpSpec.Compare TEqual 2 3);
             Intern 0 2; Intern 1 3; Same 0 1; Intern 2 0; Same 0 2;
             Fetch 4 2; OnVector (Inspect LDecStr 4); Store 0 4 0;
             OnArray (ArrayInterpSpec.Change 0 MakeDense); OnArray (ArrayInterpSpec.Describe 0);
             OnVector (Make 5 (KFromU64 1 8)); Intern 3 5; IsOne 3; OnVector (Update 5 (ISetBit 9));
             Intern 4 5; Same 3 4; IsOne 4; Fetch 6 4; OnVector (BvInterpSpec.Compare TEqual 5 6);
             OnVector (Make 7 (KFromU64 1 70)); Intern 5 7; IsOne 5;
             OnVector (Make 8 (KZero 0)); Intern 6 8; Fetch 6 6; Select 9 1 1] in
  Forall wcall_range cs
  /\ wpredict cs = Some
     [V Done; V Done; A ArrayInterpSpec.Done;
      V Done; A ArrayInterpSpec.Done; V Done; V (Says true);
      V Done; V Done; V (Says true); V Done; V (Says false);
      V Done; V (Tells (AText [55])); A ArrayInterpSpec.Panicked;
      A ArrayInterpSpec.Panicked; A (ArrayInterpSpec.Described false 2 65);
      V Done; V Done; V (Says true); V Done;
      V Done; V (Says false); V (Says false); V Done; V (Says true);
      V Done; V Done; V (Says false);
      V Done; V Panicked; V Missing; A ArrayInterpSpec.Missing]
  /\ Some (wperform some_probe (fun _ l => rev l) (fun _ l => l) Debug cs) = wpredict cs.
Proof.
  cbv zeta. match goal with |- Forall _ ?l /\ _ => assert (T : Forall wcall_range l) end.
  { repeat (apply Forall_cons || apply Forall_nil); cbn -[N.pow]; auto; repeat split; try reflexivity. }
  split; [exact T|]. split; [vm_compute; reflexivity|].
  match goal with |- Some (wperform _ _ _ _ ?l) = _ => destruct (wpredict l) as [os|] eqn:E end.
  - f_equal. apply wperform_debug; auto; [apply some_probe_hashing| |]; intros A l; [apply Permutation_rev|apply Permutation_refl].
  - vm_compute in E. discriminate E.
Qed.
