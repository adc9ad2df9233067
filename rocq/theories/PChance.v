(** * PChance: array programs whose results depend on the hash tables (C92). *)

From Coq Require Import String ZifyBool ZifyNat ZifyN Permutation.
From Verif Require Import Base Arith Map Bv Array Serde Unwind Spec CallSpec ArraySpec DirtySpec MixedSpec KindSpec
  UnwindSpec ArrayInterpSpec RawArraySpec ChanceSpec.
From Verif Require BvInterpSpec.
Import BvInterpSpec(slot).
From Verif Require Import PWords PropsArith PDirty PDense PSparse PArrays PSerde PReject PUnwind PRawArray PRawInterp.
From Verif Require PConv.
Ltac Zify.zify_post_hook ::= idtac.
Open Scope list_scope.
Open Scope N_scope.

(** ** Every order of the entries is the order of some hash table *)
Lemma order_realised {A} (l l' : list A) : Permutation l l' ->
  exists ho : hash_order, reorders ho /\ ho A l = l'.
Proof.
  intros P. induction P as [|x l l' P (f & F & E)|x y l|l l' l'' P (f & F & E) Q (f' & F' & E')].
  - exists (fun _ l => l). split; [intros B k; reflexivity|reflexivity].
  - exists (fun _ l => match l with [] => [] | a :: t => a :: f _ t end). split; [|now rewrite E].
    intros B [|b k]; [constructor|]. constructor. apply F.
  - exists (fun _ l => match l with a :: b :: t => b :: a :: t | l => l end). split; [|reflexivity].
    intros B [|b [|c k]]; try reflexivity. constructor.
  - exists (fun _ l => f' _ (f _ l)). split; [|now rewrite E].
    intros B k. eapply perm_trans; [apply F|apply F'].
Qed.

(** ** The entries in the order they are visited *)
Lemma flat_keys {A} (l : list (N * option A)) : forall ks,
  map fst (flat_map (fun i => match entry_at l i with Some x => [(i, x)] | None => [] end) ks)
  = filter (fun i => match entry_at l i with Some _ => true | None => false end) ks.
Proof.
  induction ks as [|k ks IH]; [reflexivity|]. cbn [flat_map filter]. destruct (entry_at l k); cbn [app map fst]; now rewrite IH.
Qed.
Lemma arranged_nodup {A} order (l : list (N * option A)) : NoDup (map fst (arranged order l)).
Proof. unfold arranged. rewrite flat_keys. apply NoDup_filter, NoDup_nodup. Qed.
Lemma arranged_in {A} order (l : list (N * option A)) i x : In (i, x) (arranged order l) <-> entry_at l i = Some x.
Proof.
  unfold arranged. rewrite in_flat_map. split.
  - intros (j & J & H). destruct (entry_at l j) as [y|] eqn:E; [|destruct H]. destruct H as [H|[]]. congruence.
  - intros E. exists i. rewrite E. split; [|now left]. apply nodup_In, in_or_app. left.
    apply in_map_iff. unfold entry_at, latest in E. destruct (find _ l) as [e|] eqn:F; [|discriminate E].
    apply find_some in F as (F & K). exists e. split; [lia|exact F].
Qed.
Lemma arranged_get {A} order (l : list (N * option A)) i : hm_get N.eqb (arranged order l) i = entry_at l i.
Proof.
  destruct (entry_at l i) as [x|] eqn:E.
  - apply (PSparse.in_get _ N_eqb_eq); [apply arranged_nodup|]. now apply arranged_in.
  - apply (get_none _ N_eqb_eq). intros H. apply in_map_iff in H as ((j & x) & <- & H).
    apply arranged_in in H. cbn [fst] in E. congruence.
Qed.

(** two tables with the same keys in the same order *)
Lemma same_order {A} : forall t t' : list (N * A), map fst t = map fst t' -> NoDup (map fst t) ->
  (forall i, hm_get N.eqb t i = hm_get N.eqb t' i) -> t = t'.
Proof.
  induction t as [|(k & x) t IH]; intros [|(k' & x') t'] E U H; try discriminate E; [reflexivity|].
  cbn [map fst] in E. injection E as <- E. inversion_clear U as [|? ? U1 U2].
  assert (H0 := H k). cbn [hm_get] in H0. rewrite N.eqb_refl in H0. injection H0 as <-. f_equal.
  apply IH; auto. intros i. destruct (N.eqb_spec k i) as [<-|K].
  - rewrite (proj2 (get_none _ N_eqb_eq t k)) by auto. symmetry. apply (get_none _ N_eqb_eq). now rewrite <- E.
  - specialize (H i). cbn [hm_get] in H. now replace (k =? i) with false in H by lia.
Qed.

Lemma nodup_later (l : list N) : NoDup l -> forall ks, exists ks', nodup N.eq_dec (ks ++ l) = ks' ++ l
  /\ forall k, In k ks' -> ~ In k l.
Proof.
  intros U. induction ks as [|k ks (ks' & E & H)]; cbn [app nodup].
  - exists []. split; [now rewrite nodup_fixed_point|intros k []].
  - destruct (in_dec N.eq_dec k (ks ++ l)) as [I|I]; [exists ks'; auto|].
    exists (k :: ks'). split; [now rewrite E|]. intros j [<-|J]; [|now apply H].
    intros X. apply I, in_or_app. now right.
Qed.

Lemma arranged_by {A} (t : list (N * A)) l : NoDup (map fst t) -> (forall i, hm_get N.eqb t i = entry_at l i) ->
  arranged (map fst t) l = t.
Proof.
  intros U G. apply same_order; [|apply arranged_nodup|intros i; now rewrite arranged_get, G].
  unfold arranged. rewrite flat_keys. destruct (nodup_later (map fst t) U (map fst l)) as (ks & -> & H).
  rewrite filter_app. replace (filter _ ks) with (@nil N).
  - cbn [app]. assert (K : forall k, In k (map fst t) -> match entry_at l k with Some _ => true | None => false end = true).
    { intros k I. rewrite <- G. destruct (hm_get N.eqb t k) eqn:E; [reflexivity|]. now apply (get_none _ N_eqb_eq) in E. }
    revert K. generalize (map fst t). clear. intros ks K. induction ks as [|k ks IH]; [reflexivity|]. cbn [filter].
    rewrite K by now left. f_equal. apply IH. intros j J. apply K. now right.
  - symmetry. clear - H G. induction ks as [|k ks IH]; [reflexivity|]. cbn [filter].
    replace (entry_at l k) with (@None A); [apply IH; intros j J; apply H; now right|].
    rewrite <- G. symmetry. apply (get_none _ N_eqb_eq), H. now left.
Qed.

Definition visits (ho : hash_order) (order : list N) (a : array) (r : raw) : Prop :=
  match a, q_cells r with
  | ASparse s, RSmall _ l => forall b t, s_data s = SU64U64 b t -> ho _ t = arranged order l
  | ASparse s, RBig _ l => forall b t, s_data s = SU64Big b t -> map known_as (ho _ t) = arranged order l
  | _, _ => True
  end.

(** what a table of wide elements contains *)
Lemma known_table ho t l : reorders ho -> NoDup (map fst t) ->
  (forall i, hm_get N.eqb t i = option_map (fun s : slot => bv_of (fst s) (snd s)) (entry_at l i)) ->
  (forall i s, entry_at l i = Some s -> i < 2 ^ 64 /\ fst s < 2 ^ 32 /\ snd s < 2 ^ (64 * places (fst s))) ->
  NoDup (map fst (map known_as (ho _ t))) /\ (forall i, hm_get N.eqb (map known_as (ho _ t)) i = entry_at l i).
Proof.
  intros Ho U G F.
  assert (U' : NoDup (map fst (ho _ t))) by (eapply Permutation_NoDup; [apply Permutation_map, Ho|exact U]).
  split; [rewrite map_map; exact U'|].
  intros i. rewrite get_latest. unfold known_as. rewrite (latest_map (fun x => (width x, uval x))).
  rewrite <- get_latest, (get_perm _ N_eqb_eq t) by auto. rewrite G.
  destruct (entry_at l i) as [(w & n)|] eqn:Q; [|reflexivity]. cbn [option_map fst snd].
  destruct (F _ _ Q) as (_ & W & X). cbn [fst snd] in W, X. destruct (stores_bv_of w n W X) as (_ & W' & X').
  now rewrite W', X'.
Qed.

Lemma visits_some ho a r : reorders ho -> rholds a r -> exists order, visits ho order a r.
Proof.
  intros Ho (Hi & Hd & H). destruct r as [iw dw c]. cbn [q_iw q_dw q_cells] in *.
  destruct c as [n|b l|b l|b l|b l].
  1-3: exists []; destruct a; exact Logic.I.
  - destruct H as (I & D & B & t & -> & U & G & F). exists (map fst (ho _ t)). intros b' t' E. cbn [s_data] in E.
    injection E as <- <-. symmetry. apply arranged_by.
    + eapply Permutation_NoDup; [apply Permutation_map, Ho|exact U].
    + intros i. rewrite <- G. apply (get_perm _ N_eqb_eq); auto.
  - destruct H as (I & D & B & t & -> & U & G & F). exists (map fst (map known_as (ho _ t))). intros b' t' E.
    cbn [s_data] in E. injection E as <- <-. symmetry. destruct (known_table ho t l Ho U G F). now apply arranged_by.
Qed.

Lemma id_reorders : reorders (fun _ l => l).
Proof. intros A l. reflexivity. Qed.

(** tables with the same lookups have the same entries *)
Lemma get_same {A} (t t' : list (N * A)) : NoDup (map fst t) -> NoDup (map fst t') ->
  (forall i, hm_get N.eqb t i = hm_get N.eqb t' i) -> Permutation t t'.
Proof.
  intros U U' H. apply NoDup_Permutation; [now apply NoDup_map_inv in U|now apply NoDup_map_inv in U'|].
  intros (i & x). split; intros X; apply (PSparse.in_get _ N_eqb_eq) in X; auto;
    apply (PSparse.get_in _ N_eqb_eq); congruence.
Qed.

Lemma visits_all order a r : rholds a r -> exists ho, reorders ho /\ visits ho order a r.
Proof.
  intros (Hi & Hd & H). destruct r as [iw dw c]. cbn [q_iw q_dw q_cells] in *.
  destruct c as [n|b l|b l|b l|b l].
  1-3: exists (fun _ l => l); split; [exact id_reorders|destruct a; exact Logic.I].
  - destruct H as (I & D & B & t & -> & U & G & F).
    destruct (order_realised t (arranged order l)) as (ho & R & E).
    { apply get_same; auto using arranged_nodup. intros i. now rewrite arranged_get. }
    exists ho. split; [exact R|]. intros b' t' E'. cbn [s_data] in E'. injection E' as <- <-. exact E.
  - destruct H as (I & D & B & t & -> & U & G & F).
    destruct (order_realised t (map (fun e => (fst e, bv_of (fst (snd e)) (snd (snd e)))) (arranged order l))) as (ho & R & E).
    { apply get_same; auto.
      - rewrite map_map. cbn [fst]. apply arranged_nodup.
      - intros i. rewrite get_latest, get_latest, (latest_map (fun s : slot => bv_of (fst s) (snd s))), <- !get_latest.
        now rewrite arranged_get. }
    exists ho. split; [exact R|]. intros b' t' E'. cbn [s_data] in E'. injection E' as <- <-. rewrite E, map_map.
    rewrite <- map_id. apply map_ext_in. intros (i & (w & n)) X. apply arranged_in in X.
    destruct (F _ _ X) as (_ & W & L). cbn [fst snd] in *. unfold known_as. cbn [fst snd].
    destruct (stores_bv_of w n W L) as (_ & -> & ->). reflexivity.
Qed.

(** ** Sparse to dense, in the order of the table *)
Lemma told_map' {A B C D} (R : A -> B -> Prop) (Q : C -> D -> Prop) r g (f : A -> res C) (h : B -> guess D) :
  told R r g -> knows g -> (forall a b, R a b -> told Q (f a) (h b)) ->
  told Q (let* x := r in f x) (match g with Known b => h b | _ => Panicking end).
Proof.
  intros T K H. destruct g as [b| |]; [|now apply panics_bind|now destruct K]. destruct T as (a & -> & X). now apply H.
Qed.

Lemma densify_words_in iw dw b : iw < 2 ^ 32 -> 64 < dw -> forall l d ix n w0,
  rholds (ADense d) (mkraw iw dw (RWords b w0)) -> is_bv ix dw n ->
  Forall (fun e => fst e < 2 ^ 64 /\ well_shaped (snd e)) l ->
  told (fun p w => rholds (ADense (fst p)) (mkraw iw dw (RWords b w)))
    (foldM (densify_step_big Release) l (d, ix))
    (required (forallb (fun e => (places dw * fst e mod 2 ^ 64 + places dw <=? places dw * elements iw)
                                 && (places (fst (snd e)) =? places dw)) (map known_as l))
       (Known (flat_map (fun e => split_from (places dw * fst e mod 2 ^ 64) (snd (snd e)) (N.to_nat (places dw)))
                 (rev (map known_as l)) ++ w0))).
Proof.
  intros Hi D l. induction l as [|(k & x) l IH]; intros d ix n w0 H S F; cbn [foldM map forallb].
  - apply told_known. exact H.
  - inversion F as [|? ? (F1 & F2) F']; subst. cbn [fst snd] in F1, F2.
    unfold densify_step_big at 1. cbn [fst snd known_as].
    destruct (PConv.assign_from_u64_ok Release ix dw n k S ltac:(lia) F1 (or_introl eq_refl)) as (ix' & -> & S').
    rewrite N.mod_small in S' by (eapply N.lt_le_trans; [exact F1|apply N.pow_le_mono_r; lia]). cbn [bind].
    pose proof (write_told (fun _ _ => false) Release _ _ ix' dw k x (width x) (uval x) H (is_bv_stores _ _ _ S') (shaped_stores _ F2)) as T.
    unfold raw_write in T. cbn [q_iw q_dw q_cells checked array_store] in T.
    replace (k <? 2 ^ 64) with true in T by lia. cbn [required] in T. unfold position in T. cbn [checked] in T. cbv zeta in T.
    set (c1 := (_ <=? _)) in *.
    destruct (dense_store Release d ix' x) as [d'|p]; cbn [bind] in T |- *.
    + destruct c1; cbn [required andb told] in T |- *; [|now destruct T].
      destruct (places (width x) =? places dw); cbn [required andb told] in T |- *; [|now destruct T].
      destruct T as (a' & E & T). injection E as <-.
      specialize (IH d' ix' k _ T S' F'). cbn [rev]. rewrite flat_map_app, <- app_assoc. cbn [flat_map fst snd].
      rewrite app_nil_r. exact IH.
    + destruct c1; cbn [required andb told] in T |- *; [|eexists; reflexivity].
      destruct (places (width x) =? places dw); cbn [required andb told] in T |- *; [|eexists; reflexivity].
      destruct T as (a' & E & T). discriminate.
Qed.

Lemma densify_in ho order m a r : reorders ho -> rholds a r -> visits ho order a r ->
  told (wrote_to r) (array_make_dense ho m a) (densified_in order m r).
Proof.
  intros Ho H Hv. unfold wrote_to, densified_in. assert (R := H). destruct r as [iw dw c]. destruct H as (Hi & Hd & H).
  cbn [q_iw q_dw q_cells] in *.
  destruct c as [n|b l|b l|b l|b l].
  1-3: destruct a as [s|d]; [exfalso; apply rholds_type in R as (R & _); discriminate R|];
    cbn [array_make_dense]; now apply told_known.
  - destruct H as (I & D & B & t & -> & U & G & F). cbn [array_make_dense].
    apply told_wrap with (R := fun d c => rholds (ADense d) (mkraw iw dw c)); [|auto].
    unfold dense_of_sparse, sparse_default. cbn [s_iw s_dw s_data]. cbv zeta.
    specialize (Hv b t eq_refl). cbn [q_cells] in Hv. rewrite Hv.
    assert (F' : Forall (fun e => fst e < 2 ^ 64 /\ snd e < 2 ^ 64) (arranged order l)).
    { rewrite <- Hv. eapply Permutation_Forall; [apply Ho|exact F]. }
    assert (U' := arranged_nodup order l). assert (G' := arranged_get order l).
    set (L := arranged order l) in *.
    eapply told_map'; [apply default_told; auto|apply number_knows|]. intros v (w & n) (D0 & V). cbn [snd] in V.
    eapply told_map'; [apply new_dense_known; [exact Hi|exact V]|apply dense_knows|]. intros d c (C & Cl & _).
    destruct (rholds_type _ _ C) as (_ & C1 & C2). cbn [array_index_width array_data_width q_iw q_dw] in C1, C2.
    rewrite asserted_both by lia. rewrite C1, C2. destruct C as (_ & _ & C). cbn [q_iw q_dw q_cells] in C.
    destruct c as [n'|n' l'|n' l'|n' l'|n' l']; try (destruct Cl; fail); try (exfalso; lia).
    + destruct C as (-> & x & E & X). injection E as ->. cbn [d_data].
      eapply told_then; [apply (densify_bits m (bits iw) L x n' X)|].
      intros dd (y & -> & Y). apply told_known. now apply rholds_bits.
    + subst l'. destruct C as (D1 & _ & ws & E & Lw & N0 & Fw). injection E as ->. cbn [d_data].
      rewrite <- Lw.
      assert (Fs : Forall (fun e => snd e < 2 ^ 64) L) by (eapply Forall_impl; [|exact F']; intros e E; apply E).
      pose proof (densify_cells m dw (dw <=? 8) L ws U' Fw Fs eq_refl) as T.
      unfold required in *. destruct (forallb _ L); [|now apply panics_bind].
      destruct T as (dd & -> & ws' & -> & L' & Fw' & N'). cbn [bind]. apply told_known.
      unfold rholds. cbn [q_iw q_dw q_cells]. repeat split; auto. exists ws'. split; [reflexivity|]. split; [lia|].
      split; [|exact Fw']. intros i Ii. rewrite N' by lia. unfold at_cell.
      rewrite (latest_map (cell dw)). destruct (latest L i); cbn [option_map]; [reflexivity|]. now apply N0.
  - destruct H as (I & D & B & t & -> & U & G & F). cbn [array_make_dense].
    apply told_wrap with (R := fun d c => rholds (ADense d) (mkraw iw dw c)); [|auto].
    unfold dense_of_sparse, sparse_default. cbn [s_iw s_dw s_data bind]. cbv zeta.
    specialize (Hv _ t eq_refl). cbn [q_cells] in Hv. rewrite <- Hv.
    assert (FL : Forall (fun e => fst e < 2 ^ 64 /\ well_shaped (snd e)) (ho _ t)).
    { eapply Permutation_Forall; [apply Ho|]. apply Forall_forall. intros (k & x) X.
      apply (PSparse.in_get N.eqb N_eqb_eq _ _ _ U) in X. rewrite G in X.
      destruct (entry_at l k) as [(w & n)|] eqn:Q; [|discriminate]. injection X as <-. cbn [fst snd].
      destruct (F _ _ Q) as (K & W & X). split; [exact K|]. apply (stores_bv_of w n W X). }
    set (L := ho _ t) in *.
    eapply told_map'; [apply new_dense_known; [exact Hi|now apply stores_bv_of]|apply dense_knows|]. intros d c (C & _ & Cd).
    rewrite (Cd D) in *. clear Cd.
    destruct (rholds_type _ _ C) as (_ & C1 & C2). cbn [array_index_width array_data_width q_iw q_dw] in C1, C2.
    rewrite asserted_both by lia.
    apply told_checked_in.
    + intros M.
      assert (Mr : m = Release \/ L = []).
      { destruct m; [right|now left]. destruct M as [M|M]; [discriminate|]. now destruct L. }
      assert (T := densify_words_in iw dw b Hi D L d (bv_zero dw) 0 [] C (PConv.zero_is_bv dw Hd) FL).
      assert (T' : foldM (densify_step_big m) L (d, bv_zero dw) = foldM (densify_step_big Release) L (d, bv_zero dw)).
      { destruct Mr as [->| ->]; reflexivity. }
      rewrite T'. eapply told_next; [exact T|]. clear T. intros (d' & ix) T. cbn [fst] in T. apply told_known.
      rewrite app_nil_r in T. exact T.
    + intros -> E. destruct L as [|e q]; [discriminate E|]. cbn [foldM].
      do 2 apply panics_bind. unfold densify_step_big.
      destruct (bv_assign_from_u64 Debug (bv_zero dw) (fst e)) as [ix|] eqn:A; [|eexists; reflexivity]. cbn [bind].
      apply panics_bind. unfold dense_store.
      assert (Wi : width ix = dw).
      { inversion FL as [|? ? (K & _) _]; subst.
        destruct (PConv.assign_from_u64_ok Debug (bv_zero (d_dw d)) (d_dw d) 0 (fst e)) as (y & E' & Y); auto; [now apply PConv.zero_is_bv|lia| |].
        - right. eapply N.lt_le_trans; [exact K|apply N.pow_le_mono_r; lia].
        - rewrite E' in A. injection A as <-. apply Y. }
      rewrite Wi, C1. unfold debug_assert. replace (dw =? iw) with false by lia. eexists; reflexivity.
Qed.

Lemma in_knows order m r : knows (densified_in order m r).
Proof.
  unfold densified_in. destruct (q_cells r); known.
  - destruct (from_number m (q_dw r) base) as [[w n]| |]; try easy.
    destruct (raw_dense m (q_iw r) (q_dw r) n) as [[]| |]; try easy; known.
  - destruct (raw_dense m (q_iw r) (q_dw r) base); try easy. known.
Qed.

(** ** Comparing *)
Lemma mixed_in ho order m d s iw dw c c' : reorders ho -> visits ho order (ASparse s) (mkraw iw dw c') ->
  rholds (ADense d) (mkraw iw dw c) -> rholds (ASparse s) (mkraw iw dw c') ->
  told eq (is_equal_mixed ho m d s)
    match densified_in order m (mkraw iw dw c') with
    | Known b => Known (Some (same_cells iw dw c b))
    | _ => Panicking
    end.
Proof.
  intros Ho Hv Hd Hs. destruct (rholds_type _ _ Hd) as (D0 & D1 & D2), (rholds_type _ _ Hs) as (_ & S1 & S2).
  cbn [array_index_width array_data_width q_iw q_dw array_is_dense] in *. unfold is_equal_mixed.
  replace (negb (d_iw d =? s_iw s) || negb (d_dw d =? s_dw s)) with false by lia.
  pose proof (densify_in ho order m _ _ Ho Hs Hv) as T. cbn [array_make_dense] in T. unfold wrote_to in T. cbn [q_iw q_dw] in T.
  assert (K := in_knows order m (mkraw iw dw c')).
  destruct (densified_in order m (mkraw iw dw c')) as [b| |]; cbn [told] in *; [| |now destruct K].
  - destruct T as (a & E & T). destruct (dense_of_sparse ho m s) as [d'|]; [|discriminate]. cbn [bind] in *. injection E as <-.
    rewrite (dense_equal_told m d' d iw dw b c T Hd). eexists; split; [reflexivity|].
    rewrite (same_cells_sym iw dw c b); auto.
  - destruct T as (p & T). destruct (dense_of_sparse ho m s) as [d'|]; [discriminate|]. eexists; reflexivity.
Qed.

Lemma in_dense order m r : raw_is_dense r = true -> densified_in order m r = Known (q_cells r).
Proof. unfold raw_is_dense, densified_in. destruct (q_cells r); try discriminate; reflexivity. Qed.

(** ** Indices of more than 64 bits *)
Definition fits (s : slot) : Prop := fst s < 2 ^ 32 /\ snd s < 2 ^ (64 * places (fst s)).
Definition named (v : bv) : slot := (width v, uval v).
Definition value_of (s : slot) : bv := bv_of (fst s) (snd s).

Lemma shaped_fits v : well_shaped v -> fits (named v).
Proof. intros W. split; [apply W|]. apply (stores_bound v). now apply shaped_stores. Qed.
Lemma fits_shaped s : fits s -> well_shaped (value_of s) /\ named (value_of s) = s.
Proof.
  destruct s as [w n]. intros (W & B). cbn [fst snd] in *. destruct (stores_bv_of w n W B) as (X & Y & Z).
  split; [exact X|]. unfold named, value_of. cbn [fst snd]. now rewrite Y, Z.
Qed.
Lemma named_value v : well_shaped v -> value_of (named v) = v.
Proof. intros W. symmetry. now apply stores_unique, shaped_stores. Qed.

Definition wholds (a : array) (iw dw b : N) (l : list (slot * slot)) : Prop :=
  64 < iw /\ iw < 2 ^ 32 /\ dw < 2 ^ 32 /\ b < 2 ^ (64 * places dw)
  /\ exists t, a = ASparse (mksparse iw dw (SBigBig (bv_of dw b) t))
     /\ NoDup (map fst t) /\ Forall (fun e => well_shaped (fst e) /\ well_shaped (snd e)) t
     /\ (forall k, well_shaped k -> hm_get bv_eqb t k = option_map value_of (wide_at l (named k)))
     /\ Forall (fun e => fits (fst e) /\ fits (snd e)) l /\ (t = [] <-> l = []).

Definition tholds (a : array) (t : thing) : Prop :=
  match t with Narrow r => rholds a r | Wide iw dw b l => wholds a iw dw b l end.

Lemma tholds_type a t : tholds a t ->
  array_is_dense a = any_is_dense t /\ array_index_width a = any_iw t /\ array_data_width a = any_dw t.
Proof.
  destruct t as [r|iw dw b l]; cbn [tholds any_is_dense any_iw any_dw]; [apply rholds_type|].
  intros (_ & _ & _ & _ & t & -> & _). auto.
Qed.

Lemma told_option {A B C} (R : A -> B -> Prop) (Q : A -> C -> Prop) (f : B -> C) r g : told R r g -> knows g ->
  (forall a b, R a b -> Q a (f b)) ->
  match option_map f (known g) with Some c => exists a, r = Ok a /\ Q a c | None => panics r end.
Proof.
  intros T K H. destruct g as [b| |]; [|exact T|now destruct K]. destruct T as (a & -> & X). cbn [known option_map]. eauto.
Qed.

Lemma created_knows m o : knows (raw_created m o).
Proof.
  destruct o as [iw d|iw d|l|l|l]; cbn [raw_created]; known.
  assert (K := dense_knows m iw (width d) (uval d)). destruct (raw_dense m iw (width d) (uval d)); easy.
Qed.
Lemma packed_none l : forallb negb l = true -> packed l = 0.
Proof. induction l as [|[] l IH]; cbn [forallb negb andb packed]; [reflexivity|discriminate|]. intros H. now rewrite IH. Qed.
Lemma none_true l : forallb negb l = true <-> ~ In true l.
Proof.
  rewrite forallb_forall. split.
  - intros H I. now apply H in I.
  - intros H [] I; [now destruct H|reflexivity].
Qed.

Lemma any_created_ok m o : any_origin o ->
  match any_created m o with Some t => exists a, make m o = Ok a /\ tholds a t | None => panics (make m o) end.
Proof.
  intros T. destruct o as [iw d|iw d|l|l|l]; cbn [any_origin] in T; cbn [any_created].
  - apply told_option with (R := rholds); [|apply created_knows|auto]. now apply created_told.
  - destruct T as (W & I). destruct (N.ltb_spec 64 iw) as [L|L].
    + cbn [make]. unfold array_new_sparse, sparse_new. replace (64 <? iw) with true by lia. rewrite owned_id. cbn [bind].
      eexists. split; [reflexivity|]. destruct (shaped_fits d W) as (B & C). cbn [named fst snd] in B, C.
      do 4 (split; [auto|]). exists []. split; [|repeat split; constructor].
      now rewrite <- (stores_unique _ _ _ (shaped_stores d W)).
    + apply told_option with (R := rholds); [|apply created_knows|auto]. apply created_told. split; [exact W|lia].
  - destruct (N.leb_spec (len l) (2 ^ 31)) as [L|L]; cbn [orb].
    + now apply (created_told m (OfBools l)).
    + cbn [make]. destruct (index_width_ok (len l)) as (U & M). specialize (M 63 ltac:(lia)).
      unfold array_from_bools, dense_from_bools, num_elements_from_index_width. rewrite shl1_ok by lia. cbn [bind].
      rewrite PArrayInterp.log2_up_width in *. set (iw := N.log2_up (len l)) in *.
      assert (K : 32 <= iw).
      { destruct (N.lt_ge_cases iw 32) as [X|X]; [|exact X]. exfalso.
        assert (2 ^ iw <= 2 ^ 31) by (apply pow_le; lia). lia. }
      rewrite (as_u32_pow iw K). destruct (set_bits_nowhere l 0) as (P & Q).
      destruct (forallb negb l) eqn:Z.
      * rewrite (Q (proj1 (none_true l) Z)). cbn [bind]. eexists. split; [reflexivity|].
        rewrite (packed_none l Z). apply rholds_bits; [lia|]. unfold bits, elements. rewrite (N.mod_small iw 64) by lia.
        change (2 ^ iw mod 2 ^ 32) with (as_u32 (2 ^ iw)). rewrite (as_u32_pow iw K).
        apply is_bv_stores. now apply PConv.zero_is_bv.
      * destruct (in_dec Bool.bool_dec true l) as [I|I].
        -- destruct (P I) as (p & ->). eexists; reflexivity.
        -- apply none_true in I. congruence.
  - apply told_option with (R := rholds); [|apply created_knows|auto]. now apply created_told.
  - apply told_option with (R := rholds); [|apply created_knows|auto]. now apply created_told.
Qed.

(** ** Reading and writing *)
Definition looks (probe : probe_oracle) (g : chance) (a : array) (t : thing) (i : bv) : Prop :=
  match t with
  | Narrow _ => True
  | Wide iw dw b l => forall tab, a = ASparse (mksparse iw dw (SBigBig (bv_of dw b) tab)) ->
      probe (map fst tab) i = lookup_fails g l (named i)
  end.

Lemma read_knows m r w i : knows (raw_read m r w i).
Proof. unfold raw_read, position. known. destruct (q_cells r); known; apply number_knows. Qed.
Lemma write_knows m r w i w' x : knows (raw_write m r w i w' x).
Proof. unfold raw_write, position. known. destruct (q_cells r); known. Qed.

Lemma passes_assert m b : debug_assert m b = if passes m b then Ok tt else Panic PDebugAssert.
Proof. destruct m; reflexivity. Qed.

Lemma any_read_ok probe m g a t i : tholds a t -> well_shaped i -> looks probe g a t i ->
  match any_read m g t (width i) (uval i) with
  | Some s => array_select probe m a i = Ok (value_of s)
  | None => panics (array_select probe m a i)
  end.
Proof.
  intros H W Hl. destruct t as [r|iw dw b l]; cbn [any_read tholds] in *.
  - assert (T := read_told probe m a r i _ _ H (shaped_stores i W)). assert (K := read_knows m r (width i) (uval i)).
    destruct (raw_read m r (width i) (uval i)) as [s| |]; [|exact T|now destruct K]. destruct T as (v & -> & V).
    cbn [known]. f_equal. now apply stores_unique.
  - destruct H as (I & I' & D & B & t & -> & U & F & G & Fl & E). specialize (Hl t eq_refl).
    cbn [array_select]. unfold sparse_select. cbn [s_iw s_dw s_data]. rewrite passes_assert.
    destruct (passes m (width i =? iw)); cbn [andb bind]; [|eexists; reflexivity].
    unfold hm_get_borrowed. rewrite Hl. unfold named. destruct (lookup_fails g l (width i, uval i)); cbn [negb bind];
      [eexists; reflexivity|reflexivity].
Qed.

Lemma wide_cons l k s j : wide_at ((k, s) :: l) j = if slot_eqb k j then Some s else wide_at l j.
Proof. unfold wide_at. cbn [find fst snd]. destruct (slot_eqb k j); reflexivity. Qed.

Lemma any_written_ok probe m g a t i x : tholds a t -> well_shaped i -> well_shaped x -> looks probe g a t i ->
  match any_written m g t (width i) (uval i) (width x) (uval x) with
  | Some t' => exists a', array_store probe m a i x = Ok a' /\ tholds a' t'
  | None => panics (array_store probe m a i x)
  end.
Proof.
  intros H W X Hl. destruct t as [r|iw dw b l]; cbn [any_written tholds] in *.
  - apply told_option with (R := wrote_to r); [|apply write_knows|auto].
    apply write_told; auto; now apply shaped_stores.
  - assert (H0 := H). destruct H as (I & I' & D & B & t & -> & U & F & G & Fl & E). specialize (Hl t eq_refl).
    cbn [array_store]. unfold sparse_store. cbn [s_iw s_dw s_data]. rewrite !passes_assert.
    destruct (passes m ((width i =? iw) && (width x =? dw))) eqn:P.
    2:{ destruct m; [|discriminate P]. cbn [passes] in *.
        destruct (width i =? iw); [|eexists; reflexivity]. cbn [andb] in P. rewrite P. eexists; reflexivity. }
    assert (P1 : passes m (width i =? iw) = true) by (destruct m; cbn [passes] in *; lia).
    assert (P2 : passes m (width x =? dw) = true) by (destruct m; cbn [passes] in *; lia).
    rewrite P1, P2. cbn [bind].
    assert (Dm : m = Release \/ width x = dw) by (destruct m; cbn [passes] in *; [right; lia|now left]).
    rewrite (equal_told m x _ _ _ _ _ (shaped_stores x X) (stores_bv_of dw b D B) Dm). cbn [bind].
    destruct (low (width x) dw (uval x) =? low (width x) dw b).
    + unfold hm_remove_borrowed. rewrite Hl. unfold named. destruct (lookup_fails g l (width i, uval i)); cbn [bind];
        [eexists; reflexivity|]. eexists. split; [reflexivity|exact H0].
    + rewrite !owned_id. cbn [bind]. eexists. split; [reflexivity|]. do 4 (split; [auto|]). eexists. split; [reflexivity|].
      split; [|split; [|split; [|split]]].
      * now apply (insert_nodup _ bv_eqb_eq).
      * apply forall_insert; [exact bv_eqb_eq|exact F|now split].
      * intros k Wk. rewrite (get_insert _ bv_eqb_eq). rewrite wide_cons.
        destruct (bv_eqb i k) eqn:Q.
        -- apply bv_eqb_eq in Q. subst k. replace (slot_eqb (width i, uval i) (named i)) with true
             by (symmetry; now apply slot_eqb_eq). cbn [option_map]. f_equal. symmetry. now apply named_value.
        -- replace (slot_eqb (width i, uval i) (named k)) with false; [now apply G|].
           symmetry. apply not_true_iff_false. intros S. apply slot_eqb_eq in S.
           apply not_true_iff_false in Q. apply Q, bv_eqb_eq. rewrite <- (named_value i W), <- (named_value k Wk).
           now f_equal.
      * constructor; [|exact Fl]. split; now apply shaped_fits.
      * split; [|discriminate]. intros Z. destruct t as [|[k0 v0] t]; cbn [hm_insert] in Z; [discriminate Z|].
        destruct (bv_eqb k0 i); discriminate Z.
Qed.

Lemma any_cleared_ok a t : tholds a t -> tholds (array_clear a) (any_cleared t).
Proof.
  destruct t as [r|iw dw b l]; cbn [tholds any_cleared with_cells].
  - apply clear_told.
  - intros (I & I' & D & B & t & -> & _). cbn [array_clear]. unfold sparse_clear. cbn [s_iw s_dw s_data].
    do 3 (split; [auto|]). split; [apply two_pos|]. exists []. rewrite bv_of_zero by auto. repeat split; constructor.
Qed.

(** ** Changing *)
Definition fair (h : hashes) (g : chance) (a : array) (t : thing) (c : change) : Prop :=
  match c with
  | Store i _ => looks (h_probe h) g a t i
  | Clear => True
  | MakeDense => match t with Narrow r => visits (h_order h) (visited g) a r | Wide _ _ _ _ => True end
  end.

Lemma any_changed_ok h m g a t c : proper h -> tholds a t ->
  match c with Store i x => well_shaped i /\ well_shaped x | _ => True end -> fair h g a t c ->
  match any_changed m g t c with
  | Some t' => exists a', apply (h_probe h) (h_order h) m a c = Ok a' /\ tholds a' t'
  | None => panics (apply (h_probe h) (h_order h) m a c)
  end.
Proof.
  intros (_ & Ho & _) H W F. destruct c as [i x| |]; cbn [any_changed apply fair] in *.
  - now apply any_written_ok.
  - eexists. split; [reflexivity|]. now apply any_cleared_ok.
  - destruct t as [r|iw dw b l]; cbn [tholds] in H.
    + apply told_option with (R := wrote_to r); [|apply in_knows|auto]. now apply densify_in.
    + destruct H as (I & I' & D & B & t & -> & _). cbn [array_make_dense]. unfold dense_of_sparse, sparse_default.
      cbn [s_iw s_dw s_data bind]. apply panics_bind.
      destruct (dense_new m iw (bv_of dw b)) as [d|]; [|eexists; reflexivity]. cbn [bind]. rewrite !passes_assert.
      destruct (passes m (dw =? d_dw d)), (passes m (iw =? d_iw d)); eexists; reflexivity.
Qed.

(** ** Comparing *)
Lemma same_wide_iff l l' : same_wide l l' = true <-> forall k, wide_at l k = wide_at l' k.
Proof.
  unfold same_wide. rewrite forallb_forall.
  assert (O : forall a b, option_eqb slot_eqb a b = true <-> a = b).
  { intros [a|] [b|]; cbn [option_eqb]; try easy. rewrite slot_eqb_eq. split; [now intros ->|now intros [= ->]]. }
  assert (Z : forall k (q : list (slot * slot)), ~ In k (map fst q) -> wide_at q k = None).
  { intros k q Q. unfold wide_at. destruct (find _ q) as [e|] eqn:X; [|reflexivity]. exfalso. apply find_some in X as (X & Y).
    apply slot_eqb_eq in Y. apply Q, in_map_iff. eauto. }
  split; intros H.
  - intros k. assert (De : forall a b : slot, {a = b} + {a <> b}) by (intros; repeat decide equality).
    destruct (in_dec De k (map fst l ++ map fst l')) as [I|I]; [now apply O, H|].
    rewrite !Z; auto; intros X; apply I, in_or_app; auto.
  - intros k _. apply O, H.
Qed.

Lemma wide_equal m a b iw dw x l y l' ho : wholds a iw dw x l -> wholds b iw dw y l' ->
  array_is_equal ho m a b = Ok (Some ((x =? y) && same_wide l l')).
Proof.
  intros (I & I' & D & B & t & -> & U & F & G & Fl & _) (_ & _ & _ & B' & t' & -> & U' & F' & G' & Fl' & _).
  cbn [array_is_equal]. unfold sparse_is_equal. cbn [s_iw s_dw s_data]. rewrite !N.eqb_refl. cbn [negb orb].
  assert (S := stores_bv_of dw x D B). assert (S' := stores_bv_of dw y D B').
  rewrite (dirty_eq_owned m _ _ dw _ _ S S'). cbn [bind]. destruct (N.eqb_spec x y) as [_|_]; cbn [andb]; [|reflexivity].
  do 2 f_equal. apply PArrayInterp.bool_eq. rewrite same_wide_iff.
  assert (M := map_eqb_ok bv_eqb bv_eqb_eq bv_eqb t t' bv_eqb_eq U U').
  assert (Ml : (if len t =? len t' then hm_eqb bv_eqb bv_eqb t t' else false) = hm_eqb bv_eqb bv_eqb t t').
  { unfold hm_eqb. now destruct (len t =? len t'). }
  rewrite Ml, M. clear Ml M.
  assert (Wa : forall q k s, Forall (fun e => fits (fst e) /\ fits (snd e)) q -> wide_at q k = Some s -> fits k /\ fits s).
  { intros q k s Q E. unfold wide_at in E. destruct (find _ q) as [e|] eqn:X; [|discriminate E]. injection E as <-.
    apply find_some in X as (X & Y). apply slot_eqb_eq in Y. subst k. rewrite Forall_forall in Q. now apply Q. }
  split; intros H.
  - intros k. assert (Fk : fits k -> wide_at l k = wide_at l' k).
    { intros K. destruct (fits_shaped k K) as (Wk & Nk). specialize (H (value_of k)). rewrite G, G', Nk in H by auto.
      destruct (wide_at l k) as [s|] eqn:E1, (wide_at l' k) as [s'|] eqn:E2; try easy. cbn [option_map] in H.
      destruct (Wa _ _ _ Fl E1) as (_ & K1). destruct (Wa _ _ _ Fl' E2) as (_ & K2).
      apply fits_shaped in K1 as (_ & K1), K2 as (_ & K2). congruence. }
    destruct (wide_at l k) as [s|] eqn:E1.
    + apply Fk. now apply (Wa _ _ _ Fl E1).
    + destruct (wide_at l' k) as [s'|] eqn:E2; [|reflexivity]. apply Fk. now apply (Wa _ _ _ Fl' E2).
  - intros k. assert (Wd : forall q : list (bv * bv), Forall (fun e => well_shaped (fst e) /\ well_shaped (snd e)) q ->
      hm_get bv_eqb q k <> None -> well_shaped k).
    { intros q Q E. destruct (hm_get bv_eqb q k) as [v|] eqn:X; [|easy]. apply (PSparse.get_in _ bv_eqb_eq) in X.
      rewrite Forall_forall in Q. now apply (Q (k, v)). }
    destruct (hm_get bv_eqb t k) as [v|] eqn:E1.
    + assert (Wk : well_shaped k) by (apply (Wd t); [auto|congruence]). rewrite <- E1, G, G', H by auto. reflexivity.
    + destruct (hm_get bv_eqb t' k) as [v|] eqn:E2; [|reflexivity].
      assert (Wk : well_shaped k) by (apply (Wd t'); [auto|congruence]). rewrite <- E1, <- E2, G, G', H by auto. reflexivity.
Qed.

Lemma wide_mixed ho m d s iw dw x l : wholds (ASparse s) iw dw x l -> d_iw d = iw -> d_dw d = dw ->
  panics (is_equal_mixed ho m d s).
Proof.
  intros (I & I' & D & B & t & E & _) Ei Ed. injection E as ->. unfold is_equal_mixed. cbn [s_iw s_dw].
  rewrite Ei, Ed, !N.eqb_refl. cbn [negb orb]. apply panics_bind. unfold dense_of_sparse, sparse_default.
  cbn [s_iw s_dw s_data bind].
  destruct (dense_new m iw (bv_of dw x)) as [d'|]; [|eexists; reflexivity]. cbn [bind]. rewrite !passes_assert.
  destruct (passes m (dw =? d_dw d')), (passes m (iw =? d_iw d')); eexists; reflexivity.
Qed.

Lemma any_differ ho m a b t u : tholds a t -> tholds b u -> (any_iw t =? any_iw u) && (any_dw t =? any_dw u) = false ->
  array_is_equal ho m a b = Ok None.
Proof.
  intros Ha Hb E. destruct (tholds_type _ _ Ha) as (_ & A1 & A2), (tholds_type _ _ Hb) as (_ & B1 & B2).
  assert (X : array_index_width a <> array_index_width b \/ array_data_width a <> array_data_width b) by lia.
  clear - X. destruct a as [sa|da], b as [sb|db]; cbn [array_index_width array_data_width array_is_equal] in *.
  - unfold sparse_is_equal. replace (negb (s_iw sb =? s_iw sa) || negb (s_dw sb =? s_dw sa)) with true by lia. auto.
  - unfold is_equal_mixed. replace (negb (d_iw db =? s_iw sa) || negb (d_dw db =? s_dw sa)) with true by lia. auto.
  - unfold is_equal_mixed. replace (negb (d_iw da =? s_iw sb) || negb (d_dw da =? s_dw sb)) with true by lia. auto.
  - unfold dense_is_equal. replace (negb (d_iw db =? d_iw da) || negb (d_dw db =? d_dw da)) with true by lia. auto.
Qed.

Definition fair_pair (h : hashes) (g : chance) (a b : array) (t u : thing) : Prop :=
  match t, u with
  | Narrow r, Narrow s => raw_is_dense r <> raw_is_dense s ->
      visits (h_order h) (visited g) a r /\ visits (h_order h) (visited g) b s
  | _, _ => True
  end.

Lemma any_compared_ok h m g a b t u : proper h -> tholds a t -> tholds b u -> fair_pair h g a b t u ->
  match any_compared m g t u with
  | Some x => array_is_equal (h_order h) m a b = Ok x
  | None => panics (array_is_equal (h_order h) m a b)
  end.
Proof.
  intros (_ & Ho & _) Ha Hb F. unfold any_compared. destruct ((any_iw t =? any_iw u) && (any_dw t =? any_dw u)) eqn:E.
  2:{ now apply (any_differ _ _ _ _ t u). }
  destruct (tholds_type _ _ Ha) as (Da & Ia & Wa), (tholds_type _ _ Hb) as (Db & Ib & Wb).
  destruct t as [r|iw dw x l], u as [s|iw' dw' y l']; cbn [any_iw any_dw any_is_dense tholds fair_pair] in *.
  - clear Ia Wa Ib Wb. destruct r as [iw dw c], s as [iw' dw' c']. cbn [q_iw q_dw q_cells] in *.
    assert (iw' = iw) by lia. assert (dw' = dw) by lia. subst iw' dw'. rewrite <- Da, <- Db in F. rewrite <- Da, <- Db.
    assert (Fin : forall r0 g0, told eq r0 match g0 with Known b => Known (Some (same_cells iw dw c b)) | _ => Panicking end ->
      match (match g0 with Known b => Some (Some (same_cells iw dw c b)) | _ => None end) with
      | Some x => r0 = Ok x | None => @panics (option bool) r0 end).
    { intros r0 [q| |] T; [destruct T as (z & -> & ->); reflexivity|exact T|exact T]. }
    destruct a as [sa|da], b as [sb|db]; cbn [array_is_dense Bool.eqb array_is_equal] in *.
    + now apply sparse_equal_told.
    + destruct F as (F & _); [discriminate|]. rewrite (in_dense _ m (mkraw iw dw c')) by auto. cbn [q_cells].
      pose proof (mixed_in (h_order h) (visited g) m db sa iw dw c' c Ho F Hb Ha) as T.
      assert (Sym : forall x, same_cells iw dw c' x = same_cells iw dw x c') by (intros; now apply same_cells_sym).
      destruct (densified_in (visited g) m (mkraw iw dw c)) as [q| |]; [|exact T..].
      destruct T as (z & -> & ->). now rewrite Sym.
    + destruct F as (_ & F); [discriminate|]. rewrite (in_dense _ m (mkraw iw dw c)) by auto. cbn [q_cells].
      apply Fin. now apply mixed_in.
    + now apply dense_equal_told.
  - clear Ib Wb. assert (iw' = q_iw r) by lia. assert (dw' = q_dw r) by lia. subst iw' dw'.
    assert (Hb' := Hb). destruct Hb' as (I & _ & _ & _ & t & -> & _).
    destruct a as [sa|da].
    + exfalso. destruct r as [iw dw c]. cbn [q_iw] in *. destruct Ha as (_ & _ & Ha). cbn [q_cells q_iw q_dw] in Ha.
      destruct c; [destruct Ha as (_ & ? & Ha & _); discriminate|destruct Ha as (_ & _ & ? & Ha & _); discriminate
        |destruct Ha as (_ & ? & Ha & _); discriminate|lia|lia].
    + cbn [array_is_equal]. eapply wide_mixed; [exact Hb| |]; cbn [array_index_width array_data_width] in *; congruence.
  - clear Ia Wa. assert (q_iw s = iw) by lia. assert (q_dw s = dw) by lia. subst iw dw.
    assert (Ha' := Ha). destruct Ha' as (I & _ & _ & _ & t & -> & _).
    destruct b as [sb|db].
    + exfalso. destruct s as [iw dw c]. cbn [q_iw] in *. destruct Hb as (_ & _ & Hb). cbn [q_cells q_iw q_dw] in Hb.
      destruct c; [destruct Hb as (_ & ? & Hb & _); discriminate|destruct Hb as (_ & _ & ? & Hb & _); discriminate
        |destruct Hb as (_ & ? & Hb & _); discriminate|lia|lia].
    + cbn [array_is_equal]. eapply wide_mixed; [exact Ha| |]; cbn [array_index_width array_data_width] in *; congruence.
  - clear Ia Wa Ib Wb. assert (iw' = iw) by lia. assert (dw' = dw) by lia. subst iw' dw'. now apply (wide_equal m a b iw dw).
Qed.

(** ** Programs *)
Definition tagree (env : N -> option array) (ref : N -> option thing) : Prop :=
  forall k, match env k, ref k with Some a, Some t => tholds a t | None, None => True | _, _ => False end.
Lemma tagree_update env ref k a t : tagree env ref -> tholds a t -> tagree (update env k a) (update ref k t).
Proof. intros A H j. unfold update. destruct (j =? k); [exact H|apply A]. Qed.
Lemma tagree_keep env ref k a : tagree env ref -> env k = Some a -> tagree (update env k a) ref.
Proof.
  intros A E j. unfold update. destruct (N.eqb_spec j k) as [->|]; [|apply A]. specialize (A k). now rewrite E in A.
Qed.

Definition matching (h : hashes) (g : chance) (env : N -> option array) (ref : N -> option thing) (c : acall) : Prop :=
  match c with
  | Select k i => forall a t, env k = Some a -> ref k = Some t -> looks (h_probe h) g a t i
  | Change k c => forall a t, env k = Some a -> ref k = Some t -> fair h g a t c
  | Compare k j => forall a b t u, env k = Some a -> env j = Some b -> ref k = Some t -> ref j = Some u ->
      fair_pair h g a b t u
  | _ => True
  end.

Lemma de_wide order iw dw b t l : reorders order -> wholds (ASparse (mksparse iw dw (SBigBig b t))) iw dw (uval b) l ->
  exists t', de_sparse_impl (ser_sparse_impl order (SBigBig b t)) = Some (SBigBig b t') /\ Permutation t t'.
Proof.
  intros Or (I & I' & D & B & t' & E & U & F & _). injection E as Eb <-.
  exists (order _ t). split; [|apply Or].
  assert (M : de_map bv_eqb de_bv de_bv (ser_map order ser_bv ser_bv t) = Some (order _ t)).
  { apply (de_map_ok bv_eqb bv_eqb_eq); auto. eapply Forall_impl; [|exact F]. intros e (E1 & E2).
    now rewrite !de_bv_shaped. }
  cbn [ser_sparse_impl de_sparse_impl String.eqb Ascii.eqb Bool.eqb].
  rewrite de_bv_shaped by (rewrite Eb; apply (stores_bv_of dw _ D B)). cbn [obind]. rewrite M. reflexivity.
Qed.

Lemma any_reload order a t : reorders order -> tholds a t ->
  exists a', de_array (ser_array order a) = Some a' /\ tholds a' t.
Proof.
  intros Or H. destruct t as [r|iw dw b l]; cbn [tholds] in *; [now apply reload_told|].
  assert (H0 := H). destruct H as (I & I' & D & B & t & -> & U & F & G & Fl & E).
  assert (X := stores_bv_of dw b D B). destruct (de_wide order iw dw (bv_of dw b) t l Or) as (t' & M & P).
  { destruct X as (_ & _ & ->). exact H0. }
  eexists. split; [apply de_sparse_raw; eauto; lia|]. do 4 (split; [auto|]). exists t'. split; [reflexivity|].
  split; [|split; [|split; [|split]]].
  - eapply Permutation_NoDup; [apply Permutation_map, P|auto].
  - eapply Permutation_Forall; [exact P|auto].
  - intros k Wk. rewrite <- G by auto. symmetry. symmetry. apply (get_perm _ bv_eqb_eq); auto.
  - exact Fl.
  - rewrite <- E. split; intros Z; rewrite Z in P; [now apply Permutation_sym, Permutation_nil in P|now apply Permutation_nil in P].
Qed.

Lemma any_step h g m env ref c : proper h -> tagree env ref -> any_range c -> matching h g env ref c ->
  snd (perform1 (h_probe h) (h_order h) (h_saved h) m env c) = snd (any_predict1 m g ref c)
  /\ tagree (fst (perform1 (h_probe h) (h_order h) (h_saved h) m env c)) (fst (any_predict1 m g ref c)).
Proof.
  intros Hp A T M. destruct c as [k o1|k j|k i|k c|k j|k|k]; cbn [perform1 any_predict1 any_range matching] in *.
  - assert (X := any_created_ok m o1 T). destruct (any_created m o1) as [t|].
    + destruct X as (a & -> & H). split; [reflexivity|]. now apply tagree_update.
    + destruct X as (p & ->). auto.
  - assert (X := A j). destruct (env j) as [a|], (ref j) as [r|]; try easy.
    split; [reflexivity|]. now apply tagree_update.
  - assert (X := A k). destruct (env k) as [a|], (ref k) as [t|]; try easy.
    assert (Y := any_read_ok (h_probe h) m g a t i X T (M _ _ eq_refl eq_refl)).
    destruct (any_read m g t (width i) (uval i)) as [[w n]|].
    + rewrite Y. auto.
    + destruct Y as (p & ->). auto.
  - assert (X := A k). destruct (env k) as [a|] eqn:Ek, (ref k) as [t|]; try easy.
    assert (Y := any_changed_ok h m g a t c Hp X). assert (S := same_change (h_probe h) (h_order h) m a c).
    specialize (M _ _ eq_refl eq_refl). destruct (any_changed m g t c) as [t'|].
    + destruct Y as (a2 & E & H); [destruct c; exact T|exact M|].
      destruct (change_call (h_probe h) (h_order h) m c a) as [a' ?|a' p].
      * rewrite S in E. apply ok_inj in E. subst a2. split; [reflexivity|]. now apply tagree_update.
      * destruct S as (S & _). congruence.
    + destruct Y as (q & Y); [destruct c; exact T|exact M|].
      destruct (change_call (h_probe h) (h_order h) m c a) as [a' ?|a' p].
      * congruence.
      * destruct S as (S & ->). split; [reflexivity|]. now apply tagree_keep.
  - assert (X := A k). assert (Y := A j).
    destruct (env k) as [a|], (ref k) as [t|]; try easy. destruct (env j) as [b|], (ref j) as [u|]; try easy.
    assert (Z := any_compared_ok h m g a b t u Hp X Y (M _ _ _ _ eq_refl eq_refl eq_refl eq_refl)).
    destruct (any_compared m g t u) as [x|].
    + rewrite Z. auto.
    + destruct Z as (p & ->). auto.
  - assert (X := A k). destruct (env k) as [a|], (ref k) as [t|] eqn:Ek; try easy.
    destruct (any_reload (h_saved h) a t (proj2 (proj2 Hp)) X) as (a' & -> & X'). split; [reflexivity|].
    intros j. cbn [fst]. unfold update. destruct (N.eqb_spec j k) as [->|]; [now rewrite Ek|apply A].
  - assert (X := A k). destruct (env k) as [a|], (ref k) as [t|]; try easy. split; [|exact A]. cbn [snd].
    destruct (tholds_type _ _ X) as (-> & -> & ->). reflexivity.
Qed.

(** every behaviour of a table is a chance *)
Lemma looks_some probe a t i : hashing probe -> tholds a t -> well_shaped i -> exists b, forall o, looks probe (mkchance b o) a t i.
Proof.
  intros (P1 & P2) H W. destruct t as [r|iw dw b l]; cbn [tholds] in H; [now exists false|].
  destruct H as (I & I' & D & B & t & -> & U & F & G & Fl & E). exists (probe (map fst t) i). intros o tab Q.
  injection Q as <-. unfold lookup_fails. cbn [met]. destruct l as [|e l].
  - rewrite (proj2 E eq_refl). apply P2.
  - destruct (wide_at (e :: l) (named i)) as [s|] eqn:X; [|reflexivity]. apply P1.
    assert (Y := G i W). rewrite X in Y. apply (PSparse.get_in _ bv_eqb_eq) in Y. apply in_map_iff. eexists (_, _). split; [|exact Y]. reflexivity.
Qed.

Lemma matching_some h env ref c : proper h -> tagree env ref -> any_range c -> exists g, matching h g env ref c.
Proof.
  intros (P & Ho & _) A T. destruct c as [k o1|k j|k i|k c|k j|k|k]; cbn [matching any_range] in *;
    try (exists (mkchance false []); exact Logic.I).
  - assert (X := A k). destruct (env k) as [a|], (ref k) as [t|]; try easy; try (exists (mkchance false []); easy).
    destruct (looks_some (h_probe h) a t i P X T) as (b & H). exists (mkchance b []).
    intros a' t' E E'. injection E as <-. injection E' as <-. apply H.
  - assert (X := A k). destruct (env k) as [a|], (ref k) as [t|]; try easy; try (exists (mkchance false []); easy).
    destruct c as [i x| |]; cbn [fair].
    + destruct (looks_some (h_probe h) a t i P X (proj1 T)) as (b & H). exists (mkchance b []).
      intros a' t' E E'. injection E as <-. injection E' as <-. apply H.
    + now exists (mkchance false []).
    + destruct t as [r|iw dw b l].
      * destruct (visits_some (h_order h) a r Ho X) as (o & H). exists (mkchance false o).
        intros a' t' E E'. injection E as <-. injection E' as <-. exact H.
      * exists (mkchance false []). intros a' t' E E'. injection E as <-. injection E' as <-. exact Logic.I.
  - assert (X := A k). assert (Y := A j).
    destruct (env k) as [a|], (ref k) as [t|]; try easy; try (exists (mkchance false []); easy).
    destruct (env j) as [b|], (ref j) as [u|]; try easy; try (exists (mkchance false []); easy).
    assert (Z : exists g, fair_pair h g a b t u).
    { destruct t as [r|? ? ? ?], u as [s|? ? ? ?]; cbn [fair_pair tholds] in *; try (now exists (mkchance false [])).
      assert (Tr : forall o c, raw_is_dense c = true -> forall z, visits (h_order h) o z c).
      { intros o c E z. unfold raw_is_dense, visits in *. destruct z, (q_cells c); easy. }
      destruct (raw_is_dense r) eqn:Er, (raw_is_dense s) eqn:Es; try (now exists (mkchance false [])).
      - destruct (visits_some (h_order h) b s Ho Y) as (o & H). exists (mkchance false o). intros _. split; [now apply Tr|exact H].
      - destruct (visits_some (h_order h) a r Ho X) as (o & H). exists (mkchance false o). intros _. split; [exact H|now apply Tr]. }
    destruct Z as (g & Z). exists g. intros a' b' t' u' E1 E2 E3 E4. injection E1 as <-. injection E2 as <-. injection E3 as <-. injection E4 as <-. exact Z.
Qed.

(** every chance is the behaviour of some table *)
Definition probe_as (b : bool) : probe_oracle :=
  fun keys k => match keys with [] => false | _ => existsb (bv_eqb k) keys || b end.
Lemma probe_as_hashing b : hashing (probe_as b).
Proof.
  split; [|reflexivity]. intros [|k0 keys] k H; [destruct H|]. unfold probe_as. apply orb_true_iff. left.
  apply existsb_exists. exists k. split; [auto|]. now apply bv_eqb_eq.
Qed.

Lemma looks_all a t i g : tholds a t -> well_shaped i -> looks (probe_as (met g)) g a t i.
Proof.
  intros H W. destruct t as [r|iw dw b l]; cbn [tholds] in H; [exact Logic.I|].
  destruct H as (I & I' & D & B & t & -> & U & F & G & Fl & E). intros tab Q. injection Q as <-.
  assert (Y := G i W). unfold lookup_fails, probe_as. destruct t as [|e t].
  - now rewrite (proj1 E eq_refl).
  - destruct l as [|e' l]; [now discriminate (proj2 E eq_refl)|]. cbn [map]. change (fst e :: map fst t) with (map fst (e :: t)).
    destruct (wide_at (e' :: l) (named i)) as [s|] eqn:X.
    + apply orb_true_iff. left. apply existsb_exists. exists i. split; [|now apply bv_eqb_eq].
      apply (PSparse.get_in _ bv_eqb_eq) in Y. apply in_map_iff. eexists (_, _). split; [|exact Y]. reflexivity.
    + cbn [option_map] in Y. apply (get_none _ bv_eqb_eq) in Y.
      replace (existsb (bv_eqb i) (map fst (e :: t))) with false; [reflexivity|]. symmetry. apply not_true_iff_false.
      intros Z. apply existsb_exists in Z as (k & Z & Q). apply bv_eqb_eq in Q. now subst k.
Qed.

Lemma matching_all g env ref c : tagree env ref -> any_range c -> exists h, proper h /\ matching h g env ref c.
Proof.
  intros A T. set (h0 := fun ho => mkhashes (probe_as (met g)) ho (fun _ l => l)).
  assert (P0 : forall ho, reorders ho -> proper (h0 ho)).
  { intros ho R. split; [apply probe_as_hashing|]. split; [exact R|exact id_reorders]. }
  destruct c as [k o1|k j|k i|k c|k j|k|k]; cbn [matching any_range] in *;
    try (exists (h0 (fun _ l => l)); split; [apply P0, id_reorders|exact Logic.I]).
  - exists (h0 (fun _ l => l)). split; [apply P0, id_reorders|]. intros a t E E'. specialize (A k). rewrite E, E' in A.
    now apply looks_all.
  - assert (X := A k). destruct (env k) as [a|], (ref k) as [t|];
      try (exists (h0 (fun _ l => l)); split; [apply P0, id_reorders|easy]).
    destruct c as [i x| |]; cbn [fair].
    + exists (h0 (fun _ l => l)). split; [apply P0, id_reorders|].
      intros a' t' E E'. injection E as <-. injection E' as <-. now apply looks_all.
    + exists (h0 (fun _ l => l)). split; [apply P0, id_reorders|easy].
    + destruct t as [r|iw dw b l].
      * destruct (visits_all (visited g) a r X) as (o & R & H). exists (h0 o). split; [now apply P0|].
        intros a' t' E E'. injection E as <-. injection E' as <-. exact H.
      * exists (h0 (fun _ l => l)). split; [apply P0, id_reorders|].
        intros a' t' E E'. injection E as <-. injection E' as <-. exact Logic.I.
  - assert (X := A k). assert (Y := A j).
    destruct (env k) as [a|], (ref k) as [t|]; try easy; try (exists (h0 (fun _ l => l)); split; [apply P0, id_reorders|easy]).
    destruct (env j) as [b|], (ref j) as [u|]; try easy; try (exists (h0 (fun _ l => l)); split; [apply P0, id_reorders|easy]).
    assert (Z : exists ho, reorders ho /\ fair_pair (h0 ho) g a b t u).
    { destruct t as [r|? ? ? ?], u as [s|? ? ? ?]; cbn [fair_pair tholds] in *;
        try (exists (fun _ l => l); split; [exact id_reorders|exact Logic.I]).
      assert (Tr : forall ho c, raw_is_dense c = true -> forall z, visits ho (visited g) z c).
      { intros ho c E z. unfold raw_is_dense, visits in *. destruct z, (q_cells c); easy. }
      destruct (raw_is_dense r) eqn:Er, (raw_is_dense s) eqn:Es;
        try (exists (fun _ l => l); split; [exact id_reorders|now intros []]).
      - destruct (visits_all (visited g) b s Y) as (o & R & H). exists o. split; [exact R|]. intros _. split; [now apply Tr|exact H].
      - destruct (visits_all (visited g) a r X) as (o & R & H). exists o. split; [exact R|]. intros _. split; [exact H|now apply Tr]. }
    destruct Z as (ho & R & Z). exists (h0 ho). split; [now apply P0|]. intros a' b' t' u' E1 E2 E3 E4. injection E1 as <-. injection E2 as <-. injection E3 as <-. injection E4 as <-. exact Z.
Qed.

Lemma any_sound m : forall cs hs env ref, (forall n, proper (hs n)) -> tagree env ref -> Forall any_range cs ->
  exists gs, perform_each m env hs cs = any_predict_from m ref gs cs.
Proof.
  induction cs as [|c cs IH]; intros hs env ref P A T.
  - now exists (fun _ => mkchance false []).
  - inversion_clear T as [|? ? T1 T2]. destruct (matching_some (hs O) env ref c (P O) A T1) as (g & M).
    destruct (any_step (hs O) g m env ref c (P O) A T1 M) as (Eo & A').
    destruct (IH (fun n => hs (S n)) _ _ (fun n => P (S n)) A' T2) as (gs & E).
    exists (fun n => match n with O => g | S n => gs n end). cbn [perform_each any_predict_from].
    destruct (perform1 (h_probe (hs O)) (h_order (hs O)) (h_saved (hs O)) m env c) as [e1 o1].
    destruct (any_predict1 m g ref c) as [r1 o2]. cbn [fst snd] in *. rewrite Eo. f_equal. exact E.
Qed.

Lemma any_complete m : forall cs gs env ref, tagree env ref -> Forall any_range cs ->
  exists hs, (forall n, proper (hs n)) /\ perform_each m env hs cs = any_predict_from m ref gs cs.
Proof.
  induction cs as [|c cs IH]; intros gs env ref A T.
  - exists (fun _ => mkhashes (probe_as false) (fun _ l => l) (fun _ l => l)). split; [|reflexivity]. intros _.
    split; [apply probe_as_hashing|]. split; exact id_reorders.
  - inversion_clear T as [|? ? T1 T2]. destruct (matching_all (gs O) env ref c A T1) as (h & P & M).
    destruct (any_step h (gs O) m env ref c P A T1 M) as (Eo & A').
    destruct (IH (fun n => gs (S n)) _ _ A' T2) as (hs & Ps & E).
    exists (fun n => match n with O => h | S n => hs n end). split; [intros [|n]; auto|].
    cbn [perform_each any_predict_from].
    destruct (perform1 (h_probe h) (h_order h) (h_saved h) m env c) as [e1 o1].
    destruct (any_predict1 m (gs O) ref c) as [r1 o2]. cbn [fst snd] in *. rewrite Eo. f_equal. exact E.
Qed.

Lemma empty_agree : tagree (fun _ => None) (fun _ => None).
Proof. intros k. exact Logic.I. Qed.

Lemma chance_behaviours m cs os : Forall any_range cs ->
  (exists hs, (forall n, proper (hs n)) /\ perform_each m (fun _ => None) hs cs = os)
  <-> (exists gs, any_predict m gs cs = os).
Proof.
  intros T. split.
  - intros (hs & P & <-). destruct (any_sound m cs hs _ _ P empty_agree T) as (gs & E). exists gs. now symmetry.
  - intros (gs & <-). destruct (any_complete m cs gs _ _ empty_agree T) as (hs & P & E). eauto.
Qed.

Lemma perform_same probe ho order m : forall cs env,
  perform_each m env (fun _ => mkhashes probe ho order) cs = perform_from probe ho order m env cs.
Proof.
  induction cs as [|c cs IH]; intros env; [reflexivity|]. cbn [perform_each perform_from h_probe h_order h_saved].
  destruct (perform1 probe ho order m env c) as [e o]. now rewrite IH.
Qed.
Lemma chance_sound probe ho order m cs : hashing probe -> reorders ho -> reorders order -> Forall any_range cs ->
  exists gs, perform probe ho order m cs = any_predict m gs cs.
Proof.
  intros P R R' T. destruct (any_sound m cs (fun _ => mkhashes probe ho order) _ _ (fun _ => conj P (conj R R')) empty_agree T)
    as (gs & E). exists gs. rewrite perform_same in E. exact E.
Qed.

(** ** Where the interpreter of C87 knows the result, chance plays no role *)
Lemma raw_any c : raw_range c -> any_range c.
Proof.
  destruct c as [k o|k j|k i|k c|k j|k|k]; cbn [raw_range any_range]; auto.
  destruct o; cbn [raw_origin any_origin]; auto; try lia.
  intros (W & I). split; [exact W|lia].
Qed.

Lemma raw_each m : forall cs env ref hs os, (forall n, proper (hs n)) -> agree env ref -> Forall raw_range cs ->
  raw_predict_from m ref cs = Some os -> perform_each m env hs cs = os.
Proof.
  induction cs as [|c cs IH]; intros env ref hs os P A T E; cbn [perform_each raw_predict_from] in *; [congruence|].
  inversion_clear T as [|? ? T1 T2]. destruct (raw_predict1 m ref c) as [[ref' o]|] eqn:E1; [|discriminate E].
  destruct (P O) as (_ & Ho & Or).
  destruct (raw_step (h_probe (hs O)) _ _ m env ref c ref' o Ho Or A T1 E1) as (Eo & A').
  destruct (perform1 (h_probe (hs O)) (h_order (hs O)) (h_saved (hs O)) m env c) as [e1 o1]. cbn [fst snd] in *.
  destruct (raw_predict_from m ref' cs) as [l|] eqn:E2; [|discriminate E].
  injection E as <-. rewrite Eo. f_equal. now apply (IH _ ref').
Qed.

Lemma chance_irrelevant m cs os : Forall raw_range cs -> raw_predict m cs = Some os ->
  forall gs, any_predict m gs cs = os.
Proof.
  intros T E gs. unfold any_predict. assert (T' : Forall any_range cs) by (eapply Forall_impl; [exact raw_any|exact T]).
  destruct (any_complete m cs gs _ _ empty_agree T') as (hs & P & <-).
  eapply raw_each; [exact P| |exact T|exact E]. intros k. exact Logic.I.
Qed.

Lemma chance_low m cs gs gs' : Forall raw_range cs -> Forall low_call cs -> any_predict m gs cs = any_predict m gs' cs.
Proof.
  intros T L. destruct (raw_predict_known m cs T L) as (os & E). now rewrite !(chance_irrelevant m cs os T E).
Qed.

(** ** An example *)
Lemma chance_example :
  let k n := bv_of 100 (2 ^ 90 + n) in
  let cs := [New 0 (NewSparse 100 (bv_of 8 7)); Change 0 (Store (k 1) (bv_of 8 9)); Copy 1 0;
             Select 0 (k 2); Select 0 (k 1); Change 0 (Store (k 2) (bv_of 8 7)); Change 0 (Store (k 1) (bv_of 8 7));
             Compare 0 1; Change 1 (Store (k 3) (bv_of 8 7)); Change 1 (Store (k 3) (bv_of 8 0)); Compare 1 0; Reload 1;
             Change 1 MakeDense; Change 1 Clear; Select 1 (k 1);
             New 2 (NewSparse 5 (bv_of 1 0)); Change 2 (Store (bv_of 5 7) (bv_of 1 1));
             Change 2 (Store (bv_of 50 (2 ^ 32 + 7)) (bv_of 1 3)); Copy 3 2; Change 2 MakeDense; Select 2 (bv_of 5 7);
             Compare 2 3; New 4 (NewSparse 64 (bv_of 65 1)); Change 4 (Store (bv_of 64 0) (bv_of 65 10));
             Change 4 (Store (bv_of 64 (2 ^ 63)) (bv_of 65 20)); Change 4 MakeDense; Select 4 (bv_of 64 0)] in
  Forall any_range cs
  /\ any_predict Release (fun _ => mkchance false [7; 2 ^ 32 + 7; 0; 2 ^ 63]) cs
     = [Done; Done; Done; Saw (bv_of 8 7); Panicked; Done; Panicked;
        Answered (Some true); Done; Done; Answered (Some false); Done;
        Panicked; Done; Saw (bv_of 8 0);
        Done; Done; Done; Done; Done; Saw (bv_of 1 0);
        Answered (Some true); Done; Done; Done; Done; Saw (bv_of 65 20)]
  /\ any_predict Release (fun _ => mkchance true [2 ^ 63; 0; 2 ^ 32 + 7; 7]) cs
     = [Done; Done; Done; Panicked; Panicked; Panicked; Panicked;
        Answered (Some true); Panicked; Done; Answered (Some false); Done;
        Panicked; Done; Saw (bv_of 8 0);
        Done; Done; Done; Done; Done; Saw (bv_of 1 1);
        Answered (Some true); Done; Done; Done; Done; Saw (bv_of 65 10)]
  /\ perform some_probe (fun _ l => l) (fun _ l => l) Release cs
     = any_predict Release (fun _ => mkchance false [7; 2 ^ 32 + 7; 0; 2 ^ 63]) cs
  /\ raw_predict Release (skipn 15 cs) = None.
Proof.
  cbv zeta. match goal with |- Forall _ ?l /\ _ => assert (T : Forall any_range l) end.
  { repeat (apply Forall_cons || apply Forall_nil); cbn [any_range any_origin]; try exact Logic.I;
      unfold well_shaped, bv_of; cbn -[N.pow]; repeat split; repeat constructor; vm_compute; congruence. }
  split; [exact T|]. repeat split; vm_compute; reflexivity.
Qed.
