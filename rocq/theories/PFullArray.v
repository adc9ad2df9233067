(** * PFullArray: array programs with every public operation (C93). *)

From Coq Require Import String ZifyBool ZifyNat ZifyN Permutation.
From Verif Require Import Base Arith Map Bv Array Serde Unwind Spec CallSpec ArraySpec DirtySpec MixedSpec KindSpec
  UnwindSpec ArrayInterpSpec RawArraySpec ChanceSpec FullArraySpec.
From Verif Require BvInterpSpec.
Import BvInterpSpec(slot).
From Verif Require Import PWords PShift PropsArith PDirty PDense PSparse PArrays PSerde PReject PUnwind PConvert PMixedAny PRawArray
  PRawInterp PChance.
From Verif Require PConv.
Ltac Zify.zify_post_hook ::= idtac.
Open Scope list_scope.
Open Scope N_scope.

(** ** The most frequent element *)
Lemma times_occ l x : times l x = occ l x.
Proof.
  unfold times, occ. f_equal. apply filter_ext. intros y. apply N.eqb_sym.
Qed.
Lemma occ_out l x : ~ In x l -> occ l x = 0.
Proof. intros H. rewrite occ_pos in H. lia. Qed.
Lemma common_iff l x : most_common l x = true <-> forall y, occ l y <= occ l x.
Proof.
  unfold most_common. rewrite forallb_forall. split.
  - intros H y. destruct (in_dec N.eq_dec y l) as [I|I].
    + apply H in I. rewrite !times_occ in I. lia.
    + rewrite (occ_out l y I). lia.
  - intros H y _. rewrite !times_occ. specialize (H y). lia.
Qed.
Lemma in_existsb l x : existsb (N.eqb x) l = true <-> In x l.
Proof.
  rewrite existsb_exists. split.
  - intros (y & H & E). apply N.eqb_eq in E. now subst.
  - intros H. exists x. split; [exact H|apply N.eqb_refl].
Qed.

(** there is one *)
Lemma common_some l : l <> [] -> exists x, In x l /\ most_common l x = true.
Proof.
  intros H. destruct (max_by_key_ok (occ l) l H) as (x & _ & I & M). exists x. split; [exact I|].
  apply common_iff. intros y. destruct (in_dec N.eq_dec y l) as [J|J]; [now apply M|]. rewrite (occ_out l y J). lia.
Qed.
Lemma favoured_ok x l : l <> [] -> In (favoured x l) l /\ forall y, occ l y <= occ l (favoured x l).
Proof.
  intros H. unfold favoured. destruct (existsb (N.eqb x) l && most_common l x) eqn:E.
  - apply andb_true_iff in E as (E1 & E2). split; [now apply in_existsb|now apply common_iff].
  - destruct (find (most_common l) l) as [y|] eqn:F.
    + apply find_some in F as (F1 & F2). split; [exact F1|now apply common_iff].
    + destruct (common_some l H) as (y & Y1 & Y2). assert (Z := find_none _ _ F y Y1). congruence.
Qed.
Lemma favoured_self x l : In x l -> (forall y, occ l y <= occ l x) -> favoured x l = x.
Proof.
  intros I M. unfold favoured. rewrite (proj2 (in_existsb l x) I), (proj2 (common_iff l x) M). reflexivity.
Qed.

(** what is counted *)
Definition tells (count : list (N * N)) (different : list N) : Prop :=
  NoDup different /\ forall x, In x different <-> In x (map fst count).
Lemma tells_len count different : NoDup (map fst count) -> tells count different -> len different = len count.
Proof.
  intros U (U' & H). unfold len. f_equal. rewrite <- (map_length fst count). apply Nat.le_antisymm; apply NoDup_incl_length; auto;
    intros x X; now apply H.
Qed.
Lemma tells_bump count different x : tells count different ->
  tells (hm_bump N.eqb count x) (if existsb (N.eqb x) different then different else x :: different).
Proof.
  intros (U & H). unfold hm_bump. destruct (existsb (N.eqb x) different) eqn:E.
  - apply in_existsb in E. split; [exact U|]. intros y. rewrite H, keys_insert by exact N_eqb_eq. apply H in E.
    split; [now right|]. intros [->|Y]; auto.
  - assert (~ In x different) by (rewrite <- in_existsb; congruence). split; [now constructor|].
    intros y. rewrite keys_insert by exact N_eqb_eq. rewrite <- H. cbn [In]. intuition.
Qed.

Lemma counted_ok : forall data count different l, entries_of count l -> tells count different ->
  entries_of (count_u64 data count) (l ++ counted different data).
Proof.
  induction data as [|x t IH]; intros count different l E T; cbn [count_u64 counted].
  - now rewrite app_nil_r.
  - assert (E1 := entries_bump count l x E). assert (T1 := tells_bump count different x T).
    set (d := if existsb (N.eqb x) different then different else x :: different) in *.
    rewrite (tells_len _ d (proj1 E1) T1). change MAX_HASH_TABLE_SIZE with (2 ^ 20).
    destruct (2 ^ 20 <? len (hm_bump N.eqb count x)); [exact E1|].
    replace (l ++ x :: counted d t) with ((l ++ [x]) ++ counted d t) by now rewrite <- app_assoc.
    now apply IH.
Qed.
Lemma counted_from data : entries_of (count_u64 data []) (counted [] data).
Proof. apply (counted_ok data [] [] [] entries_nil). split; [constructor|]. intros x. reflexivity. Qed.
Lemma counted_some data : data <> [] -> counted [] data <> [].
Proof. destruct data; [congruence|]. intros _. cbn [counted]. discriminate. Qed.
Lemma counted_in : forall data d x, In x (counted d data) -> In x data.
Proof.
  induction data as [|y t IH]; intros d x H; cbn [counted] in H; [destruct H|].
  destruct H as [->|H]; [now left|right]. destruct (2 ^ 20 <? _); [destruct H|]. now apply IH in H.
Qed.

(** the entry visited last among those with the greatest count *)
Lemma max_last {A} (key : A -> N) l b : (forall x, In x l -> key x <= key b) -> max_by_key key (l ++ [b]) = Some b.
Proof.
  intros H. assert (X : forall l best, key best <= key b -> (forall x, In x l -> key x <= key b) ->
    max_by_key_from key best (l ++ [b]) = b).
  { clear. induction l as [|x t IH]; intros best B H; cbn [app max_by_key_from].
    - now replace (key best <=? key b) with true by lia.
    - apply IH; [|intros y Y; apply H; now right]. destruct (key best <=? key x); [apply H; now left|exact B]. }
  destruct l as [|x t]; cbn [app max_by_key]; [reflexivity|]. f_equal. apply X; [apply H; now left|]. intros y Y. apply H. now right.
Qed.
Lemma put_last {A} (l : list A) b : In b l -> exists l', Permutation l (l' ++ [b]).
Proof.
  intros H. apply in_split in H as (l1 & l2 & ->). exists (l1 ++ l2). rewrite <- app_assoc. apply Permutation_app_head.
  apply Permutation_cons_append.
Qed.

(** every favourite is the choice of some order, and the other way round *)
Lemma some_favourite count l count' : entries_of count l -> l <> [] -> Permutation count count' ->
  exists x c, max_by_key (@snd N N) count' = Some (x, c) /\ favoured x l = x.
Proof.
  intros E L P. destruct (entries_max count l count' E L P) as (x & c & M & I & H).
  exists x, c. split; [exact M|]. now apply favoured_self.
Qed.
Lemma all_favourites count l x : entries_of count l -> l <> [] ->
  exists count' c, Permutation count count' /\ max_by_key (@snd N N) count' = Some (favoured x l, c).
Proof.
  intros E L. destruct (favoured_ok x l L) as (I & M). set (y := favoured x l) in *. assert (E' := E). destruct E as (U & G & P).
  assert (K := proj2 (entries_keys count l y E') I). apply in_map_iff in K as ((y' & c) & Ey & K). cbn [fst] in Ey. subst y'.
  destruct (put_last count (y, c) K) as (l' & Q). exists (l' ++ [(y, c)]), c. split; [exact Q|]. apply max_last.
  intros (z & d) Z. cbn [snd].
  assert (Z' : In (z, d) count) by (apply (Permutation_in _ (Permutation_sym Q)), in_or_app; now left).
  specialize (M z). rewrite <- !G in M. rewrite (PSparse.in_get _ N_eqb_eq _ _ _ U Z'), (PSparse.in_get _ N_eqb_eq _ _ _ U K) in M.
  exact M.
Qed.

(** ** Copying the other elements *)
Definition pstep (m : mode) (dw x0 : N) (out : sparse) (kv : N * N) : res sparse :=
  let (i, y) := kv in
  if y =? x0 then Ok out
  else if dw <=? 64 then sparse_store_u64_u64 out i y else sparse_store_u64_big m out i (bv_of dw y).

Lemma fill_small m iw dw b x0 : dw <= 64 -> forall l out w, Forall (fun e => fst e < 2 ^ 64 /\ snd e < 2 ^ 64) l ->
  rholds (ASparse out) (mkraw iw dw (RSmall b w)) ->
  exists out', foldM (pstep m dw x0) l out = Ok out'
    /\ rholds (ASparse out') (mkraw iw dw (RSmall b
         (rev (flat_map (fun e => if snd e =? x0 then [] else [(fst e, if snd e =? b then None else Some (snd e))]) l) ++ w))).
Proof.
  intros D. induction l as [|[i y] l IH]; intros out w F H; cbn [foldM flat_map rev app].
  - eauto.
  - inversion_clear F as [|? ? (F1 & F2) F3]. cbn [fst snd pstep] in *. rewrite rev_app_distr, <- app_assoc.
    destruct (y =? x0).
    + cbn [bind rev app]. now apply IH.
    + replace (dw <=? 64) with true by lia.
      destruct H as (Hi & Hd & H). cbn [q_iw q_dw q_cells] in *. destruct H as (I & _ & B & t & E & U & G & F). injection E as ->.
      unfold sparse_store_u64_u64. cbn [s_data s_iw s_dw bind]. apply IH; [exact F3|]. cbn [rev app].
      unfold rholds. cbn [q_iw q_dw q_cells]. repeat split; auto. eexists; split; [reflexivity|].
      split; [destruct (y =? b); [now apply remove_nodup|apply insert_nodup; auto using N_eqb_eq]|]. split.
      * intros j. rewrite entry_cons, <- G. destruct (y =? b); [apply get_remove; auto; apply N_eqb_eq|apply get_insert, N_eqb_eq].
      * destruct (y =? b); [now apply forall_remove|]. apply forall_insert; auto. apply N_eqb_eq.
Qed.

Lemma fill_big m iw dw b : 64 < dw -> forall l out w,
  Forall (fun e => fst e < 2 ^ 64 /\ snd e < 2 ^ (64 * places dw)) l ->
  rholds (ASparse out) (mkraw iw dw (RBig b w)) ->
  exists out', foldM (pstep m dw b) l out = Ok out'
    /\ rholds (ASparse out') (mkraw iw dw (RBig b
         (rev (flat_map (fun e => if snd e =? b then [] else [(fst e, if snd e =? b then None else Some (dw, snd e))]) l) ++ w))).
Proof.
  intros D. induction l as [|[i y] l IH]; intros out w F H; cbn [foldM flat_map rev app].
  - eauto.
  - inversion_clear F as [|? ? (F1 & F2) F3]. cbn [fst snd pstep] in *. rewrite rev_app_distr, <- app_assoc.
    destruct (y =? b) eqn:Y.
    + cbn [bind rev app]. now apply IH.
    + replace (dw <=? 64) with false by lia.
      destruct H as (Hi & Hd & H). cbn [q_iw q_dw q_cells] in *. destruct H as (I & _ & B & t & E & U & G & F). injection E as ->.
      unfold sparse_store_u64_big. cbn [s_data s_iw s_dw].
      rewrite (equal_told m (bv_of dw y) dw y (bv_of dw b) dw b (stores_bv_of dw y Hd F2) (stores_bv_of dw b Hd B)) by auto.
      unfold low, common. rewrite N.min_id.
      replace (y mod 2 ^ (64 * places dw) =? b mod 2 ^ (64 * places dw)) with false by (rewrite !N.mod_small by assumption; now rewrite Y).
      cbn [bind]. rewrite owned_id. apply IH; [exact F3|]. cbn [rev app].
      unfold rholds. cbn [q_iw q_dw q_cells]. repeat split; auto. eexists; split; [reflexivity|].
      split; [apply insert_nodup; auto using N_eqb_eq|]. split.
      * intros j. rewrite entry_cons, get_insert, G; auto using N_eqb_eq. destruct (i =? j); reflexivity.
      * intros j s. rewrite entry_cons. destruct (N.eqb_spec i j) as [->|J]; [|apply F]. intros Q. injection Q as <-. auto.
Qed.

Lemma fill_wide m dw x0 out b t : s_data out = SBigBig b t -> forall l,
  if forallb (fun e => x0 =? snd e) l then foldM (pstep m dw x0) l out = Ok out else panics (foldM (pstep m dw x0) l out).
Proof.
  intros E. induction l as [|[i y] l IH]; cbn [foldM forallb snd]; [reflexivity|]. cbn [pstep]. rewrite (N.eqb_sym x0 y).
  destruct (y =? x0); cbn [andb bind]; [exact IH|]. apply panics_bind.
  destruct (dw <=? 64); [unfold sparse_store_u64_u64|unfold sparse_store_u64_big]; rewrite E; eexists; reflexivity.
Qed.

Lemma enumerate_as (l : list N) : enumerate l = combine (map N.of_nat (seq 0 (length l))) l.
Proof. unfold enumerate, indices, len. now rewrite Nat2N.id. Qed.
Lemma enumerate_below (P : N -> Prop) (l : list N) : len l <= 2 ^ 64 -> Forall P l -> Forall (fun e => fst e < 2 ^ 64 /\ P (snd e)) (enumerate l).
Proof.
  intros L F. rewrite enumerate_map. apply Forall_forall. intros e H. apply in_map_iff in H as (i & <- & H). apply in_iota in H.
  cbn [fst snd]. split; [lia|]. rewrite Forall_forall in F. apply F, nth_In. unfold len in *. lia.
Qed.
Lemma forallb_enumerate x0 l : forallb (fun e => x0 =? snd e) (enumerate l) = forallb (N.eqb x0) l.
Proof.
  rewrite enumerate_map. transitivity (forallb (N.eqb x0) (map (fun i => nth (N.to_nat i) l 0) (iota 0 (len l)))); [|now rewrite map_nth_iota].
  generalize (iota 0 (len l)).
  intros k. induction k as [|a k IH]; cbn [map forallb snd]; [reflexivity|]. now rewrite IH.
Qed.

Lemma filled m iw dw v x0 base l : iw < 2 ^ 32 -> stores v dw base -> len l <= 2 ^ 64 ->
  (dw <= 64 -> base < 2 ^ 64 /\ Forall (fun y => y < 2 ^ 64) l) ->
  (64 < dw -> base = x0 /\ Forall (fun y => y < 2 ^ (64 * places dw)) l) ->
  match (if iw <=? 64 then
           Some (Narrow (mkraw iw dw (if dw <=? 64 then RSmall base (others (fun y => y) x0 base l)
                                      else RBig base (others (fun y => (dw, y)) x0 base l))))
         else if forallb (N.eqb x0) l then Some (Wide iw dw base []) else None) with
  | Some t => exists s, (let* out := sparse_new m iw v in foldM (pstep m dw x0) (enumerate l) out) = Ok s /\ tholds (ASparse s) t
  | None => panics (let* out := sparse_new m iw v in foldM (pstep m dw x0) (enumerate l) out)
  end.
Proof.
  intros I S L Hs Hb. assert (C := any_created_ok m (NewSparse iw v)). cbn [any_origin any_created make] in C.
  assert (Wv : well_shaped v) by apply S. assert (Ew : width v = dw) by apply S. assert (En : uval v = base) by apply S.
  specialize (C (conj Wv I)). rewrite Ew, En in C. unfold array_new_sparse in C. unfold others. rewrite <- enumerate_as.
  destruct (N.leb_spec iw 64) as [Q|Q].
  - replace (64 <? iw) with false in C by lia. cbn [raw_created known option_map] in C. rewrite Ew, En in C.
    destruct C as (a & E & T). destruct (sparse_new m iw v) as [out|]; [|discriminate E]. cbn [bind] in *. injection E as <-.
    destruct (N.leb_spec dw 64) as [D|D]; cbn [tholds] in *.
    + destruct (Hs D) as (_ & F). destruct (fill_small m iw dw base x0 D (enumerate l) out [] (enumerate_below _ l L F) T) as (o & -> & X).
      rewrite app_nil_r in X. eauto.
    + destruct (Hb D) as (-> & F). destruct (fill_big m iw dw x0 D (enumerate l) out [] (enumerate_below _ l L F) T) as (o & -> & X).
      rewrite app_nil_r in X. eauto.
  - replace (64 <? iw) with true in C by lia.
    destruct C as (a & E & T). destruct (sparse_new m iw v) as [out|]; [|discriminate E]. cbn [bind] in *. injection E as <-.
    cbn [tholds] in *. assert (T' := T). destruct T as (_ & _ & _ & _ & t & X & _). injection X as ->.
    assert (Y := fill_wide m dw x0 (mksparse iw dw (SBigBig (bv_of dw base) t)) _ t eq_refl (enumerate l)).
    rewrite forallb_enumerate in Y. destruct (forallb (N.eqb x0) l); [|exact Y]. eauto.
Qed.

(** ** Elements of more than 64 bits *)
Definition keyed (dw : N) (e : N * N) : bv * N := (bv_of dw (fst e), snd e).

Section Keyed.
  Context (dw : N) (D : dw < 2 ^ 32).
  Local Notation below := (fun x => x < 2 ^ (64 * places dw)).

  Lemma keyed_eqb x y : below x -> below y -> bv_eqb (bv_of dw x) (bv_of dw y) = (x =? y).
  Proof using D.
    intros X Y. destruct (N.eqb_spec x y) as [->|E]; [now apply bv_eqb_eq|]. apply not_true_iff_false. intros Z.
    apply bv_eqb_eq in Z. apply E. destruct (stores_bv_of dw x D X) as (_ & _ & <-), (stores_bv_of dw y D Y) as (_ & _ & <-).
    now rewrite Z.
  Qed.
  Lemma keyed_get x : below x -> forall c, Forall (fun e => below (fst e)) c ->
    hm_get bv_eqb (map (keyed dw) c) (bv_of dw x) = hm_get N.eqb c x.
  Proof using D.
    intros X. induction c as [|[k v] c IH]; intros F; cbn [map keyed hm_get fst snd]; [reflexivity|].
    inversion_clear F as [|? ? F1 F2]. cbn [fst] in F1. rewrite keyed_eqb by assumption. now rewrite IH.
  Qed.
  Lemma keyed_insert x v : below x -> forall c, Forall (fun e => below (fst e)) c ->
    hm_insert bv_eqb (map (keyed dw) c) (bv_of dw x) v = map (keyed dw) (hm_insert N.eqb c x v).
  Proof using D.
    intros X. induction c as [|[k y] c IH]; intros F; cbn [map keyed hm_insert fst snd]; [reflexivity|].
    inversion_clear F as [|? ? F1 F2]. cbn [fst] in F1. rewrite keyed_eqb by assumption. destruct (k =? x); [reflexivity|].
    cbn [map keyed fst snd]. now rewrite IH.
  Qed.
  Lemma keyed_bump x c : below x -> Forall (fun e => below (fst e)) c ->
    hm_bump bv_eqb (map (keyed dw) c) (bv_of dw x) = map (keyed dw) (hm_bump N.eqb c x)
    /\ Forall (fun e => below (fst e)) (hm_bump N.eqb c x).
  Proof using D.
    intros X F. unfold hm_bump. rewrite keyed_get, keyed_insert by assumption. split; [reflexivity|].
    apply forall_insert; [exact N_eqb_eq|exact F|exact X].
  Qed.
  Lemma keyed_count m d f : forall l c, (forall i, In i l -> below (f i) /\ dense_select_usize m d i = Ok (bv_of dw (f i))) ->
    Forall (fun e => below (fst e)) c ->
    count_big m d l (map (keyed dw) c) = Ok (map (keyed dw) (count_u64 (map f l) c)).
  Proof using D.
    induction l as [|i l IH]; intros c H F; cbn [count_big map count_u64]; [reflexivity|].
    destruct (H i (or_introl eq_refl)) as (B & ->). cbn [bind]. destruct (keyed_bump (f i) c B F) as (-> & F').
    unfold len. rewrite map_length. destruct (MAX_HASH_TABLE_SIZE <? _); [reflexivity|]. apply IH; [|exact F'].
    intros j J. apply H. now right.
  Qed.
End Keyed.

(** ** The conversion *)
Definition solid (m : mode) (t : thing) : Prop :=
  match t with
  | Narrow r =>
      match q_cells r with
      | RBits _ | RCells _ _ => m = Release \/ q_iw r < 64
      | RWords _ _ => (m = Release \/ q_iw r < 64) /\ 8 * (places (q_dw r) * elements (q_iw r)) < 2 ^ 63
      | RBig _ _ => 64 < q_dw r
      | _ => True
      end
  | Wide _ _ _ _ => True
  end.

Definition favours (ho : hash_order) (x : N) (t : thing) : Prop :=
  match t with
  | Narrow r =>
      let y := favoured x (counted [] (numbers r)) in
      match q_cells r with
      | RCells _ _ => exists c, max_by_key (@snd N N) (ho _ (count_u64 (numbers r) [])) = Some (y, c)
      | RWords _ _ =>
          exists c, max_by_key (@snd bv N) (ho _ (map (keyed (q_dw r)) (count_u64 (numbers r) []))) = Some (bv_of (q_dw r) y, c)
      | _ => True
      end
  | Wide _ _ _ _ => True
  end.

Lemma numbers_len r : len (numbers r) = elements (q_iw r).
Proof. unfold numbers, len. rewrite map_length, seq_length. apply N2Nat.id. Qed.
Lemma elements_pos iw : 0 < elements iw.
Proof. apply two_pos. Qed.
Lemma elements_64 iw : elements iw < 2 ^ 64.
Proof. unfold elements. apply N.pow_lt_mono_r; [reflexivity|]. apply N.mod_lt. discriminate. Qed.
Lemma numbers_some r : numbers r <> [].
Proof. intros H. assert (X := numbers_len r). rewrite H in X. pose proof (elements_pos (q_iw r)). change (len (@nil N)) with 0 in X. lia. Qed.

Lemma numbers_cells iw dw b l ws : len ws = elements iw ->
  (forall i, i < elements iw -> nth (N.to_nat i) ws 0 = at_cell b l i) -> numbers (mkraw iw dw (RCells b l)) = ws.
Proof.
  intros L H. apply (list_ext 0).
  - apply Nat2N.inj. change (len (numbers (mkraw iw dw (RCells b l))) = len ws). rewrite numbers_len. now rewrite L.
  - intros i Hi. unfold numbers in *. cbn [q_cells q_iw] in *. rewrite map_length, seq_length in Hi.
    set (f := fun k : nat => at_cell b l (N.of_nat k)). rewrite (nth_indep _ 0 (f 0%nat)) by now rewrite map_length, seq_length.
    rewrite (map_nth f), seq_nth by exact Hi. unfold f. cbn [Nat.add]. rewrite <- H by lia. now rewrite Nat2N.id.
Qed.

Lemma enumerated (f : N -> N) n : enumerate (map f (indices n)) = map (fun i => (i, f i)) (indices n).
Proof.
  unfold enumerate. rewrite <- (combine_map_self f (indices n)). f_equal. rewrite len_map. f_equal. rewrite indices_iota. apply len_iota.
Qed.

(** one-bit elements *)
Lemma sparse_of_bits ho m g iw v n : iw < 2 ^ 32 -> stores v (bits iw) n -> (m = Release \/ iw < 64) ->
  match into_sparse m g (Narrow (mkraw iw 1 (RBits n))) with
  | Some t => exists s, sparse_of_dense ho m (mkdense iw 1 (DBit v)) = Ok s /\ tholds (ASparse s) t
  | None => panics (sparse_of_dense ho m (mkdense iw 1 (DBit v)))
  end.
Proof.
  intros I S M. unfold into_sparse. cbn [raw_is_dense q_cells q_iw q_dw new_default].
  unfold sparse_of_dense. cbn [d_data d_iw d_dw]. unfold num_elements. rewrite (shl1_told m iw M). cbn [bind].
  set (r := mkraw iw 1 (RBits n)). set (f := fun i => if N.testbit n i then 1 else 0).
  assert (Nf : numbers r = map f (indices (elements iw))) by (unfold numbers, indices; now rewrite map_map).
  destruct (N.ltb_spec (elements iw) (2 ^ 32)) as [L|L].
  - assert (Bt : bits iw = elements iw) by (unfold bits; now rewrite N.mod_small).
    assert (G : forall i, In i (indices (elements iw)) -> bv_is_bit_set v (as_u32 i) = Ok (N.testbit n i)).
    { intros i H. rewrite indices_iota in H. apply in_iota in H. unfold as_u32. change B32 with (2 ^ 32). rewrite N.mod_small by lia.
      assert (X := bit_told v (bits iw) n i S). rewrite Bt in X. replace (i <? 64 * places (elements iw)) with true in X; [exact X|].
      unfold places. symmetry. apply N.ltb_lt. dlia. }
    rewrite (foldM_ext _ (fun c i => let* x := Ok (f i) in bump c x)).
    2:{ intros c i H. rewrite G by exact H. reflexivity. }
    destruct (count_table (fun i => Ok (f i)) f 2 (indices (elements iw)) [0; 0]) as [(_ & c & -> & Lc & Nc)|(X & _)]; auto.
    2:{ exfalso. apply Exists_exists in X as (i & _ & X). unfold f in X. destruct (N.testbit n i); lia. }
    cbn [bind]. rewrite !idx_ok by lia. cbn [bind]. rewrite (Nc 1), (Nc 0), <- Nf, <- !times_occ.
    change (nth (N.to_nat 1) [0; 0] 0) with 0. change (nth (N.to_nat 0) [0; 0] 0) with 0. rewrite !N.add_0_l. cbv zeta.
    set (def := times (numbers r) 0 <? times (numbers r) 1). destruct (bool_told m def) as (bd & -> & Hb). cbn [bind].
    unfold holds_slot in Hb. cbn [fst snd] in Hb.
    set (x := if def then 1 else 0) in *.
    assert (E : known (from_number m 1 x) = Some (1, x)).
    { unfold from_number. replace (x <? 2 ^ 1) with true by (change (2 ^ 1) with 2; unfold x; destruct def; reflexivity).
      cbn [required checked N.ltb]. replace (x mod 2 ^ 1) with x by (unfold x; destruct def; reflexivity). destruct m; reflexivity. }
    change (1 <=? 64) with true. cbv iota. rewrite E.
    assert (Z := filled m iw 1 bd x x (numbers r) I Hb). change (1 <=? 64) with true in Z. cbv iota in Z.
    assert (Eq : forall out, foldM (fun out bit => let* b := bv_is_bit_set v (as_u32 bit) in
                   if Bool.eqb b def then Ok out else sparse_store_u64_u64 out bit (bool_as_u64 (negb def))) (indices (elements iw)) out
                 = foldM (pstep m 1 x) (enumerate (numbers r)) out).
    { intros out. rewrite Nf, enumerated, foldM_map. apply foldM_ext. intros o i H. rewrite G by exact H. cbn [bind pstep].
      change (1 <=? 64) with true. cbv iota. unfold f, x. destruct (N.testbit n i), def; reflexivity. }
    assert (Eq' : (let* out := sparse_new m iw bd in foldM (fun out bit => let* b := bv_is_bit_set v (as_u32 bit) in
                   if Bool.eqb b def then Ok out else sparse_store_u64_u64 out bit (bool_as_u64 (negb def))) (indices (elements iw)) out)
                 = (let* out := sparse_new m iw bd in foldM (pstep m 1 x) (enumerate (numbers r)) out)).
    { destruct (sparse_new m iw bd); cbn [bind]; auto. }
    rewrite Eq'. apply Z.
    + rewrite numbers_len. pose proof (elements_64 iw). cbn [r q_iw]. lia.
    + intros _. split; [unfold x; destruct def; reflexivity|]. rewrite Nf. apply Forall_forall. intros y Y. apply in_map_iff in Y as (i & <- & _).
      unfold f. destruct (N.testbit n i); reflexivity.
    + lia.
  - apply panics_bind. rewrite indices_iota, iota_succ by apply elements_pos. cbn [foldM]. do 2 apply panics_bind.
    assert (X := bit_told v (bits iw) n (as_u32 0) S). assert (K : 32 <= iw mod 64).
    { apply (N.pow_le_mono_r_iff 2); [reflexivity|exact L]. }
    assert (Bt : bits iw = 0) by (unfold bits, elements; apply (as_u32_pow (iw mod 64) K)).
    rewrite Bt in X. exact X.
Qed.

(** from the default to the result *)
Lemma sparse_from m iw dw x0 l : iw < 2 ^ 32 -> dw < 2 ^ 32 -> dw <= 64 -> x0 < 2 ^ 64 -> Forall (fun y => y < 2 ^ 64) l -> len l <= 2 ^ 64 ->
  let code := let* bd := bv_from_u64 m x0 dw in
              let* out := sparse_new m iw bd in
              foldM (fun out (kv : N * N) =>
                let (bit, x) := kv in
                if x =? x0 then Ok out else sparse_store_u64_u64 out bit x) (enumerate l) out in
  match (match (if dw <=? 64 then known (from_number m dw x0) else Some (dw, x0)) with
         | Some (_, base) =>
             if iw <=? 64 then
               Some (Narrow (mkraw iw dw
                 (if dw <=? 64 then RSmall base (others (fun y => y) x0 base l)
                  else RBig base (others (fun y => (dw, y)) x0 base l))))
             else if forallb (N.eqb x0) l then Some (Wide iw dw base []) else None
         | None => None
         end) with
  | Some t => exists s, code = Ok s /\ tholds (ASparse s) t
  | None => panics code
  end.
Proof.
  intros I Hd D X F L code. assert (T := number_told m dw x0 Hd X). unfold code. replace (dw <=? 64) with true by lia.
  assert (K := number_knows m dw x0).
  assert (Y : forall w n, from_number m dw x0 = Known (w, n) -> n < 2 ^ 64 /\ w = dw).
  { intros w n E. unfold from_number in E. destruct (0 <? dw); [|discriminate E]. cbn [required] in E.
    assert (Z : x0 mod 2 ^ dw <= x0) by (apply N.mod_le, N.pow_nonzero; discriminate).
    destruct m; cbn [checked] in E; [destruct (x0 <? 2 ^ dw); [|discriminate E]|]; injection E as <- <-; split; auto; lia. }
  destruct (from_number m dw x0) as [(w & base)| |]; cbn [told known] in *; [|now apply panics_bind|now destruct K].
  destruct T as (bd & -> & S). destruct (Y w base eq_refl) as (Bb & ->). cbn [bind]. unfold holds_slot in S. cbn [fst snd] in S.
  assert (Z := filled m iw dw bd x0 base l I S L). replace (dw <=? 64) with true in Z by lia.
  assert (Eq : (let* out := sparse_new m iw bd in
                foldM (fun out (kv : N * N) => let (bit, x) := kv in if x =? x0 then Ok out else sparse_store_u64_u64 out bit x)
                  (enumerate l) out)
               = (let* out := sparse_new m iw bd in foldM (pstep m dw x0) (enumerate l) out)).
  { destruct (sparse_new m iw bd); cbn [bind]; [|reflexivity]. apply foldM_ext. intros o (i & y) _. cbn [pstep].
    now replace (dw <=? 64) with true by lia. }
  rewrite Eq. apply Z; [auto|lia].
Qed.

(** elements of 2 to 8 bits (or none) *)
Lemma max_enumerated (c : list N) x k : max_by_key (@snd N N) (enumerate c) = Some (x, k) ->
  x < len c /\ k = nth (N.to_nat x) c 0 /\ (forall j, j < len c -> nth (N.to_nat j) c 0 <= nth (N.to_nat x) c 0)
  /\ forall j, x < j -> j < len c -> nth (N.to_nat j) c 0 < nth (N.to_nat x) c 0.
Proof.
  rewrite enumerate_map. set (f := fun i => nth (N.to_nat i) c 0).
  change (fun i => (i, nth (N.to_nat i) c 0)) with (fun i => (i, f i)).
  assert (G : forall n a best, best < a -> exists y, max_by_key_from (@snd N N) (best, f best) (map (fun i => (i, f i)) (iota a n)) = (y, f y)
     /\ (y = best \/ a <= y < a + n) /\ f best <= f y /\ (forall j, a <= j < a + n -> f j <= f y)
     /\ (y = best -> forall j, a <= j < a + n -> f j < f y) /\ (forall j, y < j -> a <= j < a + n -> f j < f y)).
  { induction n as [|n IH] using N.peano_ind; intros a best Hb.
    - rewrite iota_0. exists best. cbn [map max_by_key_from]. repeat split; auto; try lia; intros; lia.
    - rewrite iota_succ by lia. replace (N.succ n - 1) with n by lia. cbn [map max_by_key_from snd].
      destruct (N.leb_spec (f best) (f a)) as [E|E].
      + destruct (IH (a + 1) a ltac:(lia)) as (y & -> & Y1 & Y2 & Y3 & Y4 & Y5). exists y. split; [reflexivity|].
        split; [right; lia|]. split; [lia|]. split; [|split].
        * intros j J. destruct (N.eq_dec j a) as [->|]; [exact Y2|]. apply Y3. lia.
        * intros ->. lia.
        * intros j J1 J2. destruct (N.eq_dec j a) as [->|]; [lia|]. apply Y5; lia.
      + destruct (IH (a + 1) best ltac:(lia)) as (y & -> & Y1 & Y2 & Y3 & Y4 & Y5). exists y. split; [reflexivity|].
        split; [lia|]. split; [lia|]. split; [|split].
        * intros j J. destruct (N.eq_dec j a) as [->|]; [lia|]. apply Y3. lia.
        * intros Z j J. destruct (N.eq_dec j a) as [->|]; [lia|]. apply Y4; lia.
        * intros j J1 J2. destruct (N.eq_dec j a) as [->|]; [lia|]. apply Y5; lia. }
  intros H. destruct (N.eq_dec (len c) 0) as [Z|Z].
  { rewrite Z, iota_0 in H. discriminate H. }
  rewrite iota_succ in H by lia. cbn [map max_by_key] in H. injection H as H.
  destruct (G (len c - 1) (0 + 1) 0 ltac:(lia)) as (y & E & Y1 & Y2 & Y3 & Y4 & Y5). rewrite E in H. injection H as <- <-.
  split; [lia|]. split; [reflexivity|]. split.
  - intros j J. change (f j <= f y). destruct (N.eq_dec j 0) as [->|]; [exact Y2|]. apply Y3. lia.
  - intros j J1 J2. change (f j < f y). apply Y5; lia.
Qed.

Lemma last_common l x : In x [7; 6; 5; 4; 3; 2; 1; 0] -> (forall y, occ l y <= occ l x) ->
  (forall j, x < j -> j < 8 -> occ l j < occ l x) -> find (most_common l) [7; 6; 5; 4; 3; 2; 1; 0] = Some x.
Proof.
  intros I M H. assert (Yes := proj2 (common_iff l x) M).
  assert (No : forall j, x < j -> j < 8 -> most_common l j = false).
  { intros j J1 J2. apply not_true_iff_false. intros E. rewrite common_iff in E. specialize (E x). specialize (H j J1 J2). lia. }
  cbn [find]. cbn [In] in I.
  repeat (destruct I as [<-|I]; [rewrite ?No by lia; now rewrite Yes|]). destruct I.
Qed.

Lemma cells_numbers iw (ws : list N) : len ws = elements iw ->
  map (fun i => nth (N.to_nat i) ws 0) (indices (elements iw)) = ws.
Proof. intros L. rewrite <- L, indices_iota. apply map_nth_iota. Qed.

Lemma sparse_of_bytes ho m g iw dw b l ws : iw < 2 ^ 32 -> dw <> 1 -> dw <= 8 -> len ws = elements iw ->
  (forall i, i < elements iw -> nth (N.to_nat i) ws 0 = at_cell b l i) -> Forall (fun x => x < 2 ^ 8) ws -> (m = Release \/ iw < 64) ->
  match into_sparse m g (Narrow (mkraw iw dw (RCells b l))) with
  | Some t => exists s, sparse_of_dense ho m (mkdense iw dw (DU8 ws)) = Ok s /\ tholds (ASparse s) t
  | None => panics (sparse_of_dense ho m (mkdense iw dw (DU8 ws)))
  end.
Proof.
  intros I D1 D L G F M. unfold into_sparse. assert (Nw := numbers_cells iw dw b l ws L G).
  cbn [raw_is_dense q_cells q_iw q_dw new_default]. unfold new_default. cbn [q_cells q_dw]. rewrite Nw. replace (dw <=? 8) with true by lia.
  unfold sparse_of_dense. cbn [d_data d_iw d_dw]. unfold num_elements. rewrite (shl1_told m iw M). cbn [bind].
  assert (Mw := cells_numbers iw ws L).
  assert (Hi : forall i, In i (indices (elements iw)) -> i < len ws).
  { intros i H. rewrite indices_iota in H. apply in_iota in H. lia. }
  destruct (count_table (idx ws) (fun i => nth (N.to_nat i) ws 0) 8 (indices (elements iw)) (repeat 0 8)) as [(Fa & c & -> & Lc & Nc)|(X & P)].
  { reflexivity. }
  { intros i H. apply idx_ok, Hi, H. }
  - replace (forallb (fun x => x <? 8) ws) with true.
    2:{ symmetry. apply forallb_forall. intros x X. rewrite <- Mw in X. apply in_map_iff in X as (i & <- & X). rewrite Forall_forall in Fa.
        apply Fa in X. lia. }
    rewrite Mw in Nc. cbn [bind].
    assert (Nc' : forall j, nth (N.to_nat j) c 0 = occ ws j).
    { intros j. rewrite Nc, nth_repeat. lia. }
    destruct (max_by_key_ok (@snd N N) (enumerate c)) as ([x0 k] & Mx & _).
    { rewrite enumerate_map, Lc. discriminate. }
    rewrite Mx. apply max_enumerated in Mx as (X1 & _ & X2 & X3). rewrite Lc in *. cbn [unwrap bind].
    assert (Ou : forall j, 8 <= j -> occ ws j = 0).
    { intros j J. apply occ_out. intros Y. rewrite <- Mw in Y. apply in_map_iff in Y as (i & <- & Y). rewrite Forall_forall in Fa.
      apply Fa in Y. lia. }
    rewrite (last_common ws x0).
    + replace (as_u8 x0) with x0 by (unfold as_u8; symmetry; apply N.mod_small; lia).
      apply sparse_from; try lia. eapply Forall_impl; [|exact F]. cbn beta. intros. lia.
      rewrite L. pose proof (elements_64 iw). lia.
    + cbn [In]. lia.
    + intros y. rewrite <- !Nc'. destruct (N.lt_ge_cases y 8) as [Y|Y]; [now apply X2|]. rewrite !Nc', Ou by exact Y. lia.
    + intros j J1 J2. rewrite <- !Nc'. now apply X3.
  - replace (forallb (fun x => x <? 8) ws) with false; [now apply panics_bind|]. symmetry. apply not_true_iff_false. intros Z.
    rewrite forallb_forall in Z. apply Exists_exists in X as (i & X & Y). assert (K := Z (nth (N.to_nat i) ws 0)).
    rewrite (proj2 (N.ltb_ge _ _) Y) in K. discriminate K. apply nth_In. specialize (Hi i X). unfold len in Hi. lia.
Qed.

Lemma sparse_of_cells ho m g iw dw b l ws : iw < 2 ^ 32 -> 8 < dw -> dw <= 64 -> len ws = elements iw ->
  (forall i, i < elements iw -> nth (N.to_nat i) ws 0 = at_cell b l i) -> Forall (fun x => x < 2 ^ 64) ws ->
  favours ho (favourite g) (Narrow (mkraw iw dw (RCells b l))) ->
  match into_sparse m g (Narrow (mkraw iw dw (RCells b l))) with
  | Some t => exists s, sparse_of_dense ho m (mkdense iw dw (DU64 ws)) = Ok s /\ tholds (ASparse s) t
  | None => panics (sparse_of_dense ho m (mkdense iw dw (DU64 ws)))
  end.
Proof.
  intros I D1 D L G F M. unfold into_sparse, new_default. assert (Nw := numbers_cells iw dw b l ws L G).
  unfold favours in M. cbn [raw_is_dense q_cells q_iw q_dw] in *. rewrite Nw in *. replace (dw <=? 8) with false by lia.
  unfold sparse_of_dense. cbn [d_data d_iw d_dw]. destruct M as (c & ->). cbn [unwrap bind].
  apply sparse_from; try lia; auto.
  - assert (Ne : ws <> []) by (intros ->; pose proof (elements_pos iw); change (len (@nil N)) with 0 in L; lia).
    destruct (favoured_ok (favourite g) (counted [] ws) (counted_some ws Ne)) as (X & _). apply counted_in in X.
    rewrite Forall_forall in F. now apply F.
  - rewrite L. pose proof (elements_64 iw). lia.
Qed.

(** elements of more than 64 bits *)
Lemma select_number m iw dw b l ws i : dw < 2 ^ 32 -> len ws = places dw * elements iw ->
  (forall p, p < places dw * elements iw -> nth (N.to_nat p) ws 0 = word_at dw b l p) -> Words ws ->
  8 * (places dw * elements iw) < 2 ^ 63 -> i < elements iw ->
  exists v, dense_select_usize m (mkdense iw dw (DBig ws)) i = Ok v
    /\ stores v dw (joined (word_at dw b l) (places dw * i) (N.to_nat (places dw))).
Proof.
  intros Hd L G F C I. unfold dense_select_usize. cbn [d_data d_dw]. unfold words_per_element. rewrite div_ceil_eq. fold (places dw).
  set (n := places dw) in *. assert (P : n * i + n <= len ws) by (rewrite L; clear - I; nia).
  rewrite usz_mul_ok by (clear - P L C; lia). cbn [bind].
  unfold range. replace ((n * i <=? n * i + n) && (n * i + n <=? len ws)) with true by lia.
  cbn [bind]. eexists; split; [reflexivity|]. replace (n * i + n - n * i) with n by lia.
  set (q := firstn _ _). assert (Lq : len q = n).
  { unfold q, len. rewrite firstn_length_le; [lia|]. rewrite skipn_length. unfold len in P. lia. }
  assert (Wq : Words q) by (unfold q; apply Words_firstn, Words_skipn; auto).
  apply stores_intro; auto.
  unfold q. rewrite (joined_words (word_at dw b l)); [now rewrite N2Nat.id|unfold len in P; lia|].
  intros t T. rewrite <- (Nat2N.id t) at 1. apply G. unfold len in L. lia.
Qed.

Lemma sparse_of_words ho m g iw dw b l ws : iw < 2 ^ 32 -> 64 < dw -> dw < 2 ^ 32 -> len ws = places dw * elements iw ->
  (forall p, p < places dw * elements iw -> nth (N.to_nat p) ws 0 = word_at dw b l p) -> Words ws ->
  solid m (Narrow (mkraw iw dw (RWords b l))) -> favours ho (favourite g) (Narrow (mkraw iw dw (RWords b l))) ->
  match into_sparse m g (Narrow (mkraw iw dw (RWords b l))) with
  | Some t => exists s, sparse_of_dense ho m (mkdense iw dw (DBig ws)) = Ok s /\ tholds (ASparse s) t
  | None => panics (sparse_of_dense ho m (mkdense iw dw (DBig ws)))
  end.
Proof.
  intros I D Hd L G F So M. unfold into_sparse, new_default. unfold favours, solid in *. cbn [raw_is_dense q_cells q_iw q_dw] in *.
  destruct So as (Mm & C). set (r := mkraw iw dw (RWords b l)) in *.
  set (f := fun i => joined (word_at dw b l) (places dw * i) (N.to_nat (places dw))).
  assert (Nf : numbers r = map f (indices (elements iw))) by (unfold numbers, indices; now rewrite map_map).
  assert (Sel : forall i, In i (indices (elements iw)) ->
    f i < 2 ^ (64 * places dw) /\ dense_select_usize m (mkdense iw dw (DBig ws)) i = Ok (bv_of dw (f i))).
  { intros i H. rewrite indices_iota in H. apply in_iota in H.
    destruct (select_number m iw dw b l ws i Hd L G F C ltac:(lia)) as (v & -> & S). split; [apply (stores_bound _ _ _ S)|].
    f_equal. apply (stores_unique _ _ _ S). }
  assert (Fn : Forall (fun y => y < 2 ^ (64 * places dw)) (numbers r)).
  { rewrite Nf. apply Forall_forall. intros y Y. apply in_map_iff in Y as (i & <- & Y). now apply Sel. }
  set (x := favoured (favourite g) (counted [] (numbers r))) in *.
  assert (Bx : x < 2 ^ (64 * places dw)).
  { destruct (favoured_ok (favourite g) (counted [] (numbers r)) (counted_some _ (numbers_some r))) as (X & _). apply counted_in in X.
    rewrite Forall_forall in Fn. now apply Fn. }
  unfold sparse_of_dense. cbn [d_data d_iw d_dw]. unfold num_elements. rewrite (shl1_told m iw Mm). cbn [bind].
  assert (Kc := keyed_count dw Hd m _ f (indices (elements iw)) [] Sel (Forall_nil _)). cbn [map] in Kc. rewrite Kc, <- Nf. clear Kc. cbn [bind]. destruct M as (c & ->). cbn [unwrap bind].
  assert (Sx := stores_bv_of dw x Hd Bx).
  assert (Z := filled m iw dw (bv_of dw x) x x (numbers r) I Sx). replace (dw <=? 64) with false in * by lia.
  assert (Eq : (let* out := sparse_new m iw (bv_of dw x) in foldM (fun out bit => let* v := dense_select_usize m (mkdense iw dw (DBig ws)) bit in
                   let* e := bv_eq m v (bv_of dw x) in
                   if e then Ok out else sparse_store_u64_big m out bit v) (indices (elements iw)) out)
               = (let* out := sparse_new m iw (bv_of dw x) in foldM (pstep m dw x) (enumerate (numbers r)) out)).
  { destruct (sparse_new m iw (bv_of dw x)) as [out|]; cbn [bind]; [|reflexivity]. rewrite Nf, enumerated, foldM_map.
    apply foldM_ext. intros o i H. destruct (Sel i H) as (Bi & ->). cbn [bind].
    rewrite (any_eq m _ _ _ _ _ _ (stores_bv_of dw (f i) Hd Bi) Sx). rewrite N.eqb_refl. cbn [andb bind pstep].
    replace (dw <=? 64) with false by lia. reflexivity. }
  rewrite Eq. apply Z; [|lia|auto]. rewrite numbers_len. pose proof (elements_64 iw). cbn [r q_iw]. lia.
Qed.

Lemma into_sparse_ok ho m g a t : tholds a t -> solid m t -> favours ho (favourite g) t ->
  match into_sparse m g t with
  | Some t' => exists s, sparse_of_array ho m a = Ok s /\ tholds (ASparse s) t'
  | None => panics (sparse_of_array ho m a)
  end.
Proof.
  intros H So M. destruct t as [r|iw dw b l].
  2:{ cbn [into_sparse tholds] in *. assert (H' := H). destruct H as (_ & _ & _ & _ & t & -> & _). cbn [sparse_of_array]. eauto. }
  assert (H' := H). destruct r as [iw dw c]. destruct H as (Hi & Hd & H). cbn [q_iw q_dw q_cells] in *. destruct c as [n|b l|b l|b l|b l].
  - destruct H as (-> & v & -> & S). cbn [sparse_of_array]. now apply sparse_of_bits.
  - destruct H as (D1 & D & ws & -> & L & G & F). cbn [sparse_of_array]. destruct (N.leb_spec dw 8) as [D8|D8].
    + apply sparse_of_bytes; auto.
    + apply sparse_of_cells; auto.
  - destruct H as (D & ws & -> & L & G & F). cbn [sparse_of_array]. now apply sparse_of_words.
  - cbn [into_sparse raw_is_dense q_cells]. destruct H as (_ & _ & _ & t & -> & _). cbn [sparse_of_array]. eauto.
  - cbn [into_sparse raw_is_dense q_cells]. destruct H as (_ & _ & _ & t & -> & _). cbn [sparse_of_array]. eauto.
Qed.

(** every favourite is possible, and no other *)
Lemma keyed_max dw l : max_by_key (@snd bv N) (map (keyed dw) l) = option_map (keyed dw) (max_by_key (@snd N N) l).
Proof. exact (max_by_key_map (@snd bv N) (keyed dw) l). Qed.

Lemma favours_some ho t : reorders ho -> exists x, favours ho x t.
Proof.
  intros Ho. destruct t as [r|? ? ? ?]; [|exists 0; exact Logic.I]. cbn [favours].
  assert (E := counted_from (numbers r)). assert (Ne := counted_some _ (numbers_some r)).
  destruct (q_cells r); try (exists 0; exact Logic.I).
  - destruct (some_favourite _ _ _ E Ne (Ho _ (count_u64 (numbers r) []))) as (x & c & M & Fx). exists x. rewrite Fx. eauto.
  - destruct (Permutation_map_inv _ _ (Permutation_sym (Ho _ (map (keyed (q_dw r)) (count_u64 (numbers r) []))))) as (k & Ek & P).
    destruct (some_favourite _ _ _ E Ne P) as (x & c & M & Fx). exists x. rewrite Fx, Ek, keyed_max, M. exists c. reflexivity.
Qed.
Lemma favours_all x t : exists ho, reorders ho /\ favours ho x t.
Proof.
  destruct t as [r|? ? ? ?]; [|exists (fun _ l => l); split; [exact id_reorders|exact Logic.I]]. cbn [favours].
  assert (E := counted_from (numbers r)). assert (Ne := counted_some _ (numbers_some r)).
  destruct (all_favourites _ _ x E Ne) as (c' & c & P & M).
  destruct (q_cells r); try (exists (fun _ l => l); split; [exact id_reorders|exact Logic.I]).
  - destruct (order_realised _ _ P) as (ho & R & Eh). exists ho. split; [exact R|]. rewrite Eh. eauto.
  - destruct (order_realised _ _ (Permutation_map (keyed (q_dw r)) P)) as (ho & R & Eh). exists ho. split; [exact R|].
    rewrite Eh, keyed_max, M. exists c. reflexivity.
Qed.

(** ** Keys of more than 64 bits in the order they are visited *)
Lemma wide_flat l : forall ks,
  map fst (flat_map (fun k => match wide_at l k with Some x => [(k, x)] | None => [] end) ks)
  = filter (fun k => match wide_at l k with Some _ => true | None => false end) ks.
Proof.
  induction ks as [|k ks IH]; [reflexivity|]. cbn [flat_map filter]. destruct (wide_at l k); cbn [app map fst]; now rewrite IH.
Qed.
Lemma wide_nodup order l : NoDup (map fst (wide_arranged order l)).
Proof. unfold wide_arranged. rewrite wide_flat. apply NoDup_filter, NoDup_nodup. Qed.
Lemma wide_in order l k x : In (k, x) (wide_arranged order l) <-> wide_at l k = Some x.
Proof.
  unfold wide_arranged. rewrite in_flat_map. split.
  - intros (j & J & H). destruct (wide_at l j) as [y|] eqn:E; [|destruct H]. destruct H as [H|[]]. congruence.
  - intros E. exists k. rewrite E. split; [|now left]. apply nodup_In, in_or_app. left.
    apply in_map_iff. unfold wide_at in E. destruct (find _ l) as [e|] eqn:F; [|discriminate E].
    apply find_some in F as (F & K). apply slot_eqb_eq in K. eauto.
Qed.
Lemma wide_get order l k : hm_get slot_eqb (wide_arranged order l) k = wide_at l k.
Proof.
  destruct (wide_at l k) as [x|] eqn:E.
  - apply (PSparse.in_get _ slot_eqb_eq); [apply wide_nodup|]. now apply wide_in.
  - apply (get_none _ slot_eqb_eq). intros H. apply in_map_iff in H as ((j & x) & <- & H).
    apply wide_in in H. cbn [fst] in E. congruence.
Qed.

Lemma wide_same_order : forall t t' : list (slot * slot), map fst t = map fst t' -> NoDup (map fst t) ->
  (forall k, hm_get slot_eqb t k = hm_get slot_eqb t' k) -> t = t'.
Proof.
  induction t as [|(k & x) t IH]; intros [|(k' & x') t'] E U H; try discriminate E; [reflexivity|].
  cbn [map fst] in E. injection E as <- E. inversion_clear U as [|? ? U1 U2].
  assert (R : slot_eqb k k = true) by now apply slot_eqb_eq.
  assert (H0 := H k). cbn [hm_get] in H0. rewrite R in H0. injection H0 as <-. f_equal.
  apply IH; auto. intros i. destruct (slot_dec k i) as [<-|K].
  - rewrite (proj2 (get_none _ slot_eqb_eq t k)) by auto. symmetry. apply (get_none _ slot_eqb_eq). now rewrite <- E.
  - specialize (H i). cbn [hm_get] in H. replace (slot_eqb k i) with false in H; [exact H|]. symmetry.
    apply not_true_iff_false. now rewrite slot_eqb_eq.
Qed.
Lemma wide_later (l : list slot) : NoDup l -> forall ks, exists ks', nodup slot_dec (ks ++ l) = ks' ++ l
  /\ forall k, In k ks' -> ~ In k l.
Proof.
  intros U. induction ks as [|k ks (ks' & E & H)]; cbn [app nodup].
  - exists []. split; [now rewrite nodup_fixed_point|intros k []].
  - destruct (in_dec slot_dec k (ks ++ l)) as [I|I]; [exists ks'; auto|].
    exists (k :: ks'). split; [now rewrite E|]. intros j [<-|J]; [|now apply H].
    intros X. apply I, in_or_app. now right.
Qed.
Lemma wide_by (t : list (slot * slot)) l : NoDup (map fst t) -> (forall k, hm_get slot_eqb t k = wide_at l k) ->
  wide_arranged (map fst t) l = t.
Proof.
  intros U G. apply wide_same_order; [|apply wide_nodup|intros k; now rewrite wide_get, G].
  unfold wide_arranged. rewrite wide_flat. destruct (wide_later (map fst t) U (map fst l)) as (ks & -> & H).
  rewrite filter_app. replace (filter _ ks) with (@nil slot).
  - cbn [app]. assert (K : forall k, In k (map fst t) -> match wide_at l k with Some _ => true | None => false end = true).
    { intros k I. rewrite <- G. destruct (hm_get slot_eqb t k) eqn:E; [reflexivity|]. now apply (get_none _ slot_eqb_eq) in E. }
    revert K. generalize (map fst t). clear. intros ks K. induction ks as [|k ks IH]; [reflexivity|]. cbn [filter].
    rewrite K by now left. f_equal. apply IH. intros j J. apply K. now right.
  - symmetry. clear - H G. induction ks as [|k ks IH]; [reflexivity|]. cbn [filter].
    replace (wide_at l k) with (@None slot); [apply IH; intros j J; apply H; now right|].
    rewrite <- G. symmetry. apply (get_none _ slot_eqb_eq), H. now left.
Qed.

Definition named2 (e : bv * bv) : slot * slot := (named (fst e), named (snd e)).
Definition value2 (e : slot * slot) : bv * bv := (value_of (fst e), value_of (snd e)).

Lemma wide_fits l k s : Forall (fun e => fits (fst e) /\ fits (snd e)) l -> wide_at l k = Some s -> fits k /\ fits s.
Proof.
  intros F E. unfold wide_at in E. destruct (find _ l) as [e|] eqn:X; [|discriminate E]. injection E as <-.
  apply find_some in X as (X & Y). apply slot_eqb_eq in Y. subst k. rewrite Forall_forall in F. now apply F.
Qed.
Lemma value_named2 t : Forall (fun e => well_shaped (fst e) /\ well_shaped (snd e)) t -> map value2 (map named2 t) = t.
Proof.
  intros F. rewrite map_map. rewrite <- map_id. apply map_ext_in. intros (k & x) H. rewrite Forall_forall in F.
  destruct (F _ H) as (K & X). cbn [fst snd] in *. unfold value2, named2. cbn [fst snd]. now rewrite !named_value.
Qed.

(** the table of an array, with its entries by name *)
Lemma wide_table t l : NoDup (map fst t) -> Forall (fun e => well_shaped (fst e) /\ well_shaped (snd e)) t ->
  (forall k, well_shaped k -> hm_get bv_eqb t k = option_map value_of (wide_at l (named k))) ->
  Forall (fun e => fits (fst e) /\ fits (snd e)) l ->
  NoDup (map fst (map named2 t)) /\ (forall k, hm_get slot_eqb (map named2 t) k = wide_at l k).
Proof.
  intros U F G Fl.
  assert (Get : forall k, fits k -> hm_get slot_eqb (map named2 t) k = option_map named (hm_get bv_eqb t (value_of k))).
  { intros k K. destruct (fits_shaped k K) as (Wk & Nk). clear - F Wk Nk. induction t as [|(j & x) t IH]; [reflexivity|].
    inversion_clear F as [|? ? (Fj & Fx) F']. cbn [map named2 hm_get fst snd] in *.
    assert (Q : slot_eqb (named j) k = bv_eqb j (value_of k)).
    { apply PArrayInterp.bool_eq. rewrite slot_eqb_eq, bv_eqb_eq. split; [intros <-; now rewrite named_value|intros ->; exact Nk]. }
    rewrite Q. destruct (bv_eqb j (value_of k)); [reflexivity|now apply IH]. }
  split.
  - rewrite map_map. cbn [named2 fst]. revert U F. clear. induction t as [|(j & x) t IH]; intros U F; cbn [map fst]; [constructor|].
    inversion_clear U as [|? ? U1 U2]. inversion_clear F as [|? ? (Fj & _) F']. constructor; [|now apply IH].
    intros H. apply in_map_iff in H as ((j' & x') & E & H). cbn [fst] in *. apply U1. apply in_map_iff. exists (j', x'). split; [|exact H].
    cbn [fst]. rewrite Forall_forall in F'. destruct (F' _ H) as (W' & _). cbn [fst] in W'.
    rewrite <- (named_value j Fj), <- (named_value j' W'). now rewrite E.
  - intros k. destruct (hm_get slot_eqb (map named2 t) k) as [s|] eqn:E.
    + assert (K : fits k).
      { apply (PSparse.get_in _ slot_eqb_eq) in E. apply in_map_iff in E as ((j & x) & Q & H). unfold named2 in Q. cbn [fst snd] in Q.
        injection Q as Qj Qn. rewrite Forall_forall in F. destruct (F _ H) as (W & _). cbn [fst] in W.
        rewrite <- Qj. now apply shaped_fits. }
      rewrite Get, G in E by (auto; now apply fits_shaped). destruct (fits_shaped k K) as (_ & Nk). rewrite Nk in E.
      destruct (wide_at l k) as [s'|] eqn:E'; [|discriminate E]. cbn [option_map] in E. injection E as <-. f_equal.
      destruct (wide_fits l k s' Fl E') as (_ & Fs). now apply fits_shaped.
    + destruct (wide_at l k) as [s|] eqn:E'; [|reflexivity]. destruct (wide_fits l k s Fl E') as (K & Fs).
      destruct (fits_shaped k K) as (Wk & Nk). rewrite Get, G, Nk, E' in E by auto. discriminate E.
Qed.

(** ** The entries *)
Definition lists (ho : hash_order) (g : luck) (a : array) (t : thing) : Prop :=
  match t with
  | Narrow r => visits ho (visited (plain g)) a r
  | Wide iw dw b l => forall tab, a = ASparse (mksparse iw dw (SBigBig (bv_of dw b) tab)) ->
      ho _ tab = map value2 (wide_arranged (keys g) l)
  end.

Lemma lists_some ho a t : reorders ho -> tholds a t -> exists g, lists ho g a t.
Proof.
  intros Ho H. destruct t as [r|iw dw b l]; cbn [lists tholds] in *.
  - destruct (visits_some ho a r Ho H) as (o & V). now exists (mkluck (mkchance false o) [] 0).
  - destruct H as (_ & _ & _ & _ & t & -> & U & F & G & Fl & _).
    exists (mkluck (mkchance false []) (map fst (map named2 (ho _ t))) 0). intros tab E. injection E as <-. cbn [keys].
    assert (U' : NoDup (map fst (ho _ t))) by (eapply Permutation_NoDup; [apply Permutation_map, Ho|exact U]).
    assert (F' : Forall (fun e => well_shaped (fst e) /\ well_shaped (snd e)) (ho _ t)) by (eapply Permutation_Forall; [apply Ho|exact F]).
    destruct (wide_table (ho _ t) l U' F') as (U2 & G2); auto.
    { intros k K. rewrite <- G by exact K. apply (get_perm _ bv_eqb_eq); auto. }
    rewrite wide_by by assumption. symmetry. now apply value_named2.
Qed.
Lemma lists_all g a t : tholds a t -> exists ho, reorders ho /\ lists ho g a t.
Proof.
  intros H. destruct t as [r|iw dw b l]; cbn [lists tholds] in *; [now apply visits_all|].
  destruct H as (_ & _ & _ & _ & t & -> & U & F & G & Fl & _). destruct (wide_table t l U F G Fl) as (U2 & G2).
  destruct (order_realised t (map value2 (wide_arranged (keys g) l))) as (ho & R & E).
  - rewrite <- (value_named2 t F) at 1. apply Permutation_map. apply NoDup_Permutation.
    + now apply NoDup_map_inv in U2.
    + apply (NoDup_map_inv fst), wide_nodup.
    + intros (k & x). rewrite wide_in, <- G2. split; [now apply (PSparse.in_get _ slot_eqb_eq)|apply (PSparse.get_in _ slot_eqb_eq)].
  - exists ho. split; [exact R|]. intros tab Q. injection Q as <-. exact E.
Qed.

Lemma mapM_each {A A' B B'} (f : A -> res B) (g : A' -> option B') (h : A -> A') (out : B' -> B) : forall l,
  (forall x, In x l -> match g (h x) with Some y => f x = Ok (out y) | None => panics (f x) end) ->
  match each g (map h l) with Some r => mapM f l = Ok (map out r) | None => panics (mapM f l) end.
Proof.
  induction l as [|x l IH]; intros H; cbn [map each mapM]; [reflexivity|].
  assert (X := H x (or_introl eq_refl)). specialize (IH (fun y Y => H y (or_intror Y))).
  destruct (g (h x)) as [y|]; [|now apply panics_bind]. rewrite X. cbn [bind].
  destruct (each g (map h l)) as [r|]; [|now apply panics_bind]. rewrite IH. reflexivity.
Qed.
Lemma number_is m w x : w < 2 ^ 32 -> x < 2 ^ 64 ->
  match known (from_number m w x) with Some s => bv_from_u64 m x w = Ok (value_of s) | None => panics (bv_from_u64 m x w) end.
Proof.
  intros W X. assert (T := number_told m w x W X). assert (K := number_knows m w x).
  destruct (from_number m w x) as [s| |]; [|exact T|now destruct K]. destruct T as (v & -> & S). cbn [known]. f_equal.
  now apply stores_unique.
Qed.

Lemma entries_ok ho m g a t : reorders ho -> tholds a t -> lists ho g a t ->
  match a with
  | ASparse s => match full_entries m g t with
                 | Some (Some l) => sparse_entries ho m s = Ok (map value2 l)
                 | Some None => panics (sparse_entries ho m s)
                 | None => False
                 end
  | ADense _ => full_entries m g t = None
  end.
Proof.
  intros Ho H L. destruct t as [r|iw dw b l]; cbn [lists tholds] in *.
  - destruct r as [iw dw c]. destruct H as (Hi & Hd & H). cbn [q_iw q_dw q_cells full_entries] in *.
    destruct c as [n|b l|b l|b l|b l].
    + destruct H as (_ & v & -> & _). reflexivity.
    + destruct H as (_ & _ & v & -> & _). reflexivity.
    + destruct H as (_ & v & -> & _). reflexivity.
    + destruct H as (_ & _ & _ & t & -> & U & G & F). unfold sparse_entries. cbn [s_data s_iw s_dw].
      specialize (L b t eq_refl). cbn [q_cells] in L. rewrite L.
      assert (F' : Forall (fun e => fst e < 2 ^ 64 /\ snd e < 2 ^ 64) (arranged (visited (plain g)) l)).
      { rewrite <- L. eapply Permutation_Forall; [apply Ho|exact F]. }
      set (q := arranged (visited (plain g)) l) in *. pattern q at 1. rewrite <- (map_id q) at 1. cbv beta. apply mapM_each. intros (k & x) X. rewrite Forall_forall in F'.
      destruct (F' _ X) as (K & Y). cbn [fst snd] in *. assert (N1 := number_is m iw k Hi K). assert (N2 := number_is m dw x Hd Y).
      destruct (known (from_number m iw k)) as [s1|]; cbn [both]; [|now apply panics_bind]. rewrite N1. cbn [bind].
      destruct (known (from_number m dw x)) as [s2|]; [|now apply panics_bind]. rewrite N2. reflexivity.
    + destruct H as (_ & _ & _ & t & -> & U & G & F). unfold sparse_entries. cbn [s_data s_iw s_dw].
      specialize (L _ t eq_refl). cbn [q_cells] in L. rewrite <- L. apply mapM_each. intros (k & x) X.
      apply (Permutation_in _ (Permutation_sym (Ho _ t))) in X. apply (PSparse.in_get _ N_eqb_eq _ _ _ U) in X. rewrite G in X.
      destruct (entry_at l k) as [(w & n)|] eqn:E; [|discriminate X]. injection X as <-. destruct (F _ _ E) as (K & W & B).
      cbn [fst snd known_as] in *. assert (N1 := number_is m iw k Hi K). destruct (stores_bv_of w n W B) as (_ & -> & ->).
      destruct (known (from_number m iw k)) as [s1|]; cbn [both]; [|now apply panics_bind]. rewrite N1. reflexivity.
  - destruct H as (_ & _ & _ & _ & t & -> & _). cbn [full_entries]. unfold sparse_entries. cbn [s_data]. f_equal. now apply L.
Qed.

(** ** The default and the sizes *)
Lemma default_ok m a t : tholds a t ->
  match a with
  | ASparse s => match full_default m t with
                 | Some (Some d) => sparse_default m s = Ok (value_of d)
                 | Some None => panics (sparse_default m s)
                 | None => False
                 end
  | ADense _ => full_default m t = None
  end.
Proof.
  intros H. destruct t as [r|iw dw b l]; cbn [tholds] in *.
  - destruct r as [iw dw c]. destruct H as (Hi & Hd & H). cbn [q_iw q_dw q_cells full_default] in *.
    destruct c as [n|b l|b l|b l|b l].
    + destruct H as (_ & v & -> & _). reflexivity.
    + destruct H as (_ & _ & v & -> & _). reflexivity.
    + destruct H as (_ & v & -> & _). reflexivity.
    + destruct H as (_ & _ & B & t & -> & _). unfold sparse_default. cbn [s_data s_dw]. now apply number_is.
    + destruct H as (_ & _ & _ & t & -> & _). reflexivity.
  - destruct H as (_ & _ & _ & _ & t & -> & _). reflexivity.
Qed.

Lemma sizes_ok m iw : (if passes m (iw <? 64) then num_elements m iw = Ok (elements iw) else panics (num_elements m iw)).
Proof.
  unfold num_elements. destruct (passes m (iw <? 64)) eqn:P.
  - apply shl1_told. destruct m; cbn [passes] in P; [right; lia|now left].
  - destruct m; [|discriminate P]. cbn [passes] in P. unfold u64_shl1. rewrite P. eexists; reflexivity.
Qed.
Lemma places_ok dw : words_per_element dw = places dw.
Proof. unfold words_per_element. rewrite div_ceil_eq. reflexivity. Qed.

(** ** What is kept about dense arrays *)
Lemma solid_dense m iw dw n c : raw_dense m iw dw n = Known c -> solid m (Narrow (mkraw iw dw c)).
Proof.
  unfold raw_dense, solid. cbn [q_cells q_iw q_dw]. intros E.
  assert (M : m = Release \/ iw < 64).
  { destruct m; [right|now left]. cbn [checked] in E. destruct (refused iw dw) eqn:R; [discriminate E|]. now apply (allowed_debug iw dw). }
  assert (X : (if dw =? 1 then
       if n =? 1 then required (0 <? bits iw) (Known (RBits (2 ^ bits iw - 1))) else checked m (n =? 0) (Known (RBits 0))
     else if dw <=? 64 then
       required ((if dw <=? 8 then 1 else 8) * elements iw <? 2 ^ 63) (Known (RCells (cell dw n) []))
     else required (8 * (places dw * elements iw) <? 2 ^ 63) (Known (RWords n []))) = Known c).
  { destruct m; cbn [checked] in *; [destruct (negb (refused iw dw)); [exact E|discriminate E]|exact E]. }
  clear E. destruct (dw =? 1).
  - destruct (n =? 1); [destruct (0 <? bits iw)|destruct m; cbn [checked] in X; [destruct (n =? 0)|]];
      cbn [required] in X; try discriminate X; now injection X as <-.
  - destruct (dw <=? 64).
    + destruct ((if dw <=? 8 then 1 else 8) * elements iw <? 2 ^ 63); [|discriminate X]. now injection X as <-.
    + destruct (8 * (places dw * elements iw) <? 2 ^ 63) eqn:C; [|discriminate X]. injection X as <-. split; [exact M|lia].
Qed.
Lemma solid_created m o t : any_origin o -> any_created m o = Some t -> solid m t.
Proof.
  assert (Lg : forall n, n < 2 ^ 63 -> N.log2_up n < 64).
  { intros n H. destruct (N.le_gt_cases n 1) as [Q|Q]; [now rewrite N.log2_up_eqn0|].
    assert (N.log2_up n <= N.log2_up (2 ^ 63)) by (apply N.log2_up_le_mono; lia). rewrite N.log2_up_pow2 in H0 by lia. lia. }
  intros T E. destruct o as [iw d|iw d|l|l|l]; cbn [any_origin any_created raw_created] in *.
  - destruct (raw_dense m iw (width d) (uval d)) as [c| |] eqn:R; cbn [known option_map] in E; try discriminate E. injection E as <-.
    now apply (solid_dense m _ _ (uval d)).
  - destruct (64 <? iw); [now injection E as <-|]. cbn [known option_map] in E. injection E as <-. unfold solid. cbn [q_cells q_dw].
    destruct (N.leb_spec (width d) 64); [exact Logic.I|assumption].
  - destruct (_ || _); [|discriminate E]. injection E as <-. right. cbn [q_iw]. now apply Lg.
  - destruct T as (_ & T). destruct (2 ^ N.log2_up (len l) <? 2 ^ 63); cbn [required known option_map] in E; [|discriminate E]. injection E as <-.
    right. cbn [raw_slice q_iw]. now apply Lg.
  - destruct T as (_ & T). destruct (8 * 2 ^ N.log2_up (len l) <? 2 ^ 63); cbn [required known option_map] in E; [|discriminate E]. injection E as <-.
    right. cbn [raw_slice q_iw]. apply Lg. lia.
Qed.

(** the kind of array *)
Definition kin (c c' : cells) : Prop :=
  match c, c' with
  | RBits _, RBits _ | RCells _ _, RCells _ _ | RWords _ _, RWords _ _ | RSmall _ _, RSmall _ _ | RBig _ _, RBig _ _ => True
  | _, _ => False
  end.
Lemma solid_kin m iw dw c c' : kin c c' -> solid m (Narrow (mkraw iw dw c)) -> solid m (Narrow (mkraw iw dw c')).
Proof. unfold solid. cbn [q_cells q_iw q_dw]. destruct c, c'; cbn [kin]; easy. Qed.
Lemma required_known {A} b (g : guess A) x : required b g = Known x -> g = Known x.
Proof. destruct b; [auto|discriminate]. Qed.
Lemma checked_known {A} m b (g : guess A) x : checked m b g = Known x -> g = Known x.
Proof. destruct m; [destruct b; [auto|discriminate]|auto]. Qed.
Ltac strip E := repeat first [apply required_known in E | apply checked_known in E].
Lemma kin_write m r w i w' x c : raw_write m r w i w' x = Known c -> kin (q_cells r) c.
Proof.
  unfold raw_write, position. intros E. strip E. destruct (q_cells r); strip E; injection E as <-; exact Logic.I.
Qed.

Lemma solid_changed m g t c t' : any_changed m g t c = Some t' -> solid m t -> solid m t'.
Proof.
  intros E H. destruct t as [r|iw dw b l].
  - destruct r as [iw dw cc]. destruct c as [i x| |].
    + cbn [any_changed any_written] in E. destruct (raw_write _ _ _ _ _ _) as [q| |] eqn:W; try discriminate E. injection E as <-.
      apply kin_write in W. unfold with_cells. cbn [q_iw q_dw q_cells] in *. eapply solid_kin; eauto.
    + cbn [any_changed] in E. injection E as <-. cbn [any_cleared]. unfold with_cells. cbn [q_iw q_dw q_cells] in *. eapply solid_kin; eauto.
      destruct cc; exact Logic.I.
    + cbn [any_changed] in E. destruct (densified_in (visited g) m (mkraw iw dw cc)) as [q| |] eqn:W; try discriminate E. cbn [known option_map] in E. injection E as <-.
      unfold with_cells. cbn [q_iw q_dw]. unfold densified_in in W. cbn [q_iw q_dw q_cells] in W.
      destruct cc as [n|b l|b l|b l|b l]; try (injection W as <-; exact H).
      * destruct (from_number m dw b) as [[w n]| |]; try discriminate W.
        destruct (raw_dense m iw dw n) as [[]| |] eqn:R; try discriminate W; apply solid_dense in R; strip W; injection W as <-;
          (eapply solid_kin; [|exact R]; exact Logic.I).
      * destruct (raw_dense m iw dw b) as [z| |] eqn:R; try discriminate W. assert (R' := R). apply solid_dense in R. strip W. injection W as <-.
        unfold solid in H. cbn [q_cells q_dw] in H. unfold raw_dense in R'. strip R'.
        replace (dw =? 1) with false in R' by lia. replace (dw <=? 64) with false in R' by lia. strip R'. injection R' as <-.
        eapply solid_kin; [|exact R]; exact Logic.I.
  - destruct c as [i x| |]; cbn [any_changed] in E; [|injection E as <-; exact Logic.I|discriminate E]. cbn [any_changed any_written] in E.
    destruct (passes _ _); [|discriminate E]. destruct (_ =? _); [destruct (lookup_fails _ _ _); [discriminate E|]|]; injection E as <-; exact Logic.I.
Qed.

Lemma solid_into m g t t' : into_sparse m g t = Some t' -> solid m t -> solid m t'.
Proof.
  unfold into_sparse. destruct t as [r|iw dw b l]; [|intros E; injection E as <-; auto].
  destruct (raw_is_dense r); [|intros E; injection E as <-; auto]. destruct (new_default g r) as [x|]; [|discriminate].
  destruct (if q_dw r <=? 64 then _ else _) as [[w b]|]; [|discriminate]. destruct (q_iw r <=? 64).
  - intros E _. injection E as <-. unfold solid. cbn [q_cells q_dw]. destruct (N.leb_spec (q_dw r) 64); [exact Logic.I|assumption].
  - destruct (forallb _ _); [|discriminate]. intros E _. injection E as <-. exact Logic.I.
Qed.

(** ** Programs *)
Definition firm (m : mode) (ref : N -> option thing) : Prop := forall k t, ref k = Some t -> solid m t.
Lemma firm_update m ref k t : firm m ref -> solid m t -> firm m (update ref k t).
Proof. intros F H j u. unfold update. destruct (j =? k); [intros E; now injection E as <-|apply F]. Qed.
Lemma firm_plain m g ref c : any_range c -> firm m ref -> firm m (fst (any_predict1 m g ref c)).
Proof.
  intros T F. destruct c as [k o1|k j|k i|k c|k j|k|k]; cbn [any_predict1 any_range fst] in *; try exact F.
  - destruct (any_created m o1) as [t|] eqn:E; [|exact F]. apply firm_update; [exact F|]. now apply (solid_created m o1).
  - destruct (ref j) as [t|] eqn:E; [|exact F]. apply firm_update; [exact F|]. now apply (F j).
  - destruct (ref k) as [t|] eqn:E; [|exact F]. destruct (any_changed m g t c) as [t'|] eqn:E'; [|exact F].
    apply firm_update; [exact F|]. apply (solid_changed m g t c); [exact E'|now apply (F k)].
Qed.

Definition full_matching (h : hashes) (g : luck) (env : N -> option array) (ref : N -> option thing) (c : fcall) : Prop :=
  match c with
  | Plain c => matching h (plain g) env ref c
  | IntoSparse k j => forall t, ref j = Some t -> favours (h_order h) (favourite g) t
  | Entries k => forall a t, env k = Some a -> ref k = Some t -> lists (h_order h) g a t
  | _ => True
  end.

Lemma full_step h g m env ref c : proper h -> tagree env ref -> firm m ref -> full_range c -> full_matching h g env ref c ->
  snd (full_perform1 h m env c) = snd (full_predict1 m g ref c)
  /\ tagree (fst (full_perform1 h m env c)) (fst (full_predict1 m g ref c))
  /\ firm m (fst (full_predict1 m g ref c)).
Proof.
  intros Hp A F T M. destruct c as [c|k j|k|k|k]; cbn [full_perform1 full_predict1 full_range full_matching] in *.
  - destruct (any_step h (plain g) m env ref c Hp A T M) as (Eo & A'). assert (F' := firm_plain m (plain g) ref c T F).
    destruct (perform1 (h_probe h) (h_order h) (h_saved h) m env c) as [e1 o1].
    destruct (any_predict1 m (plain g) ref c) as [r1 o2]. cbn [fst snd] in *. now rewrite Eo.
  - assert (X := A j). destruct (env j) as [a|], (ref j) as [t|] eqn:Ej; try easy.
    assert (Y := into_sparse_ok (h_order h) m g a t X (F j t Ej) (M t eq_refl)). destruct (into_sparse m g t) as [t'|] eqn:E.
    + destruct Y as (s & -> & H). split; [reflexivity|]. split; [now apply tagree_update|]. apply firm_update; [exact F|].
      apply (solid_into m g t); [exact E|now apply (F j)].
    + destruct Y as (p & ->). auto.
  - split; [|auto]. cbn [snd]. assert (X := A k). destruct (env k) as [a|], (ref k) as [t|]; try easy.
    assert (Y := entries_ok (h_order h) m g a t (proj1 (proj2 Hp)) X (M a t eq_refl eq_refl)). destruct a as [s|d]; [|now rewrite Y].
    destruct (full_entries m g t) as [[l|]|]; [now rewrite Y|destruct Y as (p & ->); reflexivity|destruct Y].
  - split; [|auto]. cbn [snd]. assert (X := A k). destruct (env k) as [a|], (ref k) as [t|]; try easy.
    assert (Y := default_ok m a t X). destruct a as [s|d]; [|now rewrite Y].
    destruct (full_default m t) as [[l|]|]; [now rewrite Y|destruct Y as (p & ->); reflexivity|destruct Y].
  - split; [|auto]. cbn [snd]. assert (X := A k). destruct (env k) as [a|], (ref k) as [t|]; try easy.
    destruct (tholds_type _ _ X) as (_ & -> & ->). rewrite places_ok. assert (Y := sizes_ok m (any_iw t)).
    destruct (passes m (any_iw t <? 64)); [now rewrite Y|]. destruct Y as (p & ->). reflexivity.
Qed.

Lemma full_matching_some h env ref c : proper h -> tagree env ref -> full_range c -> exists g, full_matching h g env ref c.
Proof.
  intros Hp A T. destruct c as [c|k j|k|k|k]; cbn [full_matching full_range] in *;
    try (exists (mkluck (mkchance false []) [] 0); exact Logic.I).
  - destruct (matching_some h env ref c Hp A T) as (g & M). now exists (mkluck g [] 0).
  - destruct (ref j) as [t|]; [|now exists (mkluck (mkchance false []) [] 0)].
    destruct (favours_some (h_order h) t (proj1 (proj2 Hp))) as (x & X). exists (mkluck (mkchance false []) [] x).
    intros t' E. injection E as <-. exact X.
  - assert (X := A k). destruct (env k) as [a|], (ref k) as [t|]; try (now exists (mkluck (mkchance false []) [] 0)).
    destruct (lists_some (h_order h) a t (proj1 (proj2 Hp)) X) as (g & G). exists g. intros a' t' E E'. injection E as <-. now injection E' as <-.
Qed.
Lemma full_matching_all g env ref c : tagree env ref -> full_range c -> exists h, proper h /\ full_matching h g env ref c.
Proof.
  intros A T. set (h0 := fun ho => mkhashes (probe_as false) ho (fun _ l => l)).
  assert (P0 : forall ho, reorders ho -> proper (h0 ho)).
  { intros ho R. split; [apply probe_as_hashing|]. split; [exact R|exact id_reorders]. }
  destruct c as [c|k j|k|k|k]; cbn [full_matching full_range] in *;
    try (exists (h0 (fun _ l => l)); split; [apply P0, id_reorders|exact Logic.I]).
  - now apply matching_all.
  - destruct (ref j) as [t|]; [|exists (h0 (fun _ l => l)); split; [apply P0, id_reorders|easy]].
    destruct (favours_all (favourite g) t) as (ho & R & X). exists (h0 ho). split; [now apply P0|]. intros t' E. now injection E as <-.
  - assert (X := A k). destruct (env k) as [a|], (ref k) as [t|];
      try (exists (h0 (fun _ l => l)); split; [apply P0, id_reorders|easy]).
    destruct (lists_all g a t X) as (ho & R & G). exists (h0 ho). split; [now apply P0|]. intros a' t' E E'. injection E as <-. now injection E' as <-.
Qed.

Lemma full_sound m : forall cs hs env ref, (forall n, proper (hs n)) -> tagree env ref -> firm m ref -> Forall full_range cs ->
  exists gs, full_perform_from m env hs cs = full_predict_from m ref gs cs.
Proof.
  induction cs as [|c cs IH]; intros hs env ref P A F T.
  - now exists (fun _ => mkluck (mkchance false []) [] 0).
  - inversion_clear T as [|? ? T1 T2]. destruct (full_matching_some (hs O) env ref c (P O) A T1) as (g & M).
    destruct (full_step (hs O) g m env ref c (P O) A F T1 M) as (Eo & A' & F').
    destruct (IH (fun n => hs (S n)) _ _ (fun n => P (S n)) A' F' T2) as (gs & E).
    exists (fun n => match n with O => g | S n => gs n end). cbn [full_perform_from full_predict_from].
    destruct (full_perform1 (hs O) m env c) as [e1 o1]. destruct (full_predict1 m g ref c) as [r1 o2]. cbn [fst snd] in *. rewrite Eo.
    f_equal. exact E.
Qed.
Lemma full_complete m : forall cs gs env ref, tagree env ref -> firm m ref -> Forall full_range cs ->
  exists hs, (forall n, proper (hs n)) /\ full_perform_from m env hs cs = full_predict_from m ref gs cs.
Proof.
  induction cs as [|c cs IH]; intros gs env ref A F T.
  - exists (fun _ => mkhashes (probe_as false) (fun _ l => l) (fun _ l => l)). split; [|reflexivity]. intros _.
    split; [apply probe_as_hashing|]. split; exact id_reorders.
  - inversion_clear T as [|? ? T1 T2]. destruct (full_matching_all (gs O) env ref c A T1) as (h & P & M).
    destruct (full_step h (gs O) m env ref c P A F T1 M) as (Eo & A' & F').
    destruct (IH (fun n => gs (S n)) _ _ A' F' T2) as (hs & Ps & E).
    exists (fun n => match n with O => h | S n => hs n end). split; [intros [|n]; auto|].
    cbn [full_perform_from full_predict_from].
    destruct (full_perform1 h m env c) as [e1 o1]. destruct (full_predict1 m (gs O) ref c) as [r1 o2]. cbn [fst snd] in *. rewrite Eo.
    f_equal. exact E.
Qed.

Lemma full_behaviours m cs os : Forall full_range cs ->
  (exists hs, (forall n, proper (hs n)) /\ full_perform m hs cs = os) <-> (exists gs, full_predict m gs cs = os).
Proof.
  assert (F0 : firm m (fun _ => None)) by (intros k t E; discriminate E).
  intros T. split.
  - intros (hs & P & <-). destruct (full_sound m cs hs _ _ P empty_agree F0 T) as (gs & E). exists gs. now symmetry.
  - intros (gs & <-). destruct (full_complete m cs gs _ _ empty_agree F0 T) as (hs & P & E). eauto.
Qed.

(** the programs of C92 are among these *)
Lemma full_plain m : forall cs gs ref,
  full_predict_from m ref gs (map Plain cs) = map Simply (any_predict_from m ref (fun n => plain (gs n)) cs).
Proof.
  induction cs as [|c cs IH]; intros gs ref; [reflexivity|]. cbn [map full_predict_from any_predict_from full_predict1].
  destruct (any_predict1 m (plain (gs O)) ref c) as [r o]. cbn [map]. f_equal. apply IH.
Qed.
Lemma full_predict_plain m cs gs : full_predict m gs (map Plain cs) = map Simply (any_predict m (fun n => plain (gs n)) cs).
Proof. apply full_plain. Qed.

(** ** An example *)
Lemma full_example :
  let g order keys x := fun _ : nat => mkluck (mkchance false order) keys x in
  let cs :=
    [Plain (New 0 (OfU64s [5; 9; 5; 9])); IntoSparse 1 0; Default 1; Entries 1; Entries 0; Sizes 0; Plain (Compare 0 1);
     Plain (New 2 (OfU8s [3; 1; 1; 3])); IntoSparse 2 2; Default 2; Entries 2;
     Plain (New 3 (OfU8s [3; 200])); IntoSparse 3 3; Plain (Describe 3);
     Plain (New 4 (OfBools [true; false; true; true])); IntoSparse 4 4; Default 4; Entries 4;
     Plain (New 5 (NewSparse 70 (bv_of 8 7))); Plain (Change 5 (Store (bv_of 70 1) (bv_of 8 2)));
     Plain (Change 5 (Store (bv_of 70 2) (bv_of 8 3))); Entries 5; Sizes 5; Default 5;
     Plain (New 6 (NewDense 1 (bv_of 65 (2 ^ 64)))); Plain (Change 6 (Store (bv_of 1 1) (bv_of 65 4)));
     IntoSparse 6 6; Default 6; Entries 6; Sizes 6] in
  Forall full_range cs
  /\ full_predict Debug (g [3; 1; 0; 2] [(70, 1); (70, 2)] 9) cs
     = [Simply Done; Simply Done; Simply (Saw (bv_of 64 9));
        Listed [(bv_of 2 0, bv_of 64 5); (bv_of 2 2, bv_of 64 5)]; Simply Missing; Sized 4 1; Simply (Answered (Some true));
        Simply Done; Simply Done; Simply (Saw (bv_of 8 3)); Listed [(bv_of 2 1, bv_of 8 1); (bv_of 2 2, bv_of 8 1)];
        Simply Done; Simply Panicked; Simply (Described true 1 8);
        Simply Done; Simply Done; Simply (Saw (bv_of 1 1)); Listed [(bv_of 2 1, bv_of 1 0)];
        Simply Done; Simply Done; Simply Done; Listed [(bv_of 70 1, bv_of 8 2); (bv_of 70 2, bv_of 8 3)];
        Simply Panicked; Simply (Saw (bv_of 8 7));
        Simply Done; Simply Done; Simply Done; Simply (Saw (bv_of 65 (2 ^ 64))); Listed [(bv_of 1 1, bv_of 65 4)]; Sized 2 2]
  /\ full_predict Release (g [2; 1; 0; 3] [(70, 2); (70, 1)] 4) cs
     = [Simply Done; Simply Done; Simply (Saw (bv_of 64 5));
        Listed [(bv_of 2 1, bv_of 64 9); (bv_of 2 3, bv_of 64 9)]; Simply Missing; Sized 4 1; Simply (Answered (Some true));
        Simply Done; Simply Done; Simply (Saw (bv_of 8 3)); Listed [(bv_of 2 2, bv_of 8 1); (bv_of 2 1, bv_of 8 1)];
        Simply Done; Simply Panicked; Simply (Described true 1 8);
        Simply Done; Simply Done; Simply (Saw (bv_of 1 1)); Listed [(bv_of 2 1, bv_of 1 0)];
        Simply Done; Simply Done; Simply Done; Listed [(bv_of 70 2, bv_of 8 3); (bv_of 70 1, bv_of 8 2)];
        Sized 64 1; Simply (Saw (bv_of 8 7));
        Simply Done; Simply Done; Simply Done; Simply (Saw (bv_of 65 4)); Listed [(bv_of 1 0, bv_of 65 (2 ^ 64))]; Sized 2 2]
  /\ full_perform Release (fun _ => mkhashes some_probe (fun _ l => l) (fun _ l => l)) cs
     = full_predict Release (fun n => g [0; 1; 2; 3] [(70, 1); (70, 2)] (if Nat.eqb n 1 then 9 else 4) n) cs.
Proof.
  cbv zeta. split; [|split; [|split]].
  - repeat constructor; cbn [full_range any_range any_origin]; repeat split; repeat constructor; try reflexivity; try lia.
  - vm_compute. reflexivity.
  - vm_compute. reflexivity.
  - vm_compute. reflexivity.
Qed.
