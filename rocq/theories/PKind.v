(** * PKind: kind and type of an array (C80). *)

From Coq Require Import String.
From Verif Require Import Base Strings Bv Map Array Fmt KindSpec PWords PDense.
Open Scope list_scope.
Open Scope N_scope.

(** the default of a sparse array has the width of the data *)
Definition typed (a : array) (iw dw : N) : Prop :=
  match a with
  | ADense d => d_iw d = iw /\ d_dw d = dw
  | ASparse s => s_iw s = iw /\ s_dw s = dw
      /\ match s_data s with SU64U64 _ _ => True | SU64Big d _ => width d = dw | SBigBig d _ => width d = dw end
  end.

Ltac step E := lazymatch type of E with
  | (let* _ := ?e in _) = Ok _ => let x := fresh "x" in let F := fresh "F" in
      destruct e as [x|] eqn:F; cbn [bind] in E; [|discriminate E]
  end.

Lemma make_typed m o a : make m o = Ok a ->
  exists iw dw, has_type o iw dw /\ typed a iw dw /\ array_is_dense a = ends_dense o [].
Proof.
  destruct o as [iw d|iw d|l|l|l]; cbn [make]; intros E.
  - exists iw, (width d). split; [split; reflexivity|]. unfold array_new_dense in E. step E.
    injection E as <-. unfold dense_new in F. do 4 step F. injection F as <-. repeat split; reflexivity.
  - exists iw, (width d). split; [split; reflexivity|]. unfold array_new_sparse in E. step E.
    injection E as <-. unfold sparse_new in F. step F. injection F as <-. split; [|reflexivity].
    cbn [typed s_iw s_dw s_data]. split; [reflexivity|]. split; [reflexivity|].
    destruct (64 <? iw); [now injection F0 as <-|]. destruct (64 <? width d); [now injection F0 as <-|].
    step F0. now injection F0 as <-.
  - exists (index_width_from_len (len l)), 1. destruct (index_width_ok (len l)).
    split; [repeat split; auto|]. unfold array_from_bools in E. step E. injection E as <-.
    unfold dense_from_bools in F. do 2 step F. injection F as <-. repeat split; reflexivity.
  - exists (index_width_from_len (len l)), 8. destruct (index_width_ok (len l)).
    split; [repeat split; auto|]. unfold array_from_u8s in E. step E. injection E as <-.
    unfold dense_from_u8s in F. do 2 step F. injection F as <-. repeat split; reflexivity.
  - exists (index_width_from_len (len l)), 64. destruct (index_width_ok (len l)).
    split; [repeat split; auto|]. unfold array_from_u64s in E. step E. injection E as <-.
    unfold dense_from_u64s in F. do 2 step F. injection F as <-. repeat split; reflexivity.
Qed.

Lemma apply_typed probe ho m a c a' iw dw : typed a iw dw -> apply probe ho m a c = Ok a' ->
  typed a' iw dw /\ array_is_dense a' = array_is_dense a || match c with MakeDense => true | _ => false end.
Proof.
  intros T E. destruct c as [i x| |]; cbn [apply] in E.
  - destruct a as [s|d]; cbn [array_store] in E; step E; injection E as <-; (split; [|reflexivity]); cbn [typed] in *.
    + destruct T as (T1 & T2 & T3). unfold sparse_store in F. do 3 step F. injection F as <-. cbn [s_iw s_dw s_data].
      split; [auto|]. split; [auto|]. destruct (s_data s) as [d map|d map|d map].
      * do 2 step F2. now injection F2 as <-.
      * do 2 step F2. now injection F2 as <-.
      * step F2. match type of F2 with (if ?b then _ else _) = _ => destruct b end; [step F2|]; now injection F2 as <-.
    + unfold dense_store in F. do 4 step F. injection F as <-. exact T.
  - injection E as <-. destruct a as [s|d]; cbn [array_clear typed] in *; (split; [|reflexivity]).
    + destruct T as (T1 & T2 & T3). unfold sparse_clear. cbn [s_iw s_dw s_data]. split; [auto|]. split; [auto|].
      destruct (s_data s); cbn [bv_zero width]; auto.
    + exact T.
  - destruct a as [s|d]; cbn [array_make_dense] in E.
    2:{ injection E as <-. split; [exact T|]. reflexivity. }
    step E. injection E as <-. cbn [typed array_is_dense orb] in *. split; [|reflexivity].
    destruct T as (T1 & T2 & T3). unfold dense_of_sparse in F. do 4 step F.
    assert (D : d_iw x1 = s_iw s /\ d_dw x1 = width x0).
    { unfold dense_new in F1. do 4 step F1. injection F1 as <-. split; reflexivity. }
    destruct D as (D1 & D2).
    assert (W : width x0 = s_dw s).
    { unfold sparse_default in F0. destruct (s_data s) as [dd map|dd map|dd map]; try (injection F0 as <-; congruence).
      unfold bv_from_u64, bv_assign_from_u64 in F0. repeat step F0. injection F0 as <-.
      unfold bv_mask_msb in F5. step F5. now injection F5 as <-. }
    destruct (s_data s) as [dd map|dd map|dd map]; [| |discriminate].
    + step F. injection F as <-. cbn [d_iw d_dw]. split; congruence.
    + step F. destruct x4 as [d' v']. injection F as <-.
      assert (G : forall l d0 v0 d1 v1, foldM (densify_step_big m) l (d0, v0) = Ok (d1, v1) ->
        d_iw d1 = d_iw d0 /\ d_dw d1 = d_dw d0).
      { clear. induction l as [|[k y] l IH]; cbn [foldM]; intros d0 v0 d1 v1 E; [injection E as <- <-; auto|].
        step E. destruct x as [d2 v2]. destruct (IH _ _ _ _ E) as (I1 & I2). rewrite I1, I2.
        unfold densify_step_big in F. cbn [fst snd] in F. do 2 step F. injection F as <- <-.
        unfold dense_store in F1. do 4 step F1. injection F1 as <-. split; reflexivity. }
      destruct (G _ _ _ _ _ F4). split; congruence.
Qed.

Lemma kinds probe ho m o cs a : (let* a := make m o in apply_all probe ho m a cs) = Ok a ->
  array_is_dense a = ends_dense o cs /\ array_is_sparse a = negb (ends_dense o cs)
  /\ has_type o (array_index_width a) (array_data_width a)
  /\ debug_array a = lit (if ends_dense o cs then "DenseArrayValue(..)" else "SparseArrayValue(..)").
Proof.
  intros E. step E. destruct (make_typed _ _ _ F) as (iw & dw & H & T & D). clear F.
  assert (G : typed a iw dw /\ array_is_dense a = ends_dense o cs).
  { unfold ends_dense in *. cbn [existsb] in D. rewrite Bool.orb_false_r in D.
    set (b := match o with NewSparse _ _ => false | _ => true end) in *. clearbody b. clear H. revert b x T D E.
    induction cs as [|c cs IH]; cbn [apply_all existsb]; intros b x T D E.
    - injection E as <-. split; [auto|]. now rewrite Bool.orb_false_r.
    - step E. destruct (apply_typed _ _ _ _ _ _ _ _ T F) as (T' & D').
      rewrite Bool.orb_assoc. apply (IH _ x0); auto. now rewrite D', D. }
  destruct G as (G1 & G2). rewrite <- G2. destruct a as [s|d]; cbn in G1 |- *.
  - destruct G1 as (-> & -> & _). repeat split; auto.
  - destruct G1 as (-> & ->). repeat split; auto.
Qed.

Lemma make_dense_same ho m a : array_is_dense a = true -> array_make_dense ho m a = Ok a.
Proof. now destruct a. Qed.
