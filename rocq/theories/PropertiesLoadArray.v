(** * PropertiesLoadArray: dense arrays of any shape, loaded from foreign data (C99).

    Loading checks neither that the storage fits the widths nor that it has an
    element for every index.  LoadArraySpec.v sees the storage as a row of cells
    (bits, bytes or words) and says what becomes of each. *)

From Coq Require Import String.
From Verif Require Import Base Map Bv Array Serde Spec CallSpec MixedSpec LoadSpec LoadArraySpec.
From Verif Require Import PLoadArray.
Open Scope list_scope.

(** exactly these arrays can be loaded *)
Theorem C99_loadable : forall d, loaded_dense d <-> exists t, de_dense t = Some d.
Proof. exact dense_loadable. Qed.
Print Assumptions C99_loadable.

(** select panics outside of the storage, and otherwise reads the element there *)
Theorem C99_select : forall m d index, loaded_dense d -> loaded index ->
  match load_slot m d index with
  | None => panics (dense_select m d index)
  | Some s => load_select m d s (dense_select m d index)
  end.
Proof. exact dense_select_load. Qed.
Print Assumptions C99_select.

(** store changes the cells of one element and no other *)
Theorem C99_store : forall m d index x, loaded_dense d -> loaded index -> loaded x ->
  load_store m d index x (dense_store m d index x).
Proof. exact dense_store_load. Qed.
Print Assumptions C99_store.

(** is_equal of arrays with the same widths panics when they are stored in different ways *)
Theorem C99_equal : forall m a b, loaded_dense a -> loaded_dense b ->
  gives (dense_is_equal m a b) (load_dense_equal m a b).
Proof. exact dense_equal_load. Qed.
Print Assumptions C99_equal.

(** clear empties every cell and keeps the rest *)
Theorem C99_clear : forall d, loaded_dense d ->
  let d' := dense_clear d in
  loaded_dense d' /\ same_kind d d' /\ d_iw d' = d_iw d /\ d_dw d' = d_dw d
  /\ cells d' = cells d /\ forall t, cell d' t = 0.
Proof. exact dense_clear_load. Qed.
Print Assumptions C99_clear.

(** Any history of stores: it goes through exactly when each store is accepted by
    the array as it was loaded, and each cell then holds what the stores that
    cover it left there. *)
Theorem C99_history : forall m ops d,
  loaded_dense d -> Forall (fun op => loaded (fst op) /\ loaded (snd op)) ops ->
  let r := foldM (fun d op => dense_store m d (fst op) (snd op)) ops d in
  (Forall (accepted m d) ops ->
     exists d', r = Ok d' /\ loaded_dense d'
       /\ (same_kind d d' /\ d_iw d' = d_iw d /\ d_dw d' = d_dw d /\ cells d' = cells d)
       /\ forall t, t < cells d -> cell d' t = fold_left (cell_after m d t) ops (cell d t))
  /\ (~ Forall (accepted m d) ops -> panics r).
Proof. exact dense_history. Qed.
Print Assumptions C99_history.

(** An array of 4-bit elements kept in bytes, of which there are too few and one
    is too large; one of 70-bit elements with half an element at the end; and one
    that claims to have 3-bit elements but stores single bits. *)
Example C99_example :
  let bytes := mkdense 2 4 (DU8 [7; 200]) in
  let big := mkdense 8 70 (DBig [1; 2; 3; 255; 5]) in
  let bits := mkdense 40 3 (DBit (mkbv 2 [6])) in
  loaded_dense bytes /\ loaded_dense big /\ loaded_dense bits
  /\ (exists t, de_dense t = Some bytes)
  /\ dense_select Debug bytes (mkbv 2 [0]) = Ok (mkbv 4 [7])
  /\ panics (dense_select Debug bytes (mkbv 2 [1]))
  /\ dense_select Release bytes (mkbv 2 [1]) = Ok (mkbv 4 [8])
  /\ load_slot Release bytes (mkbv 2 [1]) = Some 1
  /\ load_slot Debug bytes (mkbv 2 [2]) = None
  /\ load_slot Release bytes (mkbv 9 [1; 0; 0]) = Some 1
  /\ dense_store Release bytes (mkbv 2 [0]) (mkbv 40 [2 ^ 30 + 9]) = Ok (mkdense 2 4 (DU8 [9; 200]))
  /\ dense_select Debug big (mkbv 8 [1]) = Ok (mkbv 70 [3; 255])
  /\ load_slot Debug big (mkbv 8 [1]) = Some 2 /\ load_slot Debug big (mkbv 8 [2]) = None
  /\ dense_store Debug big (mkbv 8 [1]) (mkbv 70 [8; 9]) = Ok (mkdense 8 70 (DBig [1; 2; 8; 9; 5]))
  /\ refused Release big (mkbv 70 [8; 9; 0]) = true
  /\ load_slot Release big (mkbv 64 [2 ^ 63]) = Some 0
  /\ load_slot Debug bits (mkbv 40 [2 ^ 32 + 1]) = Some 1
  /\ dense_select Debug bits (mkbv 40 [2 ^ 32 + 1]) = Ok (mkbv 1 [1])
  /\ dense_store Debug bits (mkbv 40 [1]) (mkbv 3 [7]) = Ok (mkdense 40 3 (DBit (mkbv 2 [4])))
  /\ load_dense_equal Debug bytes bytes = Some (Some true)
  /\ load_dense_equal Debug bytes (mkdense 2 4 (DU64 [7; 200])) = None
  /\ load_dense_equal Debug bytes (mkdense 3 4 (DU64 [7; 200])) = Some None
  /\ Forall (accepted Debug big) [(mkbv 8 [1], mkbv 70 [8; 9]); (mkbv 8 [0], mkbv 70 [4; 4]); (mkbv 8 [1], mkbv 70 [6; 0])]
  /\ foldM (fun d op => dense_store Debug d (fst op) (snd op))
       [(mkbv 8 [1], mkbv 70 [8; 9]); (mkbv 8 [0], mkbv 70 [4; 4]); (mkbv 8 [1], mkbv 70 [6; 0])] big
     = Ok (mkdense 8 70 (DBig [4; 4; 6; 0; 5])).
Proof.
  cbv zeta. repeat split; try (repeat constructor; fail).
  - exists (ser_dense (mkdense 2 4 (DU8 [7; 200]))). reflexivity.
  - eexists. reflexivity.
  - repeat constructor; discriminate.
Qed.
