(** * PropertiesLoadSparse: sparse arrays of any shape, loaded from foreign data (C99).

    Loading checks neither that keys, values and the default fit the widths nor
    that the kind of map is the one the widths ask for. *)

From Coq Require Import String.
From Verif Require Import Base Map Bv Array Serde Spec ArraySpec CallSpec MixedSpec LoadSpec LoadArraySpec LoadSparseSpec.
From Verif Require Import PLoadSparse PLoadConvert PLoadSparsify PLoadSparsifyWide.
Open Scope list_scope.

(** exactly these arrays can be loaded *)
Theorem C99_sparse_loadable : forall s, loaded_sparse s <-> exists t, de_sparse t = Some s.
Proof. exact sparse_loadable. Qed.
Print Assumptions C99_sparse_loadable.

Theorem C99_sparse_select : forall probe m s index, hashing probe -> loaded_sparse s -> loaded index ->
  load_sparse_select m s index (sparse_select probe m s index).
Proof. exact sparse_select_load. Qed.
Print Assumptions C99_sparse_select.

(** Keys that are bit-vectors are compared by the hash map with [==], which a
    debug build stops for equal widths with different numbers of words.  When
    that happens depends on the hashes, so that such keys are left out here. *)
Theorem C99_sparse_store : forall probe m s index x, hashing probe ->
  m = Release \/ match s_data s with SBigBig _ _ => tidy s /\ tidy_bv index | _ => True end ->
  loaded_sparse s -> loaded index -> loaded x ->
  load_sparse_store m s index x (sparse_store probe m s index x).
Proof. intros probe m s index x P _. exact (sparse_store_load probe m s index x P). Qed.
Print Assumptions C99_sparse_store.

(** so a history of stores can be described step by step *)
Theorem C99_sparse_store_loaded : forall probe m s index x s', hashing probe ->
  loaded_sparse s -> loaded index -> loaded x ->
  sparse_store probe m s index x = Ok s' -> loaded_sparse s'.
Proof. exact sparse_store_loaded. Qed.
Print Assumptions C99_sparse_store_loaded.

Theorem C99_sparse_default : forall m s, loaded_sparse s -> load_sparse_default m s (sparse_default m s).
Proof. exact sparse_default_load. Qed.
Print Assumptions C99_sparse_default.

(** is_equal compares defaults and entries: two arrays with the same contents
    are different when one of them has an entry that repeats the default *)
Theorem C99_sparse_equal : forall m a b, m = Release \/ (tidy a /\ tidy b) ->
  loaded_sparse a -> loaded_sparse b -> load_sparse_equal a b (sparse_is_equal m a b).
Proof. exact sparse_equal_load. Qed.
Print Assumptions C99_sparse_equal.

Theorem C99_sparse_clear : forall s, loaded_sparse s -> emptied s (sparse_clear s).
Proof. exact sparse_clear_load. Qed.
Print Assumptions C99_sparse_clear.

(** an iteration over the entries shows each of them, or panics at one that does not fit *)
Theorem C99_sparse_entries : forall ho m s, reorders ho -> loaded_sparse s ->
  load_sparse_entries ho m s (sparse_entries ho m s).
Proof. exact sparse_entries_load. Qed.
Print Assumptions C99_sparse_entries.

(** Any history of stores into an array whose indices are kept as numbers: it goes
    through exactly when each store would, and the entry of each key is what the
    last store to it left. *)
Theorem C99_sparse_history : forall probe m ops, hashing probe -> forall s,
  loaded_sparse s -> Forall (fun op => loaded (fst op) /\ loaded (snd op)) ops ->
  match s_data s with SBigBig _ _ => False | _ => True end ->
  let r := foldM (fun s op => sparse_store probe m s (fst op) (snd op)) ops s in
  (Forall (history_passes m s) ops -> exists s', r = Ok s' /\ loaded_sparse s' /\ load_history m s ops s')
  /\ (~ Forall (history_passes m s) ops -> panics r).
Proof. exact sparse_history. Qed.
Print Assumptions C99_sparse_history.

(** Making a loaded array of numbers dense: it writes the entries over a new array
    filled with the default, or panics when one of them does not fit there. *)
Theorem C99_densify : forall ho m s d l, reorders ho -> loaded_sparse s -> s_data s = SU64U64 d l ->
  match (let* x := sparse_default m s in dense_new m (s_iw s) x) with
  | Panic _ => panics (dense_of_sparse ho m s)
  | Ok d0 =>
      (Forall (fits m d0) l ->
         exists d', dense_of_sparse ho m s = Ok d' /\ loaded_dense d' /\ overwritten d0 l d')
      /\ (~ Forall (fits m d0) l -> panics (dense_of_sparse ho m s))
  end.
Proof. exact densify_load. Qed.
Print Assumptions C99_densify.

(** The same for elements kept as bit-vectors: the entries are stored one after
    the other, each at its key read at the width of the elements, not of the
    index.  [C99_history] says when such stores go through and what they leave. *)
Theorem C99_densify_big : forall ho m s x l, reorders ho -> loaded_sparse s -> s_data s = SU64Big x l ->
  match dense_new m (s_iw s) x with
  | Panic _ => panics (dense_of_sparse ho m s)
  | Ok d0 =>
      loaded_dense d0 /\ d_iw d0 = s_iw s /\ d_dw d0 = width x
      /\ if match m with Debug => s_dw s =? width x | Release => true end then
           (exists ops, Forall2 (fun e op => reads_as m (s_dw s) (fst e) (fst op) /\ snd op = snd e) (ho _ l) ops
              /\ dense_of_sparse ho m s = foldM (fun d op => dense_store m d (fst op) (snd op)) ops d0)
           \/ (panics (dense_of_sparse ho m s) /\ exists k v, In (k, v) l /\ read_number m (s_dw s) k = None)
         else panics (dense_of_sparse ho m s)
  end.
Proof. exact densify_big_load. Qed.
Print Assumptions C99_densify_big.

(** an array whose indices are kept as bit-vectors is never made dense *)
Theorem C99_densify_wide : forall ho m s x l, s_data s = SBigBig x l -> panics (dense_of_sparse ho m s).
Proof. exact densify_wide. Qed.
Print Assumptions C99_densify_wide.

(** Making a loaded array of words sparse, for every order in which the hash
    table is visited: an array without elements stops the call; otherwise some
    element becomes the default *)
Theorem C99_sparsify : forall ho m d data, reorders ho -> loaded_dense d -> d_data d = DU64 data ->
  (data = [] -> panics (sparse_of_dense ho m d))
  /\ (data <> [] -> exists c, In c data /\ load_sparsify m d data c (sparse_of_dense ho m d)).
Proof. exact sparsify_words. Qed.
Print Assumptions C99_sparsify.

(** Bytes: the first 2^(index width) of them are counted, in eight counters, and
    the most frequent becomes the default; all of them are then entered *)
Theorem C99_sparsify_bytes : forall ho m d data, loaded_dense d -> d_data d = DU8 data ->
  let n := 2 ^ (d_iw d mod 64) in
  ((m = Debug /\ 64 <= d_iw d) \/ len data < n \/ (exists i, i < n /\ 8 <= nth (N.to_nat i) data 0) ->
     panics (sparse_of_dense ho m d))
  /\ ((m = Release \/ d_iw d < 64) -> n <= len data -> (forall i, i < n -> nth (N.to_nat i) data 0 < 8) ->
     exists c, In c (firstn (N.to_nat n) data)
       /\ (forall y, times y (firstn (N.to_nat n) data) <= times c (firstn (N.to_nat n) data))
       /\ load_sparsify m d data c (sparse_of_dense ho m d)).
Proof. exact sparsify_bytes. Qed.
Print Assumptions C99_sparsify_bytes.

(** Bits: the result has elements of one bit, whatever the width of the elements
    was; bit [i] is read at [i] cut to 32 bits *)
Theorem C99_sparsify_bits : forall ho m d b, loaded_dense d -> d_data d = DBit b ->
  let n := 2 ^ (d_iw d mod 64) in
  let bits := map (fun i => N.b2n (N.testbit (uval b) (i mod 2 ^ 32))) (indices n) in
  ((m = Debug /\ 64 <= d_iw d) \/ (exists i, i < n /\ 64 * count b <= i mod 2 ^ 32) ->
     panics (sparse_of_dense ho m d))
  /\ ((m = Release \/ d_iw d < 64) -> (forall i, i < n -> i mod 2 ^ 32 < 64 * count b) ->
     load_sparsify m (mkdense (d_iw d) 1 (d_data d)) bits (N.b2n (times 0 bits <? times 1 bits)) (sparse_of_dense ho m d)).
Proof. exact sparsify_bits. Qed.
Print Assumptions C99_sparsify_bits.

(** Elements kept as words: every element of the index range has to be there *)
Theorem C99_sparsify_wide : forall ho m d data, reorders ho -> loaded_dense d -> d_data d = DBig data ->
  let n := 2 ^ (d_iw d mod 64) in
  ((m = Debug /\ 64 <= d_iw d) \/ (exists i, i < n /\ ~ wide_readable m d data i) ->
     panics (sparse_of_dense ho m d))
  /\ ((m = Release \/ d_iw d < 64) -> (forall i, i < n -> wide_readable m d data i) ->
     exists j, j < n /\ load_sparsify_wide d data n (wide_element d data j) (sparse_of_dense ho m d)).
Proof. exact sparsify_wide. Qed.
Print Assumptions C99_sparsify_wide.

(** [ArrayValue] is either of them; it forwards its calls *)
Theorem C99_array_loadable : forall a,
  match a with ADense d => loaded_dense d | ASparse s => loaded_sparse s end <-> exists t, de_array t = Some a.
Proof. exact array_loadable. Qed.
Print Assumptions C99_array_loadable.

(** An array of 4-bit elements with an entry that is too large and one that
    repeats the default; 4-bit elements kept as bit-vectors of other shapes; and
    a small index kept as a bit-vector. *)
Example C99_sparse_example : forall probe, hashing probe ->
  let nums := mksparse 8 4 (SU64U64 3 [(1, 200); (900, 3)]) in
  let odd := mksparse 8 4 (SU64Big (mkbv 70 [0; 1; 2]) [(2, mkbv 4 [9; 9])]) in
  let big := mksparse 8 4 (SBigBig (mkbv 4 [3]) [(mkbv 8 [1], mkbv 4 [7])]) in
  loaded_sparse nums /\ loaded_sparse odd /\ loaded_sparse big /\ tidy big /\ ~ tidy odd
  /\ (exists t, de_sparse t = Some odd)
  /\ sparse_select probe Release nums (mkbv 8 [1]) = Ok (mkbv 4 [8])
  /\ panics (sparse_select probe Debug nums (mkbv 8 [1]))
  /\ sparse_select probe Debug nums (mkbv 8 [5]) = Ok (mkbv 4 [3])
  /\ sparse_select probe Debug odd (mkbv 8 [2]) = Ok (mkbv 4 [9; 9])
  /\ sparse_store probe Debug nums (mkbv 8 [1]) (mkbv 4 [3]) = Ok (mksparse 8 4 (SU64U64 3 [(900, 3)]))
  /\ sparse_store probe Release odd (mkbv 8 [2]) (mkbv 4 [0])
     = Ok (mksparse 8 4 (SU64Big (mkbv 70 [0; 1; 2]) []))
  /\ load_equal Release (mkbv 4 [0]) (mkbv 70 [0; 1; 2]) = Some true
  /\ panics (sparse_select probe Debug big (mkbv 8 [1]))
  /\ sparse_store probe Debug big (mkbv 8 [1]) (mkbv 4 [5])
     = Ok (mksparse 8 4 (SBigBig (mkbv 4 [3]) [(mkbv 8 [1], mkbv 4 [5])]))
  /\ sparse_is_equal Debug nums (mksparse 8 4 (SU64U64 3 [(1, 200)])) = Ok (Some false)
  /\ sparse_is_equal Debug nums (mksparse 8 4 (SU64U64 3 [(900, 3); (1, 200)])) = Ok (Some true)
  /\ sparse_entries (fun _ l => l) Release nums = Ok [(mkbv 8 [1], mkbv 4 [8]); (mkbv 8 [132], mkbv 4 [3])]
  /\ panics (sparse_entries (fun _ l => l) Debug nums)
  /\ Forall (history_passes Debug nums) [(mkbv 8 [1], mkbv 4 [5]); (mkbv 8 [7], mkbv 4 [2]); (mkbv 8 [1], mkbv 4 [3])]
  /\ foldM (fun s op => sparse_store probe Debug s (fst op) (snd op))
       [(mkbv 8 [1], mkbv 4 [5]); (mkbv 8 [7], mkbv 4 [2]); (mkbv 8 [1], mkbv 4 [3])] nums
     = Ok (mksparse 8 4 (SU64U64 3 [(900, 3); (7, 2)])).
Proof.
  intros probe (P1 & P2). cbv zeta.
  assert (T : forall a b : N, a <> b -> ~ In a [b]) by (intros a b H [E|[]]; congruence).
  split; [|split; [|split; [|split; [|split; [|split; [|split; [|split]]]]]]].
  - split; [reflexivity|]. split; [reflexivity|]. split; [reflexivity|]. split.
    + constructor; [now apply T|]. constructor; [intros []|constructor].
    + intros k v [[= <- <-]|[[= <- <-]|[]]]; split; reflexivity.
  - split; [reflexivity|]. split; [reflexivity|]. split; [repeat constructor|]. split.
    + constructor; [intros []|constructor].
    + intros k v [[= <- <-]|[]]. repeat constructor.
  - split; [reflexivity|]. split; [reflexivity|]. split; [repeat constructor|]. split.
    + constructor; [intros []|constructor].
    + intros k v [[= <- <-]|[]]. repeat constructor.
  - split; [reflexivity|]. intros k v [[= <- <-]|[]]. split; reflexivity.
  - intros (H & _). discriminate H.
  - exists (ser_sparse (fun _ l => l) (mksparse 8 4 (SU64Big (mkbv 70 [0; 1; 2]) [(2, mkbv 4 [9; 9])]))). reflexivity.
  - reflexivity.
  - eexists. reflexivity.
  - repeat split.
    + unfold sparse_select, hm_get_borrowed. cbn. rewrite P1 by (left; reflexivity). eexists. reflexivity.
    + eexists. reflexivity.
    + repeat constructor.
Qed.

(** The entry 200 of an array of 4-bit elements is kept in its byte; the key 900
    does not fit an index of 3 bits. *)
Example C99_densify_example :
  let small := mksparse 3 4 (SU64U64 3 [(1, 200); (6, 3)]) in
  let large := mksparse 3 4 (SU64U64 3 [(900, 7)]) in
  loaded_sparse small /\ loaded_sparse large
  /\ (let* x := sparse_default Debug small in dense_new Debug 3 x) = Ok (mkdense 3 4 (DU8 (repeat 3 8)))
  /\ Forall (fits Debug (mkdense 3 4 (DU8 (repeat 3 8)))) [(1, 200); (6, 3)]
  /\ dense_of_sparse (fun _ l => l) Debug small = Ok (mkdense 3 4 (DU8 [3; 200; 3; 3; 3; 3; 3; 3]))
  /\ ~ Forall (fits Debug (mkdense 3 4 (DU8 (repeat 3 8)))) [(900, 7)]
  /\ panics (dense_of_sparse (fun _ l => l) Debug large)
  /\ dense_of_sparse (fun _ l => l) Release (mksparse 3 2 (SU64Big (mkbv 9 [300]) [(5, mkbv 40 [77])]))
     = Ok (mkdense 3 9 (DU64 [300; 77; 300; 300; 300; 300; 300; 300]))
  /\ panics (dense_of_sparse (fun _ l => l) Release (mksparse 3 4 (SBigBig (mkbv 4 [3]) []))).
Proof.
  cbv zeta. assert (T : ~ In 1 [6]) by (intros [E|[]]; discriminate).
  split; [|split; [|split; [|split; [|split; [|split; [|split; [|split]]]]]]].
  - split; [reflexivity|]. split; [reflexivity|]. split; [reflexivity|]. split.
    + constructor; [exact T|]. constructor; [intros []|constructor].
    + intros k v [[= <- <-]|[[= <- <-]|[]]]; split; reflexivity.
  - split; [reflexivity|]. split; [reflexivity|]. split; [reflexivity|]. split.
    + constructor; [intros []|constructor].
    + intros k v [[= <- <-]|[]]; split; reflexivity.
  - reflexivity.
  - repeat constructor.
  - reflexivity.
  - intros H. inversion H as [|? ? A _]. discriminate A.
  - eexists. reflexivity.
  - reflexivity.
  - eexists. reflexivity.
Qed.

(** Five words under an index of one bit: in release mode the default 300 of an
    array of 8-bit elements is cut to 44, and the element 44 needs no entry. *)
Example C99_sparsify_example :
  let d := mkdense 1 8 (DU64 [300; 44; 7; 300; 9]) in
  loaded_dense d
  /\ sparse_of_dense (fun _ l => l) Release d = Ok (mksparse 1 8 (SU64U64 44 [(2, 7); (4, 9)]))
  /\ panics (sparse_of_dense (fun _ l => l) Debug d)
  /\ panics (sparse_of_dense (fun _ l => l) Release (mkdense 1 70 (DU64 [300; 44])))
  /\ sparse_of_dense (fun _ l => l) Debug (mkdense 1 70 (DU64 [44; 44])) = Ok (mksparse 1 70 (SU64Big (mkbv 70 [44; 0]) []))
  /\ panics (sparse_of_dense (fun _ l => l) Release (mkdense 1 8 (DU64 []))).
Proof.
  cbv zeta. split; [repeat constructor|]. split; [reflexivity|]. split; [eexists; reflexivity|].
  split; [eexists; reflexivity|]. split; [reflexivity|]. eexists. reflexivity.
Qed.

(** Four bytes under an index of one bit, two of them counted; four bits of an
    array of elements of 9 bits. *)
Example C99_sparsify_small_example :
  let bytes := mkdense 1 8 (DU8 [5; 5; 200; 5]) in
  let large := mkdense 1 8 (DU8 [5; 8]) in
  let short := mkdense 3 8 (DU8 [5; 5; 5; 5]) in
  let bits := mkdense 2 9 (DBit (mkbv 7 [13])) in
  let empty := mkdense 2 9 (DBit (mkbv 7 [])) in
  loaded_dense bytes /\ loaded_dense bits
  /\ sparse_of_dense (fun _ l => l) Debug bytes = Ok (mksparse 1 8 (SU64U64 5 [(2, 200)]))
  /\ panics (sparse_of_dense (fun _ l => l) Release large)
  /\ panics (sparse_of_dense (fun _ l => l) Release short)
  /\ sparse_of_dense (fun _ l => l) Debug bits = Ok (mksparse 2 1 (SU64U64 1 [(1, 0)]))
  /\ panics (sparse_of_dense (fun _ l => l) Release empty).
Proof.
  cbv zeta. split; [repeat constructor|]. split; [repeat constructor|]. split; [reflexivity|].
  split; [eexists; reflexivity|]. split; [eexists; reflexivity|]. split; [reflexivity|]. eexists. reflexivity.
Qed.

(** Elements of 70 bits in two words each, with bits above the width; elements
    of 9 bits kept as words; and a row that is too short. *)
Example C99_sparsify_wide_example :
  let wide := mkdense 1 70 (DBig [1; 2; 1; 200; 9]) in
  let small := mkdense 2 9 (DBig [7; 7; 1000; 7]) in
  let short := mkdense 1 70 (DBig [1; 2; 1]) in
  loaded_dense wide /\ loaded_dense small
  /\ sparse_of_dense (fun _ l => l) Debug wide = Ok (mksparse 1 70 (SU64Big (mkbv 70 [1; 200]) [(0, mkbv 70 [1; 2])]))
  /\ sparse_of_dense (fun _ l => l) Debug small = Ok (mksparse 2 9 (SU64U64 7 [(2, 1000)]))
  /\ panics (sparse_of_dense (fun _ l => l) Release short).
Proof.
  cbv zeta. split; [repeat constructor|]. split; [repeat constructor|]. split; [reflexivity|]. split; [reflexivity|].
  eexists. reflexivity.
Qed.
