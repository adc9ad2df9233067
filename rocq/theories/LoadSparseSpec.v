(** * LoadSparseSpec: sparse arrays of any shape, loaded from foreign data (C99).

    The derived [Deserialize] accepts any pair of widths with any of the three
    kinds of map, any default and any entries: keys and values need not fit the
    widths, and an entry may repeat the default. *)

From Verif Require Import Base Map Bv Array Spec CallSpec MixedSpec LoadSpec LoadArraySpec.

(** what can come out of a file; a map has each key once *)
Definition loaded_sparse (s : sparse) : Prop :=
  s_iw s < 2 ^ 32 /\ s_dw s < 2 ^ 32
  /\ match s_data s with
     | SU64U64 d l => d < 2 ^ 64 /\ NoDup (map fst l) /\ forall k v, In (k, v) l -> k < 2 ^ 64 /\ v < 2 ^ 64
     | SU64Big d l => loaded d /\ NoDup (map fst l) /\ forall k v, In (k, v) l -> k < 2 ^ 64 /\ loaded v
     | SBigBig d l => loaded d /\ NoDup (map fst l) /\ forall k v, In (k, v) l -> loaded k /\ loaded v
     end.

(** Every bit-vector in it has the number of words its width asks for.  (In a
    debug build, [==] of owned values asserts that equal widths come with equal
    numbers of words.) *)
Definition tidy_bv (v : bv) : Prop := count v = places (width v).
Definition tidy (s : sparse) : Prop :=
  match s_data s with
  | SU64U64 _ _ => True
  | SU64Big d l => tidy_bv d /\ forall k v, In (k, v) l -> tidy_bv v
  | SBigBig d l => tidy_bv d /\ forall k v, In (k, v) l -> tidy_bv k /\ tidy_bv v
  end.

(** the value of a key, the default if there is no entry *)
Definition value_of {K V} (l : list (K * V)) (d : V) (k : K) (x : V) : Prop :=
  In (k, x) l \/ x = d /\ forall y, ~ In (k, y) l.
(** [l'] is [l] with one entry set, or dropped *)
Definition with_entry {K V} (l l' : list (K * V)) (k : K) (o : option V) : Prop :=
  NoDup (map fst l')
  /\ forall k' v', In (k', v') l' <-> (k' = k /\ o = Some v') \/ (k' <> k /\ In (k', v') l).
Definition same_entries {K V} (l l' : list (K * V)) : Prop := forall e, In e l <-> In e l'.

(** a stored number, read as a bit-vector of the array's width *)
Definition read_number (m : mode) (w x : N) : option N :=
  if (w =? 0) || match m with Debug => 2 ^ w <=? x | Release => false end then None else Some (x mod 2 ^ w).

Definition index_ok (m : mode) (s : sparse) (index : bv) : bool :=
  match m with Debug => width index =? s_iw s | Release => true end.
Definition data_ok (m : mode) (s : sparse) (data : bv) : bool :=
  match m with Debug => width data =? s_dw s | Release => true end.

Definition load_sparse_select (m : mode) (s : sparse) (index : bv) (r : res bv) : Prop :=
  if index_ok m s index then
    match s_data s with
    | SU64U64 d l =>
        if uval index <? 2 ^ 64
        then exists x, value_of l d (uval index) x /\ delivers r (s_dw s) (read_number m (s_dw s) x)
        else panics r
    | SU64Big d l =>
        if uval index <? 2 ^ 64 then exists x, value_of l d (uval index) x /\ r = Ok x else panics r
    | SBigBig d l =>
        (* a stored index cannot be read *)
        ((exists x, In (index, x) l) -> panics r) /\ (l = [] -> r = Ok d) /\ (r = Ok d \/ panics r)
    end
  else panics r.

Definition load_sparse_store (m : mode) (s : sparse) (index data : bv) (r : res sparse) : Prop :=
  if index_ok m s index && data_ok m s data then
    match s_data s with
    | SU64U64 d l =>
        if (uval index <? 2 ^ 64) && (uval data <? 2 ^ 64)
        then exists l', r = Ok (mksparse (s_iw s) (s_dw s) (SU64U64 d l'))
               /\ with_entry l l' (uval index) (if uval data =? d then None else Some (uval data))
        else panics r
    | SU64Big d l =>
        (* the element is stored as it is, whatever its shape *)
        match load_equal m data d with
        | Some e =>
            if uval index <? 2 ^ 64
            then exists l', r = Ok (mksparse (s_iw s) (s_dw s) (SU64Big d l'))
                   /\ with_entry l l' (uval index) (if e then None else Some data)
            else panics r
        | None => panics r
        end
    | SBigBig d l =>
        match load_equal m data d with
        | Some true =>
            (* a stored index cannot be set back to the default *)
            ((exists x, In (index, x) l) -> panics r) /\ (l = [] -> r = Ok s) /\ (r = Ok s \/ panics r)
        | Some false =>
            exists l', r = Ok (mksparse (s_iw s) (s_dw s) (SBigBig d l')) /\ with_entry l l' index (Some data)
        | None => panics r
        end
    end
  else panics r.

Definition load_sparse_default (m : mode) (s : sparse) (r : res bv) : Prop :=
  match s_data s with
  | SU64U64 d _ => delivers r (s_dw s) (read_number m (s_dw s) d)
  | SU64Big d _ | SBigBig d _ => r = Ok d
  end.

Definition load_sparse_equal (a b : sparse) (r : res (option bool)) : Prop :=
  if (s_iw a =? s_iw b) && (s_dw a =? s_dw b) then
    match s_data a, s_data b with
    | SU64U64 d l, SU64U64 d' l' => exists e, r = Ok (Some e) /\ (e = true <-> d = d' /\ same_entries l l')
    | SU64Big d l, SU64Big d' l' => exists e, r = Ok (Some e) /\ (e = true <-> d = d' /\ same_entries l l')
    | SBigBig d l, SBigBig d' l' => exists e, r = Ok (Some e) /\ (e = true <-> d = d' /\ same_entries l l')
    | _, _ => panics r
    end
  else r = Ok None.

(** an array without entries, whose default is zero *)
Definition emptied (s s' : sparse) : Prop :=
  s_iw s' = s_iw s /\ s_dw s' = s_dw s
  /\ match s_data s, s_data s' with
     | SU64U64 _ _, SU64U64 d [] => d = 0
     | SU64Big _ _, SU64Big d [] | SBigBig _ _, SBigBig d [] => well_shaped d /\ width d = s_dw s /\ uval d = 0
     | _, _ => False
     end.

(** what the iterator over the entries yields, in the order of the hash map *)
Definition reads_as (m : mode) (w x : N) (v : bv) : Prop :=
  well_shaped v /\ width v = w /\ read_number m w x = Some (uval v).
Definition load_sparse_entries (ho : hash_order) (m : mode) (s : sparse) (r : res (list (bv * bv))) : Prop :=
  match s_data s with
  | SU64U64 _ l =>
      (exists out, r = Ok out
         /\ Forall2 (fun e o => reads_as m (s_iw s) (fst e) (fst o) /\ reads_as m (s_dw s) (snd e) (snd o)) (ho _ l) out)
      \/ (panics r
          /\ exists k v, In (k, v) l /\ (read_number m (s_iw s) k = None \/ read_number m (s_dw s) v = None))
  | SU64Big _ l =>
      (exists out, r = Ok out
         /\ Forall2 (fun e o => reads_as m (s_iw s) (fst e) (fst o) /\ snd o = snd e) (ho _ l) out)
      \/ (panics r /\ exists k v, In (k, v) l /\ read_number m (s_iw s) k = None)
  | SBigBig _ l => r = Ok (ho _ l)
  end.

(** Histories of stores into an array whose indices are kept as numbers: which
    ones pass, and the entry of key [k] afterwards when it was [e] before. *)
Definition history_passes (m : mode) (s : sparse) (op : bv * bv) : Prop :=
  index_ok m s (fst op) = true /\ data_ok m s (snd op) = true /\ uval (fst op) < 2 ^ 64
  /\ match s_data s with
     | SU64U64 _ _ => uval (snd op) < 2 ^ 64
     | SU64Big d _ => load_equal m (snd op) d <> None
     | SBigBig _ _ => False
     end.
Definition number_after (d k : N) (e : option N) (op : bv * bv) : option N :=
  if uval (fst op) =? k then if uval (snd op) =? d then None else Some (uval (snd op)) else e.
Definition value_after (m : mode) (d : bv) (k : N) (e : option bv) (op : bv * bv) : option bv :=
  if uval (fst op) =? k then
    match load_equal m (snd op) d with Some false => Some (snd op) | _ => None end
  else e.
(** the entry of a key *)
Definition entry {K V} (l : list (K * V)) (k : K) (e : option V) : Prop :=
  forall v, In (k, v) l <-> e = Some v.
Definition load_history (m : mode) (s : sparse) (ops : list (bv * bv)) (s' : sparse) : Prop :=
  s_iw s' = s_iw s /\ s_dw s' = s_dw s
  /\ match s_data s, s_data s' with
     | SU64U64 d l, SU64U64 d' l' =>
         d' = d /\ forall k e, entry l k e -> entry l' k (fold_left (number_after d k) ops e)
     | SU64Big d l, SU64Big d' l' =>
         d' = d /\ forall k e, entry l k e -> entry l' k (fold_left (value_after m d k) ops e)
     | _, _ => False
     end.

(** Making a loaded array of numbers dense writes its entries over [d], a new
    array filled with the default: which entries fit, where they go, and what is
    written. *)
Definition fits (m : mode) (d : dense) (e : N * N) : Prop :=
  match d_data d with
  | DBit _ => fst e mod 2 ^ 32 < cells d /\ (m = Release \/ snd e < 2)
  | DU8 _ | DU64 _ => fst e < cells d
  | DBig _ => False
  end.
Definition place_of (d : dense) (k : N) : N := match d_data d with DBit _ => k mod 2 ^ 32 | _ => k end.
Definition put_number (d : dense) (v : N) : N :=
  match d_data d with DBit _ => N.b2n (v =? 1) | DU8 _ => v mod 256 | _ => v end.

(** [d'] is [d] with the entries written over it.  (Keys that differ by a
    multiple of 2^32 go to the same bit; then one of them is found there.) *)
Definition overwritten (d : dense) (l : list (N * N)) (d' : dense) : Prop :=
  same_kind d d' /\ d_iw d' = d_iw d /\ d_dw d' = d_dw d /\ cells d' = cells d
  /\ forall t, t < cells d ->
       (cell d' t = cell d t /\ forall k v, In (k, v) l -> place_of d k <> t)
       \/ exists k v, In (k, v) l /\ place_of d k = t /\ cell d' t = put_number d v.

(** Making a loaded array of words sparse: [c], one of its elements, becomes the
    default.  Past 64 bits nothing else can be stored; otherwise the entries are
    the other elements, except those equal to the default as it was stored. *)
Definition load_sparsify (m : mode) (d : dense) (data : list N) (c : N) (r : res sparse) : Prop :=
  match read_number m (d_dw d) c with
  | None => panics r
  | Some c' =>
      if (64 <? d_iw d) || (64 <? d_dw d) then
        ((forall x, In x data -> x = c) ->
           exists b, reads_as m (d_dw d) c b
             /\ r = Ok (mksparse (d_iw d) (d_dw d) (if 64 <? d_iw d then SBigBig b [] else SU64Big b [])))
        /\ ((exists x, In x data /\ x <> c) -> panics r)
      else
        exists l, r = Ok (mksparse (d_iw d) (d_dw d) (SU64U64 c' l))
          /\ NoDup (map fst l)
          /\ forall k v, In (k, v) l <-> (k < len data /\ v = nth (N.to_nat k) data 0) /\ v <> c /\ v <> c'
  end.
(** how often [x] is in [l] *)
Definition times (x : N) (l : list N) : N := len (filter (fun y => y =? x) l).

(** Making a loaded array of wide elements sparse.  Element [i] is the words at
    its position, which wraps in a release build. *)
Definition wide_start (d : dense) (i : N) : N := (places (d_dw d) * i) mod 2 ^ 64.
Definition wide_readable (m : mode) (d : dense) (data : list N) (i : N) : Prop :=
  (m = Release \/ places (d_dw d) * i < 2 ^ 64) /\ wide_start d i + places (d_dw d) <= len data.
Definition wide_element (d : dense) (data : list N) (i : N) : bv :=
  mkbv (d_dw d) (firstn (N.to_nat (places (d_dw d))) (skipn (N.to_nat (wide_start d i)) data)).
(** [c], an element, is the default; the entries are the elements that differ *)
Definition load_sparsify_wide (d : dense) (data : list N) (n : N) (c : bv) (r : res sparse) : Prop :=
  if 64 <? d_iw d then
    ((forall i, i < n -> wide_element d data i = c) -> r = Ok (mksparse (d_iw d) (d_dw d) (SBigBig c [])))
    /\ ((exists i, i < n /\ wide_element d data i <> c) -> panics r)
  else if 64 <? d_dw d then
    exists l, r = Ok (mksparse (d_iw d) (d_dw d) (SU64Big c l)) /\ NoDup (map fst l)
      /\ forall k v, In (k, v) l <-> k < n /\ v = wide_element d data k /\ wide_element d data k <> c
  else
    exists l, r = Ok (mksparse (d_iw d) (d_dw d) (SU64U64 (uval c) l)) /\ NoDup (map fst l)
      /\ forall k v, In (k, v) l <-> k < n /\ v = uval (wide_element d data k) /\ wide_element d data k <> c.
