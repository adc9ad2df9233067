(** * LoadArraySpec: dense arrays of any shape, loaded from foreign data (C99).

    The derived [Deserialize] accepts any pair of widths with any of the four
    kinds of storage and any number of elements.  This file says, element by
    element, what select, store and is_equal do with such an array. *)

From Verif Require Import Base Bv Array Spec CallSpec MixedSpec LoadSpec.

(** what can come out of a file *)
Definition loaded_dense (d : dense) : Prop :=
  d_iw d < 2 ^ 32 /\ d_dw d < 2 ^ 32
  /\ match d_data d with
     | DBit v => loaded v
     | DU8 l => Forall (fun x => x < 256) l
     | DU64 l => Forall (fun x => x < 2 ^ 64) l
     | DBig l => Forall (fun x => x < 2 ^ 64) l
     end.

Definition same_kind (a b : dense) : Prop :=
  match d_data a, d_data b with
  | DBit v, DBit v' => width v = width v'
  | DU8 _, DU8 _ | DU64 _, DU64 _ | DBig _, DBig _ => True
  | _, _ => False
  end.

(** the storage is a row of cells: bits, bytes or words *)
Definition cells (d : dense) : N :=
  match d_data d with DBit v => 64 * count v | DU8 l | DU64 l | DBig l => len l end.
Definition cell (d : dense) (t : N) : N :=
  match d_data d with
  | DBit v => N.b2n (N.testbit (uval v) t)
  | DU8 l | DU64 l | DBig l => nth (N.to_nat t) l 0
  end.
(** the cells of one element *)
Definition span (d : dense) : N := match d_data d with DBig _ => places (d_dw d) | _ => 1 end.

(** The first cell of the element with this index; [None] stands for a panic.
    Positions of bits are cut to 32 bits, those of words wrap in a release build. *)
Definition load_slot (m : mode) (d : dense) (index : bv) : option N :=
  let i := uval index in
  let accepted := match m with Debug => width index =? d_iw d | Release => true end in
  let s := match d_data d with DBit _ => i mod 2 ^ 32 | _ => span d * i end in
  let wraps := match m with Debug => 2 ^ 64 <=? s | Release => false end in
  let s := s mod 2 ^ 64 in
  if accepted && (i <? 2 ^ 64) && negb wraps && (s + span d <=? cells d) then Some s else None.

(** what select returns for the element at cell [s] *)
Definition load_select (m : mode) (d : dense) (s : N) (r : res bv) : Prop :=
  let x := cell d s in
  match d_data d with
  | DBit _ => delivers r 1 (Some x)
  | DU8 _ | DU64 _ =>
      delivers r (d_dw d)
        (if (d_dw d =? 0) || match m with Debug => 2 ^ d_dw d <=? x | Release => false end
         then None else Some (x mod 2 ^ d_dw d))
  | DBig _ =>
      exists v, r = Ok v /\ loaded v /\ width v = d_dw d /\ count v = span d
        /\ forall k, k < span d -> nth (N.to_nat k) (words v) 0 = cell d (s + k)
  end.

(** values that store does not take *)
Definition refused (m : mode) (d : dense) (x : bv) : bool :=
  match m with Debug => negb (width x =? d_dw d) | Release => false end
  || match d_data d with
     | DBit _ => (width x =? 1) && (count x =? 0)
     | DU8 _ | DU64 _ => 2 ^ 64 <=? uval x
     | DBig _ => negb (count x =? span d)
     end.

(** what store writes into the [k]-th cell of the element: no width is looked at
    in a release build *)
Definition written (d : dense) (x : bv) (k : N) : N :=
  match d_data d with
  | DBit _ => N.b2n ((width x =? 1) && (uval x mod 2 ^ 64 =? 1))
  | DU8 _ => uval x mod 256
  | DU64 _ => uval x
  | DBig _ => nth (N.to_nat k) (words x) 0
  end.

Definition load_store (m : mode) (d : dense) (index x : bv) (r : res dense) : Prop :=
  match load_slot m d index with
  | Some s =>
      if refused m d x then panics r
      else exists d', r = Ok d' /\ loaded_dense d' /\ same_kind d d'
        /\ d_iw d' = d_iw d /\ d_dw d' = d_dw d /\ cells d' = cells d
        /\ forall t, t < cells d ->
             cell d' t = if (s <=? t) && (t <? s + span d) then written d x (t - s) else cell d t
  | None => panics r
  end.

Definition load_dense_equal (m : mode) (a b : dense) : option (option bool) :=
  if (d_iw a =? d_iw b) && (d_dw a =? d_dw b) then
    match d_data a, d_data b with
    | DBit v, DBit v' => option_map Some (load_equal m v v')
    | DU8 l, DU8 l' | DU64 l, DU64 l' | DBig l, DBig l' =>
        Some (Some (if list_eq_dec N.eq_dec l l' then true else false))
    | _, _ => None
    end
  else Some None.

(** what one store of a history does to a cell that holds [c] *)
Definition cell_after (m : mode) (d : dense) (t : N) (c : N) (op : bv * bv) : N :=
  match load_slot m d (fst op) with
  | Some s => if (s <=? t) && (t <? s + span d) then written d (snd op) (t - s) else c
  | None => c
  end.
Definition accepted (m : mode) (d : dense) (op : bv * bv) : Prop :=
  load_slot m d (fst op) <> None /\ refused m d (snd op) = false.
