(** * WireSpec: streams of values in a positional format (C84) *)

From Verif Require Import Base Bv Map Array Serde Wire Spec CallSpec ArraySpec StoreSpec.

(** a value of one of the two types that can be saved *)
Inductive item := Vec (v : bv) | Arr (a : array).
Inductive item_type := VecType | ArrType.
Definition type_of (i : item) : item_type := match i with Vec _ => VecType | Arr _ => ArrType end.

(** the values are written one after the other *)
Definition write_all (order : hash_order) (l : list item) : list N :=
  flat_map (fun i => match i with Vec v => put_bv v | Arr a => put_array order a end) l.

(** and read in the same order; the reader knows their types only *)
Fixpoint read_all (ts : list item_type) (s : list N) : option (list item * list N) :=
  match ts with
  | [] => Some ([], s)
  | t :: ts =>
      match (match t with
             | VecType => match get_bv s with Some (v, r) => Some (Vec v, r) | None => None end
             | ArrType => match get_array s with Some (a, r) => Some (Arr a, r) | None => None end
             end) with
      | Some (i, r) =>
          match read_all ts r with Some (l, r') => Some (i :: l, r') | None => None end
      | None => None
      end
  end.

(** values a program can have *)
Definition savable (probe : probe_oracle) (ho : hash_order) (m : mode) (i : item) : Prop :=
  match i with Vec v => well_shaped v | Arr a => exists iw dw f, built probe ho m a iw dw f end.

(** bit-vectors are the same, arrays have the same kind, type and elements *)
Definition same_item (probe : probe_oracle) (ho : hash_order) (m : mode) (i j : item) : Prop :=
  match i, j with
  | Vec v, Vec v' => v' = v
  | Arr a, Arr a' =>
      array_is_dense a' = array_is_dense a /\ array_is_equal ho m a a' = Ok (Some true)
      /\ exists iw dw f, built probe ho m a iw dw f /\ built probe ho m a' iw dw f
  | _, _ => False
  end.

(** ** The streams of values, as a grammar *)

(** [form s x]: the numbers [s] stand for [x] *)
Definition form (A : Type) := list N -> A -> Prop.

Definition number (bound : N) : form N := fun s n => s = [n] /\ n < bound.

Inductive elements {A} (P : form A) : form (list A) :=
| no_more : elements P [] []
| one_more : forall s t x l, P s x -> elements P t l -> elements P (s ++ t) (x :: l).
Definition sequence {A} (P : form A) : form (list A) :=
  fun s l => exists t, s = len l :: t /\ elements P t l.

Definition bit_vector : form bv := fun s v =>
  exists t, s = width v :: t /\ width v < 2 ^ 32 /\ sequence (number (2 ^ 64)) t (words v).

Definition entry {K V} (P : form K) (Q : form V) : form (K * V) := fun s kv =>
  exists a b, s = a ++ b /\ P a (fst kv) /\ Q b (snd kv).
(** a key may come twice, later entries win *)
Definition table {K V} (eqb : K -> K -> bool) (P : form K) (Q : form V) : form (list (K * V)) := fun s m =>
  exists entries, sequence (entry P Q) s entries
    /\ m = fold_left (fun m kv => hm_insert eqb m (fst kv) (snd kv)) entries [].

Definition dense_data : form dense_impl := fun s d =>
  match d with
  | DBit v => exists t, s = 0 :: t /\ bit_vector t v
  | DU8 l => exists t, s = 1 :: t /\ sequence (number (2 ^ 8)) t l
  | DU64 l => exists t, s = 2 :: t /\ sequence (number (2 ^ 64)) t l
  | DBig l => exists t, s = 3 :: t /\ sequence (number (2 ^ 64)) t l
  end.
Definition sparse_data : form sparse_impl := fun s d =>
  match d with
  | SU64U64 d l => exists t u, s = 0 :: t ++ u
      /\ number (2 ^ 64) t d /\ table N.eqb (number (2 ^ 64)) (number (2 ^ 64)) u l
  | SU64Big d l => exists t u, s = 1 :: t ++ u
      /\ bit_vector t d /\ table N.eqb (number (2 ^ 64)) bit_vector u l
  | SBigBig d l => exists t u, s = 2 :: t ++ u
      /\ bit_vector t d /\ table bv_eqb bit_vector bit_vector u l
  end.
Definition array_form : form array := fun s a =>
  match a with
  | ASparse x => exists t, s = 0 :: s_iw x :: s_dw x :: t
      /\ s_iw x < 2 ^ 32 /\ s_dw x < 2 ^ 32 /\ sparse_data t (s_data x)
  | ADense x => exists t, s = 1 :: d_iw x :: d_dw x :: t
      /\ d_iw x < 2 ^ 32 /\ d_dw x < 2 ^ 32 /\ dense_data t (d_data x)
  end.
