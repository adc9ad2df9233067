(** * Wire: the positional form of [derive(Serialize, Deserialize)] (feature serde1)

    Formats that are not self-describing (bincode, postcard) write a struct as its
    fields in the order of declaration, without names, a sequence or map after its
    length, and an enum variant as its index.  The derived code supports this form
    through [visit_seq] and variant indices.  Here a stream is a list of numbers, one
    for each integer, length and variant index; how a number becomes bytes is up to
    the format and not modelled. *)

From Verif Require Import Base Map Bv Array Serde.

(** ** Serialize *)

(** serde's [Serialize for Vec] and for [SmallVec] *)
Definition put_seq {A} (put : A -> list N) (l : list A) : list N := len l :: flat_map put l.
Definition put_int (n : N) : list N := [n].

(** owned.rs(bv):14-19 [Serialize for BitVecValue] *)
Definition put_bv (v : bv) : list N := width v :: put_seq put_int (words v).

(** owned.rs:252-259 [Serialize for DenseArrayImpl] *)
Definition put_dense_impl (d : dense_impl) : list N :=
  match d with
  | DBit v => 0 :: put_bv v
  | DU8 l => 1 :: put_seq put_int l
  | DU64 l => 2 :: put_seq put_int l
  | DBig l => 3 :: put_seq put_int l
  end.

(** owned.rs:174-180 [Serialize for DenseArrayValue] *)
Definition put_dense (d : dense) : list N := d_iw d :: d_dw d :: put_dense_impl (d_data d).

(** serde's [Serialize for HashMap] *)
Definition put_map {K V} (ho : hash_order) (pk : K -> list N) (pv : V -> list N) (l : list (K * V)) : list N :=
  put_seq (fun kv => pk (fst kv) ++ pv (snd kv)) (ho _ l).

(** owned.rs:587-593 [Serialize for SparseArrayImpl] *)
Definition put_sparse_impl (ho : hash_order) (s : sparse_impl) : list N :=
  match s with
  | SU64U64 d l => 0 :: put_int d ++ put_map ho put_int put_int l
  | SU64Big d l => 1 :: put_bv d ++ put_map ho put_int put_bv l
  | SBigBig d l => 2 :: put_bv d ++ put_map ho put_bv put_bv l
  end.

(** owned.rs:573-579 [Serialize for SparseArrayValue] *)
Definition put_sparse (ho : hash_order) (s : sparse) : list N :=
  s_iw s :: s_dw s :: put_sparse_impl ho (s_data s).

(** owned.rs:13-25 [Serialize for ArrayValue] and [ArrayImpl] *)
Definition put_array (ho : hash_order) (a : array) : list N :=
  match a with
  | ASparse s => 0 :: put_sparse ho s
  | ADense d => 1 :: put_dense d
  end.

(** ** Deserialize: the value and the rest of the stream, or an error ([None]) *)

Definition reader (A : Type) := list N -> option (A * list N).
Definition rret {A} (a : A) : reader A := fun s => Some (a, s).
Definition rbind {A B} (g : reader A) (k : A -> reader B) : reader B :=
  fun s => match g s with Some (a, r) => k a r | None => None end.
Notation "'get' x <- g ;; k" := (rbind g (fun x => k)) (at level 200, x name, g at level 100, k at level 200).

(** a number of the stream *)
Definition get_num : reader N := fun s => match s with n :: r => Some (n, r) | [] => None end.

(** an integer type with values below [bound] *)
Definition get_int (bound : N) : reader N :=
  get n <- get_num ;; fun s => if n <? bound then Some (n, s) else None.

(** serde's [Deserialize for Vec], [SmallVec]: as many elements as the length says *)
Fixpoint get_many {A} (g : reader A) (k : nat) : reader (list A) :=
  match k with
  | O => rret []
  | S k => get x <- g ;; get l <- get_many g k ;; rret (x :: l)
  end.
Definition get_seq {A} (g : reader A) : reader (list A) := get n <- get_num ;; get_many g (N.to_nat n).

(** owned.rs(bv):14-19 [Deserialize for BitVecValue] *)
Definition get_bv : reader bv :=
  get w <- get_int B32 ;; get l <- get_seq (get_int B64) ;; rret (mkbv w l).

(** owned.rs:252-259 [Deserialize for DenseArrayImpl]; an unknown variant is an error *)
Definition get_dense_impl : reader dense_impl :=
  get i <- get_num ;;
  if i =? 0 then get v <- get_bv ;; rret (DBit v)
  else if i =? 1 then get l <- get_seq (get_int 256) ;; rret (DU8 l)
  else if i =? 2 then get l <- get_seq (get_int B64) ;; rret (DU64 l)
  else if i =? 3 then get l <- get_seq (get_int B64) ;; rret (DBig l)
  else fun _ => None.

(** owned.rs:174-180 [Deserialize for DenseArrayValue] *)
Definition get_dense : reader dense :=
  get iw <- get_int B32 ;; get dw <- get_int B32 ;; get d <- get_dense_impl ;; rret (mkdense iw dw d).

(** serde's [Deserialize for HashMap]: insert the entries one after the other *)
Definition get_map {K V} (eqb : K -> K -> bool) (gk : reader K) (gv : reader V) : reader (list (K * V)) :=
  get l <- get_seq (get k <- gk ;; get v <- gv ;; rret (k, v)) ;;
  rret (fold_left (fun acc kv => hm_insert eqb acc (fst kv) (snd kv)) l []).

(** owned.rs:587-593 [Deserialize for SparseArrayImpl] *)
Definition get_sparse_impl : reader sparse_impl :=
  get i <- get_num ;;
  if i =? 0 then
    get d <- get_int B64 ;; get l <- get_map N.eqb (get_int B64) (get_int B64) ;; rret (SU64U64 d l)
  else if i =? 1 then
    get d <- get_bv ;; get l <- get_map N.eqb (get_int B64) get_bv ;; rret (SU64Big d l)
  else if i =? 2 then
    get d <- get_bv ;; get l <- get_map bv_eqb get_bv get_bv ;; rret (SBigBig d l)
  else fun _ => None.

(** owned.rs:573-579 [Deserialize for SparseArrayValue] *)
Definition get_sparse : reader sparse :=
  get iw <- get_int B32 ;; get dw <- get_int B32 ;; get d <- get_sparse_impl ;; rret (mksparse iw dw d).

(** owned.rs:13-25 [Deserialize for ArrayValue] and [ArrayImpl] *)
Definition get_array : reader array :=
  get i <- get_num ;;
  if i =? 0 then get s <- get_sparse ;; rret (ASparse s)
  else if i =? 1 then get d <- get_dense ;; rret (ADense d)
  else fun _ => None.
