(** * Serde: what [derive(Serialize, Deserialize)] generates (feature serde1)

    Values are turned into, and read from, trees of serde's data model.  A data
    format (how a tree becomes bytes) is not part of this crate and not
    modelled; formats that restrict map keys (JSON) refuse [BigBig] arrays. *)

From Coq Require Import String.
From Verif Require Import Base Map Bv Array.
Open Scope N_scope.
Open Scope list_scope.

Inductive tree :=
| TInt (n : N)                                   (* any unsigned integer *)
| TSeq (l : list tree)
| TMap (l : list (tree * tree))
| TStruct (fields : list (string * tree))
| TNewtype (variant : string) (d : tree)         (* enum variant with one field *)
| TTuple (variant : string) (l : list tree).     (* enum variant with several fields *)

(** ** Serialize *)

(** owned.rs(bv):14-19 [Serialize for BitVecValue]; [SmallVec] is a sequence *)
Definition ser_bv (v : bv) : tree :=
  TStruct [("width"%string, TInt (width v)); ("words"%string, TSeq (map TInt (words v)))].

(** owned.rs:252-259 [Serialize for DenseArrayImpl] *)
Definition ser_dense_impl (d : dense_impl) : tree :=
  match d with
  | DBit v => TNewtype "Bit" (ser_bv v)
  | DU8 l => TNewtype "U8" (TSeq (map TInt l))
  | DU64 l => TNewtype "U64" (TSeq (map TInt l))
  | DBig l => TNewtype "Big" (TSeq (map TInt l))
  end.

(** owned.rs:174-180 [Serialize for DenseArrayValue] *)
Definition ser_dense (d : dense) : tree :=
  TStruct [("index_width"%string, TInt (d_iw d)); ("data_width"%string, TInt (d_dw d));
           ("data"%string, ser_dense_impl (d_data d))].

(** serde's [Serialize for HashMap]: the entries in iteration order *)
Definition ser_map {K V} (ho : hash_order) (sk : K -> tree) (sv : V -> tree) (l : list (K * V)) : tree :=
  TMap (map (fun kv => (sk (fst kv), sv (snd kv))) (ho _ l)).

(** owned.rs:587-593 [Serialize for SparseArrayImpl] *)
Definition ser_sparse_impl (ho : hash_order) (s : sparse_impl) : tree :=
  match s with
  | SU64U64 d l => TTuple "U64U64" [TInt d; ser_map ho TInt TInt l]
  | SU64Big d l => TTuple "U64Big" [ser_bv d; ser_map ho TInt ser_bv l]
  | SBigBig d l => TTuple "BigBig" [ser_bv d; ser_map ho ser_bv ser_bv l]
  end.

(** owned.rs:573-579 [Serialize for SparseArrayValue] *)
Definition ser_sparse (ho : hash_order) (s : sparse) : tree :=
  TStruct [("index_width"%string, TInt (s_iw s)); ("data_width"%string, TInt (s_dw s));
           ("data"%string, ser_sparse_impl ho (s_data s))].

(** owned.rs:13-25 [Serialize for ArrayValue] and [ArrayImpl] *)
Definition ser_array (ho : hash_order) (a : array) : tree :=
  TStruct [("data"%string,
    match a with
    | ASparse s => TNewtype "Sparse" (ser_sparse ho s)
    | ADense d => TNewtype "Dense" (ser_dense d)
    end)].

(** ** Deserialize; [None] is an error of the deserializer *)

Definition obind {A B} (o : option A) (k : A -> option B) : option B :=
  match o with Some x => k x | None => None end.
Notation "'let?' x := e 'in' k" := (obind e (fun x => k)) (at level 200, x name, e at level 100, k at level 200).

(** an unsigned integer type with values below [bound] *)
Definition de_int (bound : N) (t : tree) : option N :=
  match t with TInt n => if n <? bound then Some n else None | _ => None end.

Fixpoint omapM {A B} (f : A -> option B) (l : list A) : option (list B) :=
  match l with
  | [] => Some []
  | x :: t => let? y := f x in let? r := omapM f t in Some (y :: r)
  end.

(** [Vec<uN>], [SmallVec<[u64; 2]>] *)
Definition de_seq (bound : N) (t : tree) : option (list N) :=
  match t with TSeq l => omapM (de_int bound) l | _ => None end.

(** A derived struct takes its fields by name in any order, ignores unknown
    names, and fails on a missing or repeated one.  (The positional form that
    some formats use instead is in Wire.v.) *)
Definition field (name : string) (fields : list (string * tree)) : option tree :=
  match filter (fun f => String.eqb (fst f) name) fields with
  | [(_, t)] => Some t
  | _ => None
  end.

(** owned.rs(bv):14-19 [Deserialize for BitVecValue] *)
Definition de_bv (t : tree) : option bv :=
  match t with
  | TStruct fs =>
      let? w := obind (field "width" fs) (de_int B32) in
      let? l := obind (field "words" fs) (de_seq B64) in
      Some (mkbv w l)
  | _ => None
  end.

(** owned.rs:252-259 [Deserialize for DenseArrayImpl] *)
Definition de_dense_impl (t : tree) : option dense_impl :=
  match t with
  | TNewtype n d =>
      if String.eqb n "Bit" then let? v := de_bv d in Some (DBit v)
      else if String.eqb n "U8" then let? l := de_seq 256 d in Some (DU8 l)
      else if String.eqb n "U64" then let? l := de_seq B64 d in Some (DU64 l)
      else if String.eqb n "Big" then let? l := de_seq B64 d in Some (DBig l)
      else None
  | _ => None
  end.

(** owned.rs:174-180 [Deserialize for DenseArrayValue] *)
Definition de_dense (t : tree) : option dense :=
  match t with
  | TStruct fs =>
      let? iw := obind (field "index_width" fs) (de_int B32) in
      let? dw := obind (field "data_width" fs) (de_int B32) in
      let? d := obind (field "data" fs) de_dense_impl in
      Some (mkdense iw dw d)
  | _ => None
  end.

(** serde's [Deserialize for HashMap]: insert the entries one after the other *)
Fixpoint de_entries {K V} (eqb : K -> K -> bool) (dk : tree -> option K) (dv : tree -> option V)
  (l : list (tree * tree)) (acc : list (K * V)) : option (list (K * V)) :=
  match l with
  | [] => Some acc
  | (a, b) :: t => let? k := dk a in let? v := dv b in de_entries eqb dk dv t (hm_insert eqb acc k v)
  end.
Definition de_map {K V} (eqb : K -> K -> bool) (dk : tree -> option K) (dv : tree -> option V)
  (t : tree) : option (list (K * V)) :=
  match t with TMap l => de_entries eqb dk dv l [] | _ => None end.

(** owned.rs:587-593 [Deserialize for SparseArrayImpl] *)
Definition de_sparse_impl (t : tree) : option sparse_impl :=
  match t with
  | TTuple n [d; l] =>
      if String.eqb n "U64U64" then
        let? d := de_int B64 d in let? l := de_map N.eqb (de_int B64) (de_int B64) l in Some (SU64U64 d l)
      else if String.eqb n "U64Big" then
        let? d := de_bv d in let? l := de_map N.eqb (de_int B64) de_bv l in Some (SU64Big d l)
      else if String.eqb n "BigBig" then
        let? d := de_bv d in let? l := de_map bv_eqb de_bv de_bv l in Some (SBigBig d l)
      else None
  | _ => None
  end.

(** owned.rs:573-579 [Deserialize for SparseArrayValue] *)
Definition de_sparse (t : tree) : option sparse :=
  match t with
  | TStruct fs =>
      let? iw := obind (field "index_width" fs) (de_int B32) in
      let? dw := obind (field "data_width" fs) (de_int B32) in
      let? d := obind (field "data" fs) de_sparse_impl in
      Some (mksparse iw dw d)
  | _ => None
  end.

(** owned.rs:13-25 [Deserialize for ArrayValue] and [ArrayImpl] *)
Definition de_array (t : tree) : option array :=
  match t with
  | TStruct fs =>
      let? d := field "data" fs in
      match d with
      | TNewtype n d =>
          if String.eqb n "Sparse" then let? s := de_sparse d in Some (ASparse s)
          else if String.eqb n "Dense" then let? s := de_dense d in Some (ADense s)
          else None
      | _ => None
      end
  | _ => None
  end.
