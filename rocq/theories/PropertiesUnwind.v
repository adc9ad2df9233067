(** * PropertiesUnwind: what a panicking call leaves behind (C81). *)

From Coq Require Import String.
From Verif Require Import Base Bv Map Strings Array Indexed Unwind Fmt Spec TextSpec RegSpec KindSpec StoreSpec
  UnwindSpec PUnwind.
Open Scope list_scope.
Open Scope N_scope.

(** ** The statement-by-statement model of Unwind.v returns the same results and panics in
    the same cases, with the same panic, as the model the other properties are about. *)
Theorem C81_same_register : forall m v op,
  match reg_call m (width v) op (words v) with
  | Returned ws _ => reg_run m v op = Ok (mkbv (width v) ws)
  | Unwound _ p => reg_run m v op = Panic p
  end.
Proof. exact same_register. Qed.
Print Assumptions C81_same_register.

Theorem C81_same_parse : forall m v s radix,
  match un_from_str_radix m s radix (width v) (words v) with
  | Returned ws e => bv_assign_from_str_radix m v s radix = Ok (mkbv (width v) ws, e)
  | Unwound _ p => bv_assign_from_str_radix m v s radix = Panic p
  end.
Proof. exact same_parse. Qed.
Print Assumptions C81_same_parse.

(** ** A bit-vector: the value left behind is a valid value of the same width.  It is the
    old value, except after [assign_from_u64] and [assign_from_i64], which leave the
    given number cut to the width. *)
Theorem C81_register : forall m v w x op ws p, is_bv v w x -> reg_typed op ->
  reg_call m w op (words v) = Unwound ws p -> is_bv (mkbv w ws) w (reg_left w x op).
Proof. exact register_left. Qed.
Print Assumptions C81_register.

(** A history of updates with arbitrary operands in which every panic is caught.  Each
    update that does not panic must be one of those C31 speaks about. *)
Theorem C81_history : forall m w ops v x log ws, 0 < w -> is_bv v w x -> Forall reg_typed ops ->
  reg_caught m w (words v) ops = (log, ws) ->
  (forall op, In (op, false) log -> reg_legal m w op) ->
  is_bv (mkbv w ws) w (reg_reference w x log).
Proof. exact history_left. Qed.
Print Assumptions C81_history.

(** ** A view into a shared store: whether or not the update panics, and whatever its
    operands, no word outside of the view changes. *)
Theorem C81_store : forall m store i op, in_range store i ->
  exists store', store_left m store i op = Ok store' /\ len store' = len store
    /\ (forall j, in_range store j -> apart i j -> get_ref store' j = get_ref store j)
    /\ (forall p, ~ covers i p -> nth (N.to_nat p) store' 0 = nth (N.to_nat p) store 0).
Proof. exact store_left_ok. Qed.
Print Assumptions C81_store.

(** ** An array: a call that panics changes nothing, ... *)
Theorem C81_array : forall probe ho m a c,
  match change_call probe ho m c a with
  | Returned a' _ => apply probe ho m a c = Ok a'
  | Unwound a' p => apply probe ho m a c = Panic p /\ a' = a
  end.
Proof. exact same_change. Qed.
Print Assumptions C81_array.

(** ... so a history with caught panics ends like the one without the calls that panicked. *)
Theorem C81_array_history : forall probe ho m cs a log a', array_caught probe ho m a cs = (log, a') ->
  map fst log = cs /\ apply_all probe ho m a (returned log) = Ok a'.
Proof. exact array_history. Qed.
Print Assumptions C81_array_history.

(** ** The interner *)
Theorem C81_interner : forall m st v,
  match un_get_index m v st with
  | Returned st' i => interner_get_index m st v = Ok (st', i)
  | Unwound st' p => interner_get_index m st v = Panic p /\ st' = st
  end.
Proof. exact same_interner. Qed.
Print Assumptions C81_interner.

(** A history with five panics: a number that does not fit, a source of another width, a
    bit position outside of the vector, a signed number that does not fit, a base that
    does not exist. *)
Example C81_example_register :
  let ops := [RFromU64 1000; RAssign (bv_of 9 3); RSetBit 64; RFromI64 (-200)%Z; RSetBit 0;
              RParse (lit "12") 99] in
  reg_caught Debug 8 (words (bv_of 8 7)) ops
    = ([(RFromU64 1000, true); (RAssign (bv_of 9 3), true); (RSetBit 64, true);
        (RFromI64 (-200)%Z, true); (RSetBit 0, false); (RParse (lit "12") 99, true)], [57])
  /\ Forall reg_typed ops /\ reg_legal Debug 8 (RSetBit 0) /\ is_bv (bv_of 8 7) 8 7
  /\ 1000 mod 2 ^ 8 = 232 /\ wrap 8 (-200) = 56.
Proof.
  cbv zeta. split; [reflexivity|]. split; [|repeat split; try reflexivity; repeat constructor].
  repeat constructor; try (vm_compute; discriminate); reflexivity.
Qed.
(** more hexadecimal digits than there is room for: nothing is written *)
Example C81_example_text :
  let text := repeat 49 65 in
  reg_call Release 192 (RParse text 16) [1; 2; 3] = Unwound [1; 2; 3] PIndex
  /\ reg_call Debug 192 (RParse (repeat 49 64) 16) [1; 2; 3] = Unwound [1; 2; 3] PIndex
  /\ reg_call Debug 192 (RParse (repeat 49 48) 16) [1; 2; 3]
     = Returned (repeat 1229782938247303441 3) tt
  /\ reg_typed (RParse text 16).
Proof. cbv zeta. repeat split; vm_compute; reflexivity. Qed.
Example C81_example_store :
  store_left Debug [1; 2; 3] (mkindex 8 1) (RFromU64 1000) = Ok [1; 232; 3].
Proof. reflexivity. Qed.
Example C81_example_array :
  let probe := (fun _ _ => false) : probe_oracle in let ho := (fun _ l => l) : hash_order in
  exists a log a', array_new_dense Debug 2 (bv_of 8 7) = Ok a
  /\ array_caught probe ho Debug a [Store (bv_of 2 1) (bv_of 8 5); Store (bv_of 3 1) (bv_of 8 6);
       Store (bv_of 2 2) (bv_of 9 6)] = (log, a')
  /\ map snd log = [false; true; true]
  /\ a' = ADense (mkdense 2 8 (DU8 [7; 5; 7; 7])).
Proof. cbv zeta. do 3 eexists. repeat split. Qed.
Example C81_example_interner :
  un_get_index Debug (bv_zero 0) interner_new = Unwound interner_new PDebugAssert
  /\ exists st, un_get_index Debug (bv_of 9 300) interner_new = Returned st (mkindex 9 8).
Proof. split; [reflexivity|]. eexists. reflexivity. Qed.
