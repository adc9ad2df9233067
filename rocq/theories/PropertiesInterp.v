(** * PropertiesInterp: every program means what a reference interpreter on plain
    numbers says (C77). *)

From Verif Require Import Base Bv Spec TextSpec CallSpec PanicSpec MixedSpec DirtySpec InterpSpec PInterp.

(** A debug build: same panics, same errors, same values. *)
Theorem C77_debug : forall p, typed p -> agrees (execute Debug p) (meaning p).
Proof. exact execute_ok. Qed.
Print Assumptions C77_debug.

(** A release build: the same, unless the debug build panics. *)
Theorem C77_release : forall p, typed p -> meaning p <> Stops -> agrees (execute Release p) (meaning p).
Proof. exact execute_release. Qed.
Print Assumptions C77_release.

(** Programs make every value there is. *)
Theorem C77_all : forall v, made Debug small v ->
  exists p, typed p /\ execute Debug p = Ok (Some v) /\ meaning p = Gives (width v) (uval v).
Proof. exact execute_all. Qed.
Print Assumptions C77_all.

(** Comparing the results of two programs. *)
Theorem C77_compare : forall t a b w n w' k, stores a w n -> stores b w' k ->
  match test_result t w n w' k with
  | Some x => run_test t Debug a b = Ok x /\ run_test t Release a b = Ok x
  | None => panics (run_test t Debug a b)
  end.
Proof. exact test_ok. Qed.
Print Assumptions C77_compare.

(** (zero_extend of -3 in 8 bits to 70 bits) + "1f" in 70 bits; a left shift that
    leaves bits beyond the width, a slice that reads one of them; a parse
    error; operands of different widths *)
Example C77_example :
  let p := Un (UZeroExtend 62) (Fresh (KFromI64 (-3) 8)) in
  let q := Fresh (KFromStr [49; 102] 16 70) in
  let r := Bin BShl (Fresh (KFromU64 255 70)) (Fresh (KFromU64 64 70)) in
  let s := Un (USlice 70 64) r in
  typed p /\ typed q /\ typed r /\ typed s
  /\ meaning (Bin BAdd p q) = Gives 70 (253 + 31)
  /\ meaning r = Gives 70 (255 * 2 ^ 64)
  /\ meaning s = Gives 7 127
  /\ meaning (Bin BAdd r (Fresh (KZero 70))) = Gives 70 (63 * 2 ^ 64)
  /\ meaning (Bin BAdd s (Fresh (KFromBitStr [48; 50]))) = Errs
  /\ meaning (Bin BXor s p) = Stops
  /\ execute Debug s = Ok (Some (bv_of 7 127))
  /\ (exists v, execute Debug r = Ok (Some v) /\ ~ wf v).
Proof. exact interp_example. Qed.
