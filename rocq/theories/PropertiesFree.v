(** * PropertiesFree: programs with every operation, and texts and big integers of any size (C97). *)

From Verif Require Import Base Bv Fmt Indexed Spec CallSpec InterpSpec ChanceSpec.
From Verif Require FullArraySpec StoreInterpSpec.
From Verif Require Import BvInterpSpec WholeSpec AllSpec EverySpec FreeSpec PFree.

(** C97: A list of observations is possible, with hash tables that may behave differently
    at each call, if and only if the interpreter gives it for some luck.  Texts have fewer than 2^63 bytes. *)
Theorem C97_exactly : forall m n cs os, Forall free_call cs ->
  (exists hs, (forall k, proper (hs k)) /\ gperform m n hs cs = os)
  <-> (exists gs, free_predict m n gs cs = os).
Proof. exact free_behaviour. Qed.
Print Assumptions C97_exactly.

(** C97: On the programs of C94 the interpreter is that of C94. *)
Theorem C97_agrees : forall m n cs gs, Forall gcall_range cs -> free_predict m n gs cs = gpredict m n gs cs.
Proof. exact free_agrees. Qed.
Print Assumptions C97_agrees.

(** C97: All the programs of C94 are among these. *)
Theorem C97_wider : forall c, gcall_range c -> free_call c.
Proof. exact wider. Qed.
Print Assumptions C97_wider.

(** C97: Fetching with a handle that the interner has given never panics. *)
Theorem C97_fetch : forall m n hs cs k h i, (forall i, proper (hs i)) -> Forall free_call cs ->
  (forall h i, ~ In (NewHandle h i) cs) -> nth_error cs i = Some (Core (Lib (Fetch k h))) ->
  nth_error (gperform m n hs cs) i <> Some (Told (Seen (V Panicked))).
Proof. exact free_fetches_all. Qed.
Print Assumptions C97_fetch.

(** C97: A program that goes on after a panic of the parser: the 130 bits were all ones.  Now
    in a release build the lowest 64 are zeros. *)
Theorem C97_torn : forall m n hs k, N.of_nat k = 2 ^ 32 + 1 ->
  gperform m n hs [Core (Lib (OnVector (Make 0 (KOnes 130))));
                   Core (Lib (OnVector (Update 0 (IParse (repeat 48 k) 2)))); Core (Digest 0)]
  = [done; Told (Seen (V Panicked));
     Told (Hashed [HashU32 130; HashLen 3; HashU64 match m with Debug => 2 ^ 64 - 1 | Release => 0 end;
                   HashU64 (2 ^ 64 - 1); HashU64 3])].
Proof. exact torn_program. Qed.
Print Assumptions C97_torn.

(** C97: A number of 2^38 bits becomes a bit-vector of no bits; the program sees no panic. *)
Theorem C97_vanishes : forall m n hs q x, N.size x = 2 ^ 38 * (q + 1) ->
  gperform m n hs [Core (Lib (OnVector (Make 0 (KOfBigUint x)))); Core (Digest 0)]
  = [done; Told (Hashed [HashU32 0; HashLen 0])].
Proof. exact vanishing_program. Qed.
Print Assumptions C97_vanishes.

Example C97_example :
  let any := FullArraySpec.mkluck (mkchance false []) [] 0 in
  let lib c := Core (Lib c) in
  let failed k := Told (Seen (V (Failed k))) in
  let cs :=
    [lib (OnVector (Make 0 (KFromHexStr [45; 49; 102]))); Core (Digest 0);            (* "-1f" *)
     lib (OnVector (Make 1 (KFromStr [49; 50; 51] 10 6))); lib (OnVector (Make 1 (KOfBigInt (-5)))); Core (Digest 1);
     lib (OnVector (Update 0 (IParse [49; 122] 16))); Core (Digest 0);
     Core (Mem (StoreInterpSpec.Change (mkindex 130 1) (IParse [49; 48] 2)));
     Core (Mem (StoreInterpSpec.Compute (mkindex 64 0) (UAssignStr [55] 10) (mkindex 64 1)));
     Core (Mem (StoreInterpSpec.Load 2 (mkindex 256 0))); Core (Digest 2);
     NewHandle 0 (mkindex 130 1); Through 0 (StoreInterpSpec.Change (mkindex 0 0) (IParse (45 :: repeat 48 50) 16))] in
  Forall free_call cs
  /\ free_predict Debug 4 (fun _ => any) cs
     = [done; Told (Hashed [HashU32 9; HashLen 1; HashU64 481]); done; done;
        Told (Hashed [HashU32 4; HashLen 1; HashU64 11]);
        failed Strings.InvalidDigit; Told (Hashed [HashU32 9; HashLen 1; HashU64 481]); done; done; done;
        Told (Hashed [HashU32 256; HashLen 4; HashU64 7; HashU64 2; HashU64 0; HashU64 0]); done;
        Told (Seen (V Panicked))].
Proof.
  cbv zeta. split; [|vm_compute; reflexivity].
  repeat (apply Forall_cons || apply Forall_nil); cbn -[N.pow]; unfold StoreInterpSpec.index_typed; auto;
    repeat split; repeat constructor; try reflexivity; try (vm_compute; congruence).
Qed.

(** a program of C97 that is not one of C94 *)
Example C97_example_long : exists k, N.of_nat k = 2 ^ 32 + 1 /\ Forall free_call (long_program k)
  /\ ~ Forall gcall_range (long_program k).
Proof. exact long_program_free. Qed.
