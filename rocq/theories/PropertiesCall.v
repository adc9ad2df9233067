(** * PropertiesCall: values made by arbitrary sequences of calls (C66, C67).

    [made m ok v]: in build [m] some finite tree of public calls, each satisfying
    [ok] and with any arguments of the right Rust types, returned [v]. *)

From Verif Require Import Base Strings Bv Spec TextSpec ProfileSpec CallSpec.
From Verif Require Import PWords PropsArith PCall PShape.

(** ** C66

    Full statement (false of the code): in a debug build every value that any
    sequence of calls returns is valid, [made Debug any_call v -> wf v].  Four
    calls break it; each of the witnesses starts from valid values. *)
Theorem C66_set_bit_refuted : harmful (KSetBit (bv_of 5 1) 10).
Proof. exact harmful_set_bit. Qed.
Print Assumptions C66_set_bit_refuted.

Theorem C66_shift_left_refuted : harmful (KBin BShl (bv_of 65 2) (bv_of 65 64)).
Proof. exact harmful_shift. Qed.
Print Assumptions C66_shift_left_refuted.

(** "ff" as a 4-bit number *)
Theorem C66_parse_refuted : harmful (KFromStr [102; 102] 16 4).
Proof. exact harmful_parse. Qed.
Print Assumptions C66_parse_refuted.

(** a text that is no number, rejected half way *)
Theorem C66_failed_assign_refuted :
  harmful (KAssignStr (bv_zero 129) (repeat 102 16 ++ 122 :: repeat 48 31) 16)
  /\ signed_text 16 (repeat 102 16 ++ 122 :: repeat 48 31) = None.
Proof. exact harmful_assign. Qed.
Print Assumptions C66_failed_assign_refuted.

(** Without these, everything is valid. *)
Theorem C66_valid_partial : forall v, made Debug harmless v -> wf v.
Proof. exact made_wf. Qed.
Print Assumptions C66_valid_partial.

(** A call that returns in a debug build returns the same in a release build. *)
Theorem C66_release : forall c, same_in_release (fun m => run m c).
Proof. exact run_release. Qed.
Print Assumptions C66_release.

(** So values stay valid in a release build too, as long as a debug build would
    not have stopped one of the calls. *)
Theorem C66_release_valid_partial : forall v,
  made Release (fun c => harmless c /\ ~ panics (run Debug c)) v -> wf v.
Proof. exact made_wf_release. Qed.
Print Assumptions C66_release_valid_partial.

(** ** C67: however the calls are misused, in debug and in release builds, a
    value has exactly the words its width needs; and masking makes it valid. *)
Theorem C67_layout : forall m v, made m any_call v -> well_shaped v.
Proof. exact (fun m => made_shaped m any_call). Qed.
Print Assumptions C67_layout.

Theorem C67_repair : forall m v m', made m any_call v -> 0 < width v ->
  yields (bv_mask_msb m' v) (width v) (uval v mod 2 ^ width v).
Proof. exact (fun m v m' H W => made_repair m any_call v H W m'). Qed.
Print Assumptions C67_repair.

(** Parse "-1f", sign extend it to 137 bits, subtract that from the ones, take a
    slice and complement it. *)
Example C66_example : exists v, made Debug harmless v /\ width v = 70 /\ uval v = 2 ^ 70 - 8.
Proof.
  assert (A : made Debug harmless (bv_of 9 (512 - 31))).
  { apply (made_by Debug harmless (KFromHexStr [45; 49; 102])); [easy|reflexivity|exact I|reflexivity]. }
  assert (B : made Debug harmless (bv_of 137 (2 ^ 137 - 31))).
  { apply (made_by Debug harmless (KSignExtend (bv_of 9 (512 - 31)) 128)); [|reflexivity|exact I|reflexivity].
    intros a [<-|[]]. exact A. }
  assert (C : made Debug harmless (bv_of 137 (2 ^ 137 - 1))).
  { apply (made_by Debug harmless (KOnes 137)); [easy|reflexivity|exact I|reflexivity]. }
  assert (D : made Debug harmless (bv_of 137 30)).
  { apply (made_by Debug harmless (KBin BSub (bv_of 137 (2 ^ 137 - 1)) (bv_of 137 (2 ^ 137 - 31))));
      [|exact I|exact I|reflexivity]. intros a [<-|[<-|[]]]; assumption. }
  assert (F : made Debug harmless (bv_of 70 7)).
  { apply (made_by Debug harmless (KSlice (bv_of 137 30) 71 2)); [|split; reflexivity|exact I|reflexivity].
    intros a [<-|[]]. exact D. }
  exists (bv_of 70 (2 ^ 70 - 8)). split; [|split; reflexivity].
  apply (made_by Debug harmless (KNot (bv_of 70 7))); [|exact I|exact I|reflexivity].
  intros a [<-|[]]. exact F.
Qed.

(** A release build does not notice that 5 + 2^32 - 2 bits are too many, nor that
    the operands differ in width; the result is invalid, but it has one word and
    can be masked. *)
Example C67_example : exists v, made Release any_call v /\ ~ wf v /\ words v = [31 + 64]
  /\ bv_mask_msb Release v = Ok (bv_of 3 7).
Proof.
  exists (mkbv 3 [95]).
  assert (A : made Release any_call (bv_of 5 31)).
  { apply (made_by Release any_call (KOnes 5)); [easy|reflexivity|exact I|reflexivity]. }
  assert (B : made Release any_call (mkbv 3 [31])).
  { apply (made_by Release any_call (KZeroExtend (bv_of 5 31) (2 ^ 32 - 2))); [|reflexivity|exact I|reflexivity].
    intros a [<-|[]]. exact A. }
  assert (C : made Release any_call (bv_of 9 64)).
  { apply (made_by Release any_call (KFromU64 64 9)); [easy|split; reflexivity|exact I|reflexivity]. }
  split; [|split; [|split; reflexivity]].
  - apply (made_by Release any_call (KBin BOr (mkbv 3 [31]) (bv_of 9 64))); [|exact I|exact I|reflexivity].
    intros a [<-|[<-|[]]]; assumption.
  - intros (_ & _ & _ & H). vm_compute in H. discriminate.
Qed.

(** In a release build: 2^70 - 1, minus 5, shifted right by 66. *)
Example C66_release_example : exists v,
  made Release (fun c => harmless c /\ ~ panics (run Debug c)) v /\ width v = 70 /\ uval v = 15.
Proof.
  set (ok := fun c => harmless c /\ ~ panics (run Debug c)).
  assert (N0 : forall c r, run Debug c = Ok r -> ~ panics (run Debug c)) by (intros c r E (p & P); congruence).
  assert (A : made Release ok (bv_of 70 (2 ^ 70 - 1))).
  { apply (made_by Release ok (KOnes 70)); [easy|reflexivity| |reflexivity].
    split; [exact I|eapply N0; reflexivity]. }
  assert (B : forall n, n < 2 ^ 64 -> run Debug (KFromU64 n 70) = Ok (Some (bv_of 70 n)) ->
              run Release (KFromU64 n 70) = Ok (Some (bv_of 70 n)) -> made Release ok (bv_of 70 n)).
  { intros n Hn E1 E2. apply (made_by Release ok (KFromU64 n 70)); [easy|split; [exact Hn|reflexivity]| |exact E2].
    split; [exact I|eapply N0; exact E1]. }
  assert (C : made Release ok (bv_of 70 (2 ^ 70 - 6))).
  { apply (made_by Release ok (KBin BSub (bv_of 70 (2 ^ 70 - 1)) (bv_of 70 5))); [|exact I| |reflexivity].
    - intros a [<-|[<-|[]]]; [exact A|apply B; reflexivity].
    - split; [exact I|eapply N0; reflexivity]. }
  exists (bv_of 70 15). split; [|split; reflexivity].
  apply (made_by Release ok (KBin BShr (bv_of 70 (2 ^ 70 - 6)) (bv_of 70 66))); [|exact I| |reflexivity].
  - intros a [<-|[<-|[]]]; [exact C|apply B; reflexivity].
  - split; [exact I|eapply N0; reflexivity].
Qed.
