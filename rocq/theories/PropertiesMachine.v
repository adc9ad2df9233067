(** * PropertiesMachine: whole programs (C61). *)

From Coq Require Import ZifyBool ZifyNat ZifyN.
From Verif Require Import Base Arith Bv Map Indexed Array.
From Verif Require Import Spec RegSpec StoreSpec ArraySpec ExprSpec ProfileSpec MachineSpec.
From Verif Require Import PWords PropsArith PArrays PMachine.

(** ** C61: programs over a shared store and arrays compute what they mean *)
Theorem C61_programs : forall probe ho m is shapes code n s c, hashing probe -> reorders ho ->
  laid_out is (s_store s) -> holds_regs is s c -> made_arrays probe ho m shapes s c ->
  (forall k, (k < n)%nat -> legal m is shapes code (after is code k c)) ->
  exists s', steps probe ho m is code n s = Ok s'
    /\ holds_regs is s' (after is code n c) /\ holds_arrays probe m shapes s' (after is code n c)
    /\ len (s_store s') = len (s_store s)
    /\ forall p, (forall j, (j < length is)%nat -> ~ covers (index_at is j) p) ->
         nth (N.to_nat p) (s_store s') 0 = nth (N.to_nat p) (s_store s) 0.
Proof. exact steps_ok. Qed.
Print Assumptions C61_programs.

(** Legal or not, a run that ends in a debug build ends in the same state in a
    release build. *)
Theorem C61_profiles : forall probe ho is code n s,
  same_in_release (fun m => steps probe ho m is code n s).
Proof. exact profile_steps. Qed.
Print Assumptions C61_profiles.

(** A loop that adds up the first five elements of an array of 70-bit elements
    and stores the sum: registers i (8 bits), sum and tmp (70 bits). *)
Definition C61_is : list bvindex := [mkindex 8 5; mkindex 70 0; mkindex 70 3].
Definition C61_code : list instr :=
  [ ISelect 2 0 (EVar 0);                         (* tmp = mem[i]       *)
    IAssign 1 (EAdd (EVar 1) (EVar 2));           (* sum = sum + tmp    *)
    IAssign 0 (EAdd (EVar 0) (EWord 1 8));        (* i = i + 1          *)
    IJump 0 (EGt (EWord 5 8) (EVar 0));           (* if 5 > i goto 0    *)
    IStore 0 (EVar 0) (EVar 1);                   (* mem[i] = sum       *)
    IApply 2 1 0 (ESub (EVar 0) (EZext (EVar 1) 62)) (* tmp = sum - i   *)
  ].
Definition C61_conf : conf :=
  mkconf 0 (fun k => if Nat.eqb k 1 then 2 ^ 69 else 0) (fun _ _ => 2 ^ 67 + 3).

(** the program is legal in every configuration *)
Lemma C61_legal m c : legal m C61_is [(8, 70)] C61_code c.
Proof.
  assert (T0 : forall ws, ws 0 = 8 -> typed ws (EVar 0) 8)
    by (intros ws E; rewrite <- E; apply t_var; rewrite E; reflexivity).
  assert (T1 : forall ws, ws 1 = 70 -> typed ws (EVar 1) 70)
    by (intros ws E; rewrite <- E; apply t_var; rewrite E; reflexivity).
  assert (T2 : forall ws, ws 2 = 70 -> typed ws (EVar 2) 70)
    by (intros ws E; rewrite <- E; apply t_var; rewrite E; reflexivity).
  assert (W : forall n w, 0 < w -> w < 2 ^ 32 -> n < 2 ^ 64 -> n < 2 ^ w ->
    typed (reg_widths C61_is) (EWord n w) w) by (intros; now apply t_word).
  unfold legal. destruct (c_pc c) as [|[|[|[|[|[|k]]]]]]; cbn [nth_error C61_code].
  7: { destruct k; exact I. }
  1: { repeat split; cbn; try lia. now apply T0. }
  1: { repeat split; cbn; try lia. apply t_add; [now apply T1|now apply T2]. }
  1: { repeat split; cbn; try lia. apply t_add; [now apply T0|now apply W]. }
  1: { repeat split. apply (t_gt _ _ _ 8); [now apply W|now apply T0]. }
  1: { repeat split; cbn; try lia; [now apply T0|now apply T1]. }
  repeat split; cbn; try lia. apply t_sub.
  - apply (t_var (pair_of 70 8) 0); reflexivity.
  - apply (t_zext _ _ 62 8); [|reflexivity]. apply (t_var (pair_of 70 8) 1); reflexivity.
Qed.

Example C61_example :
  let s := mkstate 0 [0; 2 ^ 5; 77; 0; 0; 0] [ASparse (mksparse 8 70 (SU64Big (bv_of 70 (2 ^ 67 + 3)) []))] in
  laid_out C61_is (s_store s) /\ holds_regs C61_is s C61_conf
  /\ made_arrays some_probe some_order Debug [(8, 70)] s C61_conf
  /\ (forall m c, legal m C61_is [(8, 70)] C61_code c)
  /\ (let c := after C61_is C61_code 22 C61_conf in
      c_pc c = 6%nat /\ c_regs c 0%nat = 5 /\ c_regs c 1%nat = 2 ^ 67 + 15
      /\ c_mems c 0%nat 5 = 2 ^ 67 + 15 /\ c_regs c 2%nat = 2 ^ 67 + 10)
  /\ exists s', steps some_probe some_order Debug C61_is C61_code 22 s = Ok s'
      /\ get_ref (s_store s') (mkindex 70 3) = Ok (bv_of 70 (2 ^ 67 + 10)) /\ nth 2 (s_store s') 0 = 77.
Proof.
  intros s. split; [|split; [|split; [|split; [|split]]]].
  - split.
    + intros [|[|[|k]]] Hk; cbn in Hk; try lia; vm_compute; split; congruence.
    + intros [|[|[|j]]] [|[|[|k]]] Hj Hk Hn; cbn in Hj, Hk; try lia; unfold apart; vm_compute;
        (left; congruence) || (right; congruence).
  - split; [reflexivity|]. intros [|[|[|k]]] Hk; cbn in Hk; try lia.
    + exists (bv_of 8 0). split; [reflexivity|]. apply (bv_of_is_bv 8 0); reflexivity.
    + exists (bv_of 70 (2 ^ 69)). split; [reflexivity|]. apply (bv_of_is_bv 70 (2 ^ 69)); reflexivity.
    + exists (bv_of 70 0). split; [reflexivity|]. apply (bv_of_is_bv 70 0); reflexivity.
  - split; [reflexivity|]. intros [|[|k]] a H; cbn in H; try discriminate. injection H as <-.
    split; [vm_compute; congruence|].
    apply (built_sparse some_probe some_order Debug 8 (bv_of 70 (2 ^ 67 + 3))); try reflexivity.
    apply (bv_of_is_bv 70); reflexivity.
  - intros m c. apply C61_legal.
  - vm_compute. repeat split.
  - eexists. split; [vm_compute; reflexivity|]. split; reflexivity.
Qed.
