(** * PPersist: saving and loading values (C64, C65). *)

From Coq Require Import String ZifyBool ZifyNat ZifyN.
From Verif Require Import Base Arith Map Bv Array Serde Spec ArraySpec.
From Verif Require Import PWords PropsArith PConv PDense PSparse PSerde PConvert PArrays.
Ltac Zify.zify_post_hook ::= idtac.
Open Scope list_scope.

Lemma reload_bv v w x : is_bv v w x -> de_bv (ser_bv v) = Some v.
Proof. intros (W & _). now apply de_bv_ok. Qed.

Lemma reload_array probe ho m order a iw dw f : hashing probe -> reorders ho -> reorders order ->
  built probe ho m a iw dw f ->
  exists a', de_array (ser_array order a) = Some a' /\ built probe ho m a' iw dw f
    /\ array_is_dense a' = array_is_dense a /\ array_is_equal ho m a a' = Ok (Some true).
Proof.
  intros P Ho Oo B. assert (I := built_inv _ _ _ _ _ _ _ P Ho B).
  destruct (reload_inv order a iw dw f Oo I) as (a' & E & I' & K). exists a'. split; [auto|].
  split; [eapply built_reload; eauto|].
  destruct a as [s|d], a' as [s'|d']; try contradiction; (split; [reflexivity|]); cbn [array_inv array_is_equal] in *.
  - assert (A := I). assert (A' := I'). destruct A as (Wa & Ia & Da & _), A' as (Wb & Ib & Db & _).
    destruct (sparse_equal_ok m s s' iw dw) as (c & Ec & Hc); auto. rewrite Ec. do 2 f_equal.
    apply Hc. apply (sparse_equal_contents s s' iw dw f f I I'). split; [auto|]. intros i Hi. reflexivity.
  - subst d'. destruct I as (Wd & Ei & Ed & _).
    destruct (dense_equal_ok m d d iw dw) as (c & Ec & Hc); auto. rewrite Ec. do 2 f_equal.
    apply Hc. auto.
Qed.

(** ** Trees that were not made by [ser_bv] *)
Lemma omapM_range b l : forall r, omapM (de_int b) l = Some r -> Forall (fun x => x < b) r.
Proof.
  induction l as [|t l IH]; intros r H; cbn [omapM] in H.
  - injection H as <-. constructor.
  - destruct (de_int b t) as [y|] eqn:E; [|discriminate]. cbn [obind] in H.
    destruct (omapM (de_int b) l) as [r'|]; [|discriminate]. cbn [obind] in H. injection H as <-.
    constructor; [|auto]. destruct t; try discriminate. cbn [de_int] in E.
    destruct (n <? b) eqn:L; [|discriminate]. injection E as <-. lia.
Qed.

Lemma de_bv_range t v : de_bv t = Some v -> width v < 2 ^ 32 /\ Forall (fun x => x < 2 ^ 64) (words v).
Proof.
  destruct t; try discriminate. cbn [de_bv].
  destruct (field "width" fields) as [tw|]; [|discriminate]. cbn [obind].
  destruct (de_int B32 tw) as [w|] eqn:Ew; [|discriminate]. cbn [obind].
  destruct (field "words" fields) as [tl|]; [|discriminate]. cbn [obind].
  destruct (de_seq B64 tl) as [l|] eqn:El; [|discriminate]. cbn [obind]. intros [= <-]. cbn [width words].
  rewrite B32_eq in Ew. rewrite B64_eq in El. split.
  - destruct tw; try discriminate. cbn [de_int] in Ew. destruct (n <? 2 ^ 32) eqn:L; [|discriminate].
    injection Ew as <-. now apply N.ltb_lt.
  - destruct tl; try discriminate. now apply omapM_range in El.
Qed.

Lemma de_bv_repair m t v : de_bv t = Some v -> 0 < width v -> len (words v) = (width v + 63) / 64 ->
  yields (bv_mask_msb m v) (width v) (words_val (words v) mod 2 ^ width v).
Proof.
  intros H Hw Hl. destruct (de_bv_range t v H) as (A & B). destruct v as [w l]. cbn [width words] in *.
  now apply mask_msb_bv.
Qed.

Lemma de_bv_refuted : exists t v, de_bv t = Some v /\ ~ wf v.
Proof.
  exists (TStruct [("words"%string, TSeq [TInt 2]); ("width"%string, TInt 1)]), (mkbv 1 [2]).
  split; [reflexivity|]. intros (_ & _ & _ & H). vm_compute in H. discriminate.
Qed.

Lemma de_array_refuted : forall probe m, exists t a i, de_array t = Some a
  /\ is_bv i (array_index_width a) 3 /\ panics (array_select probe m a i).
Proof.
  intros probe m.
  exists (TStruct [("data"%string, TNewtype "Dense" (TStruct [("index_width"%string, TInt 2);
            ("data_width"%string, TInt 8); ("data"%string, TNewtype "U8" (TSeq [TInt 1; TInt 2]))]))]),
    (ADense (mkdense 2 8 (DU8 [1; 2]))), (bv_of 2 3).
  split; [reflexivity|]. split; [apply (bv_of_is_bv 2 3); reflexivity|].
  destruct m; eexists; reflexivity.
Qed.
