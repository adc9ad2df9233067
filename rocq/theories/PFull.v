(** * PFull: the reference interpreter for the whole library in both build profiles is
    right (C88). *)

From Coq Require Import ZifyBool ZifyNat ZifyN Permutation.
From Verif Require Import Base Bv Map Array Indexed Unwind Spec ArraySpec CallSpec PanicSpec KindSpec UnwindSpec DirtySpec
  AnswerSpec StoreSpec.
From Verif Require ArrayInterpSpec BvInterpSpec ReleaseInterpSpec RawArraySpec PBvInterp PReleaseInterp PRawArray PRawInterp.
Import ArrayInterpSpec(New, Change, perform1).
Import RawArraySpec(raw_predict1, raw_range, raw_read, Known, Panicking, Unknown).
Import BvInterpSpec(slot, set, vperform1, Make, Update, Inspect, Binary, Unary, Done, Panicked, Missing, Says, Tells, ISetBit, IAssign).
From Verif Require Import PWords PropsArith PRegister PStore PDirty PArrays PUnwind PIntern WholeSpec FullSpec PWhole.
Import PBvInterp(related).
Import PRawInterp(agree).
Ltac Zify.zify_post_hook ::= idtac.

(** ** The interner without the entry for width 0 *)
Definition nonempty (l : list N) : bool := match l with [] => false | _ => true end.
Definition shadow (p : interner) : interner :=
  mkinterner (in_words p) (in_small p) (filter (fun e => nonempty (fst e)) (in_large p)).

Lemma shadow_get l k : nonempty k = true ->
  hm_get words_eqb (filter (fun e : list N * N => nonempty (fst e)) l) k = hm_get words_eqb l k.
Proof.
  intros K. induction l as [|[a i] l IH]; [reflexivity|]. cbn [filter fst hm_get].
  destruct (nonempty a) eqn:Na; cbn [hm_get]; [now rewrite IH|]. destruct (words_eqb a k) eqn:E; [|exact IH].
  apply words_eqb_eq in E. congruence.
Qed.
Lemma shadow_insert l k i : hm_get words_eqb l k = None ->
  filter (fun e : list N * N => nonempty (fst e)) (hm_insert words_eqb l k i)
  = filter (fun e => nonempty (fst e)) l ++ (if nonempty k then [(k, i)] else []).
Proof. intros H. rewrite (hm_insert_new words_eqb l k i H), filter_app. reflexivity. Qed.

Lemma shadow_index m p v p' i : nonempty (words v) = true -> interner_get_index m p v = Ok (p', i) ->
  interner_get_index m (shadow p) v = Ok (shadow p', i).
Proof.
  intros K E. unfold interner_get_index in *. destruct (words v) as [|x [|y l]] eqn:W; [discriminate K|..].
  - destruct (debug_assert m (width v <=? 64)) as [[]|]; [|discriminate E]. cbn [bind shadow in_small in_words in_large] in *.
    destruct (x <? 8); [injection E as <- <-; reflexivity|].
    destruct (hm_get N.eqb (in_small p) x); injection E as <- <-; reflexivity.
  - destruct (debug_assert m (64 <? width v)) as [[]|]; [|discriminate E]. cbn [bind shadow in_small in_words in_large] in *.
    rewrite (shadow_get _ _ K). destruct (hm_get words_eqb (in_large p) (x :: y :: l)) as [j|] eqn:G.
    + injection E as <- <-. reflexivity.
    + injection E as <- <-. unfold shadow. cbn [in_words in_small in_large]. rewrite (shadow_insert _ _ _ G), K.
      rewrite hm_insert_new; [reflexivity|]. now rewrite (shadow_get _ _ K).
Qed.

Lemma empty_index p v : inv p -> width v = 0 -> words v = [] -> len (in_words p) < 2 ^ 32 ->
  exists p' i, interner_get_index Release p v = Ok (p', i)
    /\ inv p' /\ extends p p' /\ interned p' v i /\ shadow p' = shadow p.
Proof.
  intros I W0 W L. unfold interner_get_index. rewrite W. cbn [debug_assert bind].
  assert (H8 : 8 <= len (in_words p)).
  { destruct (inv_head p I) as (t & E). rewrite E, len_app. change (len [0;1;2;3;4;5;6;7]) with 8. lia. }
  destruct (hm_get words_eqb (in_large p) []) as [j|] eqn:G.
  - exists p, (index_new j (width v)). split; [reflexivity|]. split; [auto|]. split; [apply extends_refl|]. split; [|auto].
    unfold interned. rewrite W. split; [reflexivity|]. split; [now apply (inv_large p I)|exact G].
  - eexists _, _. split; [reflexivity|]. rewrite app_nil_r.
    assert (Eu : as_u32 (len (in_words p)) = len (in_words p)) by (unfold as_u32; apply N.mod_small; rewrite B32_eq; lia).
    rewrite Eu. split; [|split; [|split]].
    + split; cbn [in_words in_small in_large]; [apply (inv_head p I)|apply (inv_small p I)|].
      intros l i Hg. rewrite (hm_insert_new _ _ _ _ G) in Hg. destruct l as [|x l].
      * rewrite <- (hm_insert_new _ _ _ _ G), hm_get_insert_same in Hg by (intros; now apply words_eqb_eq).
        injection Hg as <-. split; [split; [change (@len N []) with 0; lia|reflexivity]|auto].
      * rewrite <- (hm_insert_new _ _ _ _ G), hm_get_insert_other in Hg; [now apply (inv_large p I)|apply words_eqb_eq|easy].
    + split; cbn [in_words in_small in_large]; [exists []; now rewrite app_nil_r|]. split; [auto|].
      intros l i Hg. rewrite hm_get_insert_other; [auto|apply words_eqb_eq|]. intros <-. congruence.
    + unfold interned. cbn [in_words in_small in_large index_new i_width i_index]. rewrite W. split; [auto|]. split.
      * split; [change (@len N []) with 0; lia|reflexivity].
      * apply hm_get_insert_same. intros; now apply words_eqb_eq.
    + unfold shadow. cbn [in_words in_small in_large]. rewrite (shadow_insert _ _ _ G). cbn [nonempty].
      now rewrite app_nil_r.
Qed.

(** ** Handles *)
Definition handed (p : interner) (hs : N -> option bvindex) (ms : N -> option slot) : Prop :=
  forall h, match hs h, ms h with
            | Some i, Some s => interned p (value s) i /\ stores (value s) (fst s) (snd s)
            | None, None => True
            | _, _ => False
            end.

Lemma handed_extends p p' hs ms : extends p p' -> handed p hs ms -> handed p' hs ms.
Proof.
  intros E H h. specialize (H h). destruct (hs h), (ms h); auto. destruct H as (A & B).
  split; [now apply (interned_extends p)|exact B].
Qed.
Lemma handed_set p hs ms h i s : handed p hs ms -> interned p (value s) i -> stores (value s) (fst s) (snd s) ->
  handed p (set hs h i) (set ms h s).
Proof. intros H A B g. unfold set. destruct (g =? h); [auto|apply H]. Qed.

Lemma shaped_empty v : well_shaped v -> width v = 0 -> words v = [].
Proof.
  intros (_ & L & _) E. rewrite E in L. change ((0 + 63) / 64) with 0 in L.
  destruct (words v); [reflexivity|]. rewrite len_cons in L. exfalso. clear - L. lia.
Qed.

Lemma builtin_ok p s i n : n < 8 -> inv p -> interned p (value s) i -> stores (value s) (fst s) (snd s) ->
  (i_index i =? n) = builtin n s.
Proof.
  intros Hn I In S. unfold builtin. destruct (N.eq_dec (fst s) 0) as [Z|Z].
  - rewrite Z. cbn [N.ltb N.compare]. rewrite andb_false_r. cbn [andb].
    destruct S as (W & Ew & _). rewrite Z in Ew. destruct In as (_ & _ & G). rewrite (shaped_empty _ W Ew) in G.
    destruct (inv_large p I _ _ G) as (_ & L). lia.
  - replace (0 <? fst s) with true by lia. rewrite andb_true_r.
    rewrite (interned_const_shaped p (value s) i n Hn I In (proj1 S)); destruct S as (_ & -> & En); [now rewrite En|lia].
Qed.

(** ** Steps *)
Definition shows (w : world) (r : picture) : Prop :=
  related (vectors w) (slots r) /\ agree (arrays w) (raws r)
  /\ inv (pool w) /\ counts (shadow (pool w)) (interned_values r) /\ handed (pool w) (handles w) (means r).

Lemma saw_shaped m env ref k i ref' v : agree env ref -> well_shaped i ->
  raw_predict1 m ref (ArrayInterpSpec.Select k i) = Some (ref', ArrayInterpSpec.Saw v) -> well_shaped v.
Proof.
  intros Ag W E. assert (H := Ag k). cbn [raw_predict1] in E.
  destruct (ref k) as [r|]; [|discriminate E]. destruct (env k) as [a|]; [|easy].
  assert (Y := PRawArray.read_told some_probe m a r i (width i) (uval i) H (shaped_stores i W)).
  destruct (raw_read m r (width i) (uval i)) as [[n x]| |]; try discriminate E. injection E as <- <-.
  destruct Y as (v & _ & S). change (stores v n x) in S. rewrite <- (PRawArray.stores_unique _ _ _ S). apply S.
Qed.

Lemma array_call_ok probe ho order m w r c r' o : reorders ho -> reorders order ->
  shows w r -> raw_range c -> array_call m r c = Some (r', o) ->
  shows (fst (on_array probe ho order m w c)) r' /\ snd (on_array probe ho order m w c) = o.
Proof.
  intros Ho Or (R & Ag & I & C & H) T E. unfold on_array, array_call in *.
  destruct (raw_predict1 m (raws r) c) as [[e o1]|] eqn:E1; [|discriminate E].
  destruct (PRawInterp.raw_step probe ho order m (arrays w) (raws r) c e o1 Ho Or Ag T E1) as (X1 & X2).
  destruct (perform1 probe ho order m (arrays w) c) as [e' o']. cbn [fst snd] in *. subst o'. injection E as <- <-.
  split; [|reflexivity]. split; [exact R|]. split; [exact X2|cbn; auto].
Qed.

Lemma give_ok w r k v n x : shows w r -> stores v n x ->
  shows (fst (assign w k v)) (fst (give r k (n, x))) /\ snd (assign w k v) = snd (give r k (n, x)).
Proof.
  intros (R & Ag & I & C & H) S. split; [|reflexivity]. split; [|cbn; auto]. cbn. now apply PBvInterp.related_set.
Qed.

Lemma intern_ok probe ho order m w r h k s r' o : shows w r -> slots r k = Some s -> intern m r h s = Some (r', o) ->
  shows (fst (wperform1 probe ho order m w (Intern h k))) r'
  /\ snd (wperform1 probe ho order m w (Intern h k)) = o.
Proof.
  intros Sh Er E. assert (Sh' := Sh). destruct Sh' as (R & Ag & I & C & H). assert (X := R k). rewrite Er in X.
  cbn [wperform1]. destruct (vectors w k) as [v|]; [|easy]. destruct s as [n x].
  assert (Ev := stores_value _ _ _ X). assert (Sv := stores_same _ _ _ X). destruct X as (Wv & Ew & En).
  assert (U := same_interner m (pool w) v). unfold intern in E. cbn [fst snd] in E. destruct (N.eqb_spec n 0) as [Z|Z].
  - assert (W0 := shaped_empty v Wv ltac:(congruence)). destruct m.
    + injection E as <- <-. unfold interner_get_index in U. rewrite W0, Ew, Z in U. cbn in U.
      destruct (un_get_index Debug v (pool w)); [discriminate U|]. destruct U as (_ & ->). destruct w. auto.
    + destruct (stored (interned_values r) <? 2 ^ 32) eqn:B; [|discriminate E]. injection E as <- <-.
      destruct (counts_stored _ _ C) as (_ & _ & L). cbn [shadow in_words] in L.
      destruct (empty_index (pool w) v I ltac:(congruence) W0 ltac:(lia)) as (p & i & G & I' & Ex & In & Es).
      destruct (un_get_index Release v (pool w)) as [p' i'|p' q]; [|destruct U; congruence].
      rewrite G in U. injection U as <- <-. split; [|reflexivity]. split; [exact R|]. split; [exact Ag|].
      split; [exact I'|]. split; [cbn; now rewrite Es|]. cbn. apply handed_set; auto; [now apply (handed_extends (pool w))|].
      now rewrite <- Ev.
  - destruct (stored (interned_values r ++ [value (n, x)]) <=? 2 ^ 32) eqn:B; [|discriminate E]. injection E as <- <-.
    destruct (get_index_shaped m (pool w) v I Wv ltac:(lia)) as (p & i & G & _ & K).
    assert (Nv : nonempty (words v) = true).
    { destruct (words v) eqn:E0; [|reflexivity]. destruct Wv as (_ & L & _). rewrite E0, Ew in L.
      change (@len N []) with 0 in L. exfalso. clear - L Z. dlia. }
    assert (C' := counts_shaped m _ _ _ _ _ C Wv ltac:(lia) (shadow_index m _ _ _ _ Nv G)). rewrite Ev in C'.
    destruct (counts_stored _ _ C') as (_ & _ & L). cbn [shadow in_words] in L. destruct (K ltac:(lia)) as (I' & Ex & In).
    destruct (un_get_index m v (pool w)) as [p' i'|p' q]; [|destruct U; congruence].
    rewrite G in U. injection U as <- <-. split; [|reflexivity]. split; [exact R|]. split; [exact Ag|].
    split; [exact I'|]. split; [exact C'|]. cbn. apply handed_set; auto; [now apply (handed_extends (pool w))|].
    now rewrite <- Ev.
Qed.

Lemma vector_step_ok m env renv c : related env renv -> BvInterpSpec.vcall_range c ->
  related (fst (vperform1 m env c)) (fst (vector_step m renv c))
  /\ snd (vperform1 m env c) = snd (vector_step m renv c).
Proof.
  intros R T. destruct m; cbn [vector_step].
  - apply (PBvInterp.step_ok Debug env renv c R T). now left.
  - now apply PReleaseInterp.rstep_ok.
Qed.

Lemma fstep_ok probe ho order m w r c r' o : reorders ho -> reorders order ->
  shows w r -> fcall_range c -> fpredict1 m r c = Some (r', o) ->
  shows (fst (wperform1 probe ho order m w c)) r' /\ snd (wperform1 probe ho order m w c) = o.
Proof.
  intros Ho Or Tr T E. assert (Tr' := Tr). destruct Tr as (R & Ag & I & C & H).
  destruct c as [c|c|a dense iw d|k a i|a i x|h k|k h|h g|h|h]; cbn [fpredict1 fcall_range] in *.
  - cbn [wperform1]. assert (X := vector_step_ok m (vectors w) (slots r) c R T).
    destruct (vector_step m (slots r) c) as [e q]. injection E as <- <-. cbn [fst snd] in X. destruct X as (X1 & X2).
    destruct (vperform1 m (vectors w) c) as [e' q']. cbn [fst snd] in *. subst q'. split; [|reflexivity].
    split; [exact X1|cbn; auto].
  - now apply array_call_ok with (r := r).
  - cbn [wperform1]. assert (Rd := R d). destruct (vectors w d) as [v|], (slots r d) as [[n x]|]; try easy.
    + rewrite <- (stores_value v n x Rd) in E. apply (array_call_ok _ _ _ _ _ r); auto.
      destruct dense; (split; [apply Rd|exact T]).
    + injection E as <- <-. auto.
  - cbn [wperform1]. assert (Ri := R i). destruct (vectors w i) as [v|], (slots r i) as [[n x]|]; try easy.
    + rewrite <- (stores_value v n x Ri) in E. assert (Wv : well_shaped v) by apply Ri.
      destruct (array_call m r (ArrayInterpSpec.Select a v)) as [[r1 o1]|] eqn:Eo; [|discriminate E].
      destruct (array_call_ok probe ho order m w r (ArrayInterpSpec.Select a v) r1 o1 Ho Or Tr' Wv Eo) as (X1 & X2).
      destruct (on_array probe ho order m w (ArrayInterpSpec.Select a v)) as [w1 o2]. cbn [fst snd] in *. subst o2.
      destruct o1 as [o1|o1]; [injection E as <- <-; auto|].
      destruct o1; try (injection E as <- <-; auto).
      assert (Sh : stores v0 (width v0) (uval v0)).
      { apply shaped_stores. unfold array_call in Eo.
        destruct (raw_predict1 m (raws r) (ArrayInterpSpec.Select a v)) as [[e2 o2]|] eqn:E2; [|discriminate Eo].
        injection Eo as <- ->. exact (saw_shaped m _ _ _ _ _ _ Ag Wv E2). }
      apply (give_ok w1 r1 k v0 (width v0) (uval v0) X1 Sh).
    + injection E as <- <-. auto.
  - cbn [wperform1]. assert (Ri := R i). assert (Rx := R x).
    destruct (vectors w i) as [v|], (slots r i) as [[n y]|]; try easy; [|injection E as <- <-; auto].
    destruct (vectors w x) as [u|], (slots r x) as [[n' y']|]; try easy; [|injection E as <- <-; auto].
    rewrite <- (stores_value v n y Ri), <- (stores_value u n' y' Rx) in E.
    apply (array_call_ok _ _ _ _ _ r); auto. split; [apply Ri|apply Rx].
  - destruct (slots r k) as [s|] eqn:Er; [now apply (intern_ok probe ho order m w r h k s)|].
    injection E as <- <-. cbn [wperform1]. assert (X := R k). rewrite Er in X. destruct (vectors w k); [easy|]. auto.
  - cbn [wperform1]. injection E as E. assert (Hh := H h). destruct (handles w h) as [i|], (means r h) as [s|]; try easy.
    + destruct Hh as (A & S). unfold interner_words. rewrite (interned_read_shaped _ _ _ A (proj1 S)).
      destruct s as [n x]. destruct (give_ok w r k (value (n, x)) n x Tr' S) as (Y1 & Y2).
      rewrite E in Y1, Y2. auto.
    + injection E as <- <-. auto.
  - cbn [wperform1]. injection E as <- <-. split; [exact Tr'|]. cbn [snd]. assert (Hh := H h). assert (Hg := H g).
    destruct (handles w h) as [i|], (means r h) as [s|]; try easy.
    destruct (handles w g) as [j|], (means r g) as [t|]; try easy.
    destruct Hh, Hg. do 2 f_equal. now apply (same_handle (pool w)).
  - cbn [wperform1]. injection E as <- <-. split; [exact Tr'|]. cbn [snd]. assert (Hh := H h).
    destruct (handles w h) as [i|], (means r h) as [s|]; try easy. destruct Hh as (A & S).
    do 2 f_equal. unfold interner_is_zero. now apply (builtin_ok (pool w)).
  - cbn [wperform1]. injection E as <- <-. split; [exact Tr'|]. cbn [snd]. assert (Hh := H h).
    destruct (handles w h) as [i|], (means r h) as [s|]; try easy. destruct Hh as (A & S).
    do 2 f_equal. unfold interner_is_one. now apply (builtin_ok (pool w)).
Qed.

Lemma fperform_from_ok probe ho order m : reorders ho -> reorders order ->
  forall cs w r os, shows w r -> Forall fcall_range cs -> fpredict_from m r cs = Some os ->
  wperform_from probe ho order m w cs = os.
Proof.
  intros Ho Or. induction cs as [|c cs IH]; intros w r os Tr T E; cbn [fpredict_from wperform_from] in *.
  { now injection E as <-. }
  inversion_clear T as [|? ? T1 T2]. destruct (fpredict1 m r c) as [[r' o]|] eqn:E1; [|discriminate E].
  destruct (fpredict_from m r' cs) as [l|] eqn:E2; [|discriminate E]. injection E as <-.
  destruct (fstep_ok probe ho order m w r c r' o Ho Or Tr T1 E1) as (X1 & X2).
  destruct (wperform1 probe ho order m w c) as [w' o']. cbn [fst snd] in *. subst o'. f_equal. now apply (IH w' r').
Qed.

Lemma fperform_ok probe ho order m cs os : reorders ho -> reorders order ->
  Forall fcall_range cs -> fpredict m cs = Some os -> wperform probe ho order m cs = os.
Proof.
  intros Ho Or T E. apply (fperform_from_ok probe ho order m Ho Or cs fresh empty); auto.
  split; [intros k; exact Logic.I|]. split; [intros k; exact Logic.I|]. split; [apply inv_new|]. split; [apply counts_new|].
  intros k. exact Logic.I.
Qed.

Lemma fpredict_agrees cs os os' : Forall fcall_range cs -> Forall wcall_range cs ->
  fpredict Debug cs = Some os -> wpredict cs = Some os' -> os = os'.
Proof.
  intros T T' E E'. assert (R : reorders (fun _ l => l)) by (intros ? ?; reflexivity).
  rewrite <- (wperform_debug some_probe _ _ cs os' some_probe_hashing R R T' E').
  symmetry. now apply fperform_ok.
Qed.

Lemma full_example :
  let cs := [OnVector (Make 0 (KFromU64 300 8)); OnVector (Make 1 (KFromU64 1023 10)); OnVector (Make 2 (KFromU64 2 2));
             OnVector (Make 3 (KFromU64 7 70)); NewArray 0 true 3 0; Store 0 2 1; Select 4 0 2; OnVector (Inspect LU64 4);
             OnVector (Update 2 (IAssign 1)); Store 0 2 1; OnVector (Make 2 (KFromU64 2 2));
             OnVector (Make 5 (KFromU64 1 10)); OnVector (Update 5 (ISetBit 12)); NewArray 1 false 3 5; Store 1 2 5;
             Select 6 1 2; OnVector (Inspect LU64 6); Intern 0 5; Intern 1 6; Same 0 1; Fetch 7 0;
             OnVector (Inspect LU64 7); NewArray 2 false 2 3; Store 2 2 0; Select 8 2 2; OnVector (Inspect LWidth 8);
             OnVector (Make 9 (KZero 0)); Intern 2 9; Intern 3 9; Same 2 3; IsZero 2; Fetch 10 2;
             OnVector (Inspect LWidth 10)] in
  Forall fcall_range cs
  /\ fpredict Release cs = Some
     [V Done; V Done; V Done;
      V Done; A ArrayInterpSpec.Done; A ArrayInterpSpec.Done; V Done; V (Tells (AOptNum (Some 255)));
      V Done; A ArrayInterpSpec.Panicked; V Done;
      V Done; V Done; A ArrayInterpSpec.Done; A ArrayInterpSpec.Done;
      V Done; V (Tells (AOptNum (Some 1))); V Done; V Done; V (Says false); V Done;
      V (Tells (AOptNum (Some 4097))); A ArrayInterpSpec.Done; A ArrayInterpSpec.Done; V Done; V (Tells (ANum 8));
      V Done; V Done; V Done; V (Says true); V (Says false); V Done;
      V (Tells (ANum 0))]
  /\ fpredict Debug cs = Some
     [V Panicked; V Done; V Done;
      V Done; V Missing; A ArrayInterpSpec.Missing; A ArrayInterpSpec.Missing; V Missing;
      V Panicked; A ArrayInterpSpec.Missing; V Done;
      V Done; V Done; A ArrayInterpSpec.Done; A ArrayInterpSpec.Panicked;
      A ArrayInterpSpec.Panicked; V Missing; V Done; V Missing; V Missing; V Done;
      V (Tells (AOptNum (Some 4097))); A ArrayInterpSpec.Done; V Missing; V Done; V (Tells (ANum 70));
      V Done; V Panicked; V Panicked; V Missing; V Missing; V Missing;
      V Missing]
  /\ Some (wperform some_probe (fun _ l => rev l) (fun _ l => l) Release cs) = fpredict Release cs.
Proof.
  cbv zeta. match goal with |- Forall _ ?l /\ _ => assert (T : Forall fcall_range l) end.
  { repeat (apply Forall_cons || apply Forall_nil); cbn -[N.pow]; auto; repeat split; try reflexivity;
      vm_compute; congruence. }
  split; [exact T|]. split; [vm_compute; reflexivity|]. split; vm_compute; reflexivity.
Qed.
