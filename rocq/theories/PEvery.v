(** * PEvery: the interpreter for programs with every operation gives exactly the
    behaviours of the code (C94). *)

From Coq Require Import ZifyBool ZifyNat ZifyN Permutation.
From Verif Require Import Base Strings Bv Map Array Fmt Indexed Unwind Spec ArraySpec CallSpec PanicSpec DirtySpec MixedSpec
  AnswerSpec StoreSpec KindSpec UnwindSpec.
From Verif Require ArrayInterpSpec BvInterpSpec StoreInterpSpec RawArraySpec PBvInterp PStoreInterp PRawArray PRawInterp.
From Verif Require Import PWords PropsArith PRegister PStore PDirty PAnswer PArrays PUnwind PIntern WholeSpec FullSpec PWhole
  PFull AllSpec PAll ChanceSpec.
From Verif Require FullArraySpec PChance PFullArray.
From Verif Require Import EverySpec.
Import BvInterpSpec(slot, set).
Import StoreInterpSpec(scall_range, index_typed).
Import FullArraySpec(luck, plain, mkluck, full_perform1, full_predict1).
Import PBvInterp(related).
Import PChance(tagree, tholds, matching, matching_some, matching_all, any_step).
Import PFullArray(firm, full_matching, full_step, full_matching_some, full_matching_all, firm_plain).
Ltac Zify.zify_post_hook ::= idtac.

(** ** The interner *)
Definition good (s : slot) : Prop := stores (value s) (fst s) (snd s).
Definition wd (s : slot) : list N := words (value s).
Definition laid (l : list slot) : list N := flat_map wd l.
Definition on_tape (l : list slot) (s : slot) : bool := existsb (fun t => alike t s) l.
Definition known_at (l : list slot) (s : slot) : option N :=
  if on_tape l s then Some (place l s mod 2 ^ 32) else None.

Lemma good_words s : good s -> len (wd s) = places (fst s) /\ Words (wd s) /\ wv (wd s) = snd s.
Proof.
  intros G. destruct (stores_length _ _ _ G) as (L & W & V). unfold wd, len. split; [lia|auto].
Qed.

Lemma alike_words s t : good s -> good t -> alike s t = true <-> wd s = wd t.
Proof.
  intros S T. apply good_words in S as (L & W & V). apply good_words in T as (L' & W' & V'). unfold alike. split.
  - intros E. apply andb_prop in E as [E1 E2]. apply wv_inj; auto; lia.
  - intros E. rewrite <- L, <- L', <- V, <- V', E, !N.eqb_refl. reflexivity.
Qed.
Lemma alike_trans s t u : alike s t = true -> alike u s = alike u t.
Proof.
  unfold alike. intros E. apply andb_prop in E as [E1 E2]. apply N.eqb_eq in E1, E2. now rewrite E1, E2.
Qed.
Lemma place_alike l s t : alike s t = true -> place l s = place l t /\ on_tape l s = on_tape l t.
Proof.
  intros E. unfold on_tape. induction l as [|u l IH]; [auto|]. cbn [place existsb]. rewrite (alike_trans s t u E).
  destruct IH as (-> & ->). auto.
Qed.

Lemma laid_words l : Forall good l -> Words (laid l).
Proof.
  induction 1 as [|s l G F IH]; [constructor|]. cbn [laid flat_map]. apply Forall_app. split; [|exact IH].
  apply (good_words s G).
Qed.
Lemma laid_number l : Forall good l -> wv (laid l) = tape_number l.
Proof.
  induction 1 as [|s l G F IH]; [reflexivity|]. cbn [laid flat_map tape_number].
  destruct (good_words s G) as (L & W & V). rewrite wv_app, L, V. fold (laid l). now rewrite IH.
Qed.
Lemma laid_cons s l : good s -> len (laid (s :: l)) = places (fst s) + len (laid l).
Proof. intros G. cbn [laid flat_map]. rewrite len_app. fold (laid l). now rewrite (proj1 (good_words s G)). Qed.
Lemma laid_length l : Forall good l -> len (laid l) = tape_length l.
Proof.
  induction 1 as [|s l G F IH]; [reflexivity|]. rewrite (laid_cons s l G), IH. reflexivity.
Qed.
Lemma laid_snoc l s : laid (l ++ [s]) = laid l ++ wd s.
Proof. unfold laid. rewrite flat_map_app. cbn [flat_map]. now rewrite app_nil_r. Qed.

Lemma place_end l s : Forall good l -> on_tape l s = false -> place l s = len (laid l).
Proof.
  intros F. unfold on_tape. induction F as [|t l G F IH]; [reflexivity|]. rewrite (laid_cons t l G). cbn [place existsb].
  destruct (alike t s); [discriminate|]. cbn [orb]. intros E. now rewrite IH.
Qed.
Lemma place_room l s : Forall good l -> on_tape l s = true -> place l s + places (fst s) <= len (laid l).
Proof.
  intros F. unfold on_tape. induction F as [|t l G F IH]; [discriminate|]. rewrite (laid_cons t l G). cbn [place existsb].
  destruct (alike t s) eqn:E; cbn [orb].
  - intros _. unfold alike in E. apply andb_prop in E as [E _]. lia.
  - intros E'. specialize (IH E'). lia.
Qed.
Lemma on_app l k s : on_tape (l ++ k) s = on_tape l s || on_tape k s.
Proof. apply existsb_app. Qed.
Lemma place_app l k s : Forall good l ->
  place (l ++ k) s = if on_tape l s then place l s else len (laid l) + place k s.
Proof.
  intros F. unfold on_tape. induction F as [|t l G F IH]; [reflexivity|]. rewrite (laid_cons t l G). cbn [app place existsb].
  destruct (alike t s); [reflexivity|]. cbn [orb]. rewrite IH. destruct (existsb _ l); [reflexivity|lia].
Qed.

Lemma insert_len {K V} (eqb : K -> K -> bool) (l : list (K * V)) k v :
  hm_get eqb l k = None -> len (hm_insert eqb l k v) = len l + 1.
Proof.
  induction l as [|[k' v'] l IH]; [reflexivity|]. cbn [hm_get hm_insert]. destruct (eqb k' k); [discriminate|].
  intros E. rewrite !len_cons, IH by exact E. lia.
Qed.
Lemma filter_snoc {A} (f : A -> bool) l x : len (filter f (l ++ [x])) = len (filter f l) + if f x then 1 else 0.
Proof. rewrite filter_app, len_app. cbn [filter]. now destruct (f x). Qed.
Lemma one_word_len s : good s -> one_word s = (len (wd s) =? 1).
Proof. intros G. unfold one_word. now rewrite (proj1 (good_words s G)). Qed.

Record pooled (p : interner) (l : list slot) : Prop := {
  p_good : Forall good l;
  p_words : in_words p = laid l;
  p_head : exists t, l = constants ++ t;
  p_small : forall s x, good s -> wd s = [x] -> 8 <= x -> hm_get N.eqb (in_small p) x = known_at l s;
  p_large : forall s, good s -> len (wd s) <> 1 -> hm_get words_eqb (in_large p) (wd s) = known_at l s;
  p_few : len (in_small p) + 8 = len (filter one_word l);
  p_many : len (in_large p) = large_ones l }.

Lemma constants_good : Forall good constants.
Proof.
  unfold constants. cbn [map]. repeat constructor; try reflexivity.
Qed.

Lemma constant_place w n : places w = 1 -> n < 8 -> on_tape constants (w, n) = true /\ place constants (w, n) = n.
Proof.
  intros W H. unfold on_tape, constants. cbn [map existsb place]. unfold alike. cbn [fst snd]. rewrite W.
  change (places 64) with 1. cbn [N.eqb Pos.eqb andb].
  destruct n as [|q]; [split; reflexivity|]. do 3 (destruct q as [q|q|]; try (split; reflexivity); try lia).
Qed.

Lemma pooled_new : pooled interner_new constants.
Proof.
  split; [exact constants_good|reflexivity|exists []; reflexivity|..].
  - intros s x G E L. cbn [interner_new in_small hm_get]. unfold known_at.
    destruct (on_tape constants s) eqn:O; [|reflexivity]. exfalso. apply existsb_exists in O as (t & I & A).
    assert (Gt : good t) by (eapply Forall_forall; [exact constants_good|exact I]).
    apply (alike_words _ _ Gt G) in A. rewrite E in A. unfold constants in I. cbn [map In] in I.
    repeat destruct I as [<-|I]; try (now destruct I); cbn in A; injection A as <-; lia.
  - intros s G L. cbn [interner_new in_large hm_get]. unfold known_at.
    destruct (on_tape constants s) eqn:O; [|reflexivity]. exfalso. apply existsb_exists in O as (t & I & A).
    assert (Gt : good t) by (eapply Forall_forall; [exact constants_good|exact I]).
    apply (alike_words _ _ Gt G) in A. rewrite <- A in L. unfold constants in I. cbn [map In] in I.
    repeat destruct I as [<-|I]; try (now destruct I); now apply L.
  - reflexivity.
  - reflexivity.
Qed.

Lemma known_snoc l s t : Forall good l -> on_tape l s = false ->
  known_at (l ++ [s]) t = if alike s t then Some (len (laid l) mod 2 ^ 32) else known_at l t.
Proof.
  intros F N. unfold known_at. rewrite on_app, place_app by exact F. unfold on_tape at 2. cbn [existsb place].
  destruct (alike s t) eqn:E.
  - destruct (place_alike l s t E) as (_ & <-). rewrite N. cbn [orb]. now rewrite N.add_0_r.
  - cbn [orb]. rewrite !orb_false_r. now destruct (on_tape l t).
Qed.

Lemma as_u32_mod n : as_u32 n = n mod 2 ^ 32.
Proof. unfold as_u32. now rewrite B32_eq. Qed.

Lemma pooled_index m p l s : pooled p l -> good s -> m = Release \/ 0 < fst s ->
  exists p', interner_get_index m p (value s) = Ok (p', mkindex (fst s) (place l s mod 2 ^ 32))
    /\ pooled p' (taped l s).
Proof.
  intros P G D. destruct P as [PG PW PH PS PL PF PM]. destruct (good_words s G) as (L & W & V).
  unfold interner_get_index. change (width (value s)) with (fst s). fold (wd s).
  assert (W32 : fst s < 2 ^ 32) by apply G.
  assert (Dbg : forall b, (0 < fst s -> b = true) -> debug_assert m b = Ok tt).
  { intros b H. destruct m; [|reflexivity]. destruct D as [D|D]; [discriminate D|]. now rewrite (H D). }
  unfold taped. fold (on_tape l s).
  assert (Known : forall i, known_at l s = Some i -> on_tape l s = true /\ i = place l s mod 2 ^ 32).
  { unfold known_at. destruct (on_tape l s); [|discriminate]. intros i E. now injection E as <-. }
  assert (Unknown : known_at l s = None -> on_tape l s = false /\ place l s = len (laid l)).
  { unfold known_at. destruct (on_tape l s) eqn:E; [discriminate|]. intros _. split; [reflexivity|now apply place_end]. }
  assert (Head : exists t, l ++ [s] = constants ++ t).
  { destruct PH as (t & ->). exists (t ++ [s]). now rewrite <- app_assoc. }
  assert (Gd : Forall good (l ++ [s])) by (apply Forall_app; split; [exact PG|now constructor]).
  assert (Cases : (exists x, wd s = [x]) \/ len (wd s) <> 1).
  { destruct (wd s) as [|x [|y r]]; [right|left; eauto|right]; rewrite ?len_cons; unfold len; cbn [length]; lia. }
  destruct Cases as [(x & E)|Long].
  - rewrite E. rewrite E in L, V. change (len [x]) with 1 in L. cbn [words_val] in V.
    rewrite Dbg by (clear - L; intros _; unfold places in L; dlia). cbn [bind].
    assert (Vx : snd s = x) by (rewrite <- V; cbn; lia).  clear V.
    destruct (N.ltb_spec x 8) as [X|X].
    + assert (C : on_tape l s = true /\ place l s = x).
      { destruct PH as (t & ->). apply Forall_app in PG as (PG & _). destruct s as [w n]. cbn [fst snd] in *. subst n.
        destruct (constant_place w x (eq_sym L) X) as (O & Q). rewrite on_app. rewrite place_app by exact PG. rewrite O, Q. auto. }
      destruct C as (-> & ->). exists p. split; [|split; auto]. unfold index_new. now rewrite as_u32_mod.
    + rewrite (PS s x G E X). destruct (known_at l s) as [i|] eqn:K.
      * destruct (Known i eq_refl) as (-> & ->). exists p. split; [reflexivity|split; auto].
      * destruct (Unknown eq_refl) as (U & ->). rewrite U, PW, as_u32_mod.
        eexists. split; [reflexivity|]. split; cbn [in_words in_small in_large]; auto.
        -- now rewrite laid_snoc, E.
        -- intros t y Gt Et Y. rewrite known_snoc by auto. destruct (alike s t) eqn:A.
           ++ apply (alike_words s t G Gt) in A. rewrite E, Et in A. injection A as <-.
              apply hm_get_insert_same, N.eqb_refl.
           ++ rewrite hm_get_insert_other; [now apply PS|auto using N.eqb_eq|]. intros <-.
              assert (A' : alike s t = true) by (apply alike_words; congruence). congruence.
        -- intros t Gt Lt. rewrite known_snoc by auto. destruct (alike s t) eqn:A; [|now apply PL].
           apply (alike_words s t G Gt) in A. rewrite <- A, E in Lt. now destruct Lt.
        -- rewrite insert_len, filter_snoc, one_word_len, E by (rewrite ?(PS s x G E X); auto). change (len [x] =? 1) with true. cbn [negb]. lia.
        -- unfold large_ones in *. rewrite filter_snoc, one_word_len, E by auto. change (len [x] =? 1) with true. cbn [negb]. lia.
  - replace (match wd s with [word] => _ | _ => _ end) with
      (let* _ := debug_assert m (64 <? fst s) in
       match hm_get words_eqb (in_large p) (wd s) with
       | Some index => Ok (p, index_new index (fst s))
       | None => Ok (mkinterner (in_words p ++ wd s) (in_small p) (hm_insert words_eqb (in_large p) (wd s) (as_u32 (len (in_words p)))),
                     index_new (as_u32 (len (in_words p))) (fst s))
       end) by (destruct (wd s) as [|? [|? ?]]; [reflexivity| |reflexivity]; now destruct Long).
    rewrite Dbg by (clear - L Long; intros ?; unfold places in L; dlia). cbn [bind].
    rewrite (PL s G Long). destruct (known_at l s) as [i|] eqn:K.
    + destruct (Known i eq_refl) as (-> & ->). exists p. split; [reflexivity|split; auto].
    + destruct (Unknown eq_refl) as (U & ->). rewrite U, PW, as_u32_mod.
      eexists. split; [reflexivity|]. split; cbn [in_words in_small in_large]; auto.
      * now rewrite laid_snoc.
      * intros t y Gt Et Y. rewrite known_snoc by auto. destruct (alike s t) eqn:A; [|now apply PS].
        apply (alike_words s t G Gt) in A. rewrite A, Et in Long. now destruct Long.
      * intros t Gt Lt. rewrite known_snoc by auto. destruct (alike s t) eqn:A.
        -- apply (alike_words s t G Gt) in A. rewrite <- A. apply hm_get_insert_same. intros b. now apply (proj2 (words_eqb_eq b b)).
        -- rewrite hm_get_insert_other; [now apply PL|exact words_eqb_eq|]. intros E.
           apply (alike_words s t G Gt) in E. congruence.
      * rewrite filter_snoc, one_word_len by auto. apply N.eqb_neq in Long. rewrite Long. cbn [negb]. lia.
      * unfold large_ones in *. rewrite insert_len, filter_snoc, one_word_len by (rewrite ?(PL s G Long); auto).
        apply N.eqb_neq in Long. rewrite Long. cbn [negb]. lia.
Qed.

(** ** Vectors that arrays give *)
Lemma read_shaped m g a t i s : tholds a t -> well_shaped i -> any_read m g t (width i) (uval i) = Some s -> good s.
Proof.
  intros H W E. destruct t as [r|iw dw b l]; cbn [any_read tholds] in *.
  - assert (T := PRawArray.read_told some_probe m a r i _ _ H (shaped_stores i W)).
    destruct (RawArraySpec.raw_read m r (width i) (uval i)) as [s'| |]; cbn [known] in E; try discriminate E.
    injection E as ->. destruct T as (v & _ & V). destruct s as [n x]. now apply (stores_same v).
  - destruct H as (_ & _ & D & B & _). destruct (_ && _); [|discriminate E]. injection E as <-.
    now apply PRawArray.stores_bv_of.
Qed.

Lemma default_shaped m a t s : tholds a t -> FullArraySpec.full_default m t = Some (Some s) -> good s.
Proof.
  intros H E. destruct t as [r|iw dw b l]; cbn [tholds FullArraySpec.full_default] in *.
  - destruct H as (_ & D & H). destruct (RawArraySpec.q_cells r) as [n|b l|b l|b l|b l]; try discriminate E; injection E as E.
    + destruct H as (_ & _ & B & _). assert (T := PRawArray.number_told m (RawArraySpec.q_dw r) b D B).
      destruct (RawArraySpec.from_number m (RawArraySpec.q_dw r) b) as [s'| |]; cbn [known] in E; try discriminate E.
      injection E as ->. destruct T as (v & _ & V). destruct s as [n x]. now apply (stores_same v).
    + destruct H as (_ & _ & B & _). subst s. now apply PRawArray.stores_bv_of.
  - destruct H as (_ & _ & D & B & _). injection E as <-. now apply PRawArray.stores_bv_of.
Qed.

Lemma good_shaped s : good s -> well_shaped (value s).
Proof. intros G. apply G. Qed.
Lemma good_stores s : good s -> stores (value s) (width (value s)) (uval (value s)).
Proof. intros G. apply shaped_stores, G. Qed.

(** ** Steps *)
Definition held (hs : N -> option bvindex) (rs : N -> option (N * N)) : Prop :=
  forall h, match hs h, rs h with
            | Some i, Some x => i = mkindex (fst x) (snd x) /\ fst x < 2 ^ 32 /\ snd x < 2 ^ 32
            | None, None => True
            | _, _ => False
            end.

Definition stands (m : mode) (s : state) (r : stage) : Prop :=
  (Words (fst s) /\ len (fst s) = cells r /\ wv (fst s) = content r)
  /\ related (vectors (snd s)) (vars r)
  /\ (tagree (arrays (snd s)) (things r) /\ firm m (things r))
  /\ (pooled (pool (snd s)) (tape r) /\ held (handles (snd s)) (refs r)).

Definition gmatching (h : hashes) (g : luck) (w : world) (r : stage) (c : gcall) : Prop :=
  match c with
  | Core (Lib (OnArray c)) => matching h (plain g) (arrays w) (things r) c
  | Core (Lib (Select _ a i)) =>
      forall v, vectors w i = Some v -> matching h (plain g) (arrays w) (things r) (ArrayInterpSpec.Select a v)
  | Core (Lib (Store a i x)) =>
      forall v u, vectors w i = Some v -> vectors w x = Some u ->
      matching h (plain g) (arrays w) (things r) (ArrayInterpSpec.Change a (KindSpec.Store v u))
  | More c => full_matching h g (arrays w) (things r) c
  | EqualArrays a b => matching h (plain g) (arrays w) (things r) (ArrayInterpSpec.Compare a b)
  | _ => True
  end.

Lemma array_step_ok h g m store w r c : proper h -> stands m (store, w) r -> any_range c ->
  matching h (plain g) (arrays w) (things r) c ->
  let x := on_array (h_probe h) (h_order h) (h_saved h) m w c in
  stands m (store, fst x) (fst (array_step m g r c)) /\ snd x = A (snd (array_step m g r c)).
Proof.
  intros Hp (S1 & S2 & (S3 & S4) & S5) T M. cbn [fst snd] in *. unfold on_array, array_step.
  destruct (any_step h (plain g) m _ _ c Hp S3 T M) as (Eo & A'). assert (F' := firm_plain m (plain g) _ c T S4).
  destruct (ArrayInterpSpec.perform1 (h_probe h) (h_order h) (h_saved h) m (arrays w) c) as [e1 o1].
  destruct (any_predict1 m (plain g) (things r) c) as [r1 o2]. cbn [fst snd] in *. subst o2. split; [|reflexivity].
  split; [exact S1|]. split; [exact S2|]. split; [split; [exact A'|exact F']|exact S5].
Qed.

Lemma set_var_ok m store w r k v n x : stands m (store, w) r -> stores v n x ->
  stands m (store, fst (assign w k v)) (set_var r k (n, x)).
Proof.
  intros (S1 & S2 & S3 & S5) H. split; [exact S1|]. split; [|split; [exact S3|exact S5]]. now apply PBvInterp.related_set.
Qed.

Lemma intern_ok m store w r h k s probe ho order : stands m (store, w) r -> vars r k = Some s ->
  let x := wperform1 probe ho order m w (Intern h k) in
  stands m (store, fst x) (fst (gintern m r h s)) /\ snd x = snd (gintern m r h s).
Proof.
  intros St Er. assert (St' := St). destruct St as (S1 & S2 & S3 & (P & H)). cbn [snd fst] in *.
  assert (X := S2 k). rewrite Er in X. cbn [wperform1]. destruct (vectors w k) as [v|]; [|easy].
  destruct s as [n x]. assert (Ev := stores_value _ _ _ X). assert (G : good (n, x)) by now apply (stores_same v).
  assert (U := same_interner m (pool w) v). destruct m, (N.eq_dec n 0) as [Z|Z].
  1:{ subst n. cbn [gintern fst snd]. assert (W0 := shaped_empty v (proj1 X) ltac:(apply X)).
      unfold interner_get_index in U. rewrite W0 in U. replace (width v) with 0 in U by (symmetry; apply X). cbn in U.
      destruct (un_get_index Debug v (pool w)); [discriminate U|]. destruct U as (_ & ->). destruct w. auto. }
  all: match goal with |- context [gintern ?m _ _ _] =>
         destruct (pooled_index m (pool w) (tape r) (n, x) P G) as (p & E & P'); [first [left; reflexivity|right; cbn; lia]|];
         rewrite <- Ev in E; rewrite E in U;
         destruct (un_get_index m v (pool w)) as [p' i'|p' q]; [injection U as <- <-|destruct U; congruence];
         replace (gintern m r h (n, x)) with
           (mkstage (cells r) (content r) (vars r) (things r)
              (set (refs r) h (n, place (tape r) (n, x) mod 2 ^ 32)) (taped (tape r) (n, x)), V BvInterpSpec.Done)
           by (unfold gintern; cbn [fst]; destruct n; [first [reflexivity|now destruct Z]|reflexivity])
       end; cbn [fst snd]; (split; [|reflexivity]);
    (split; [exact S1|]; split; [exact S2|]; split; [exact S3|]; split; [exact P'|]);
    intros g; unfold set; cbn [snd handles refs pool]; (destruct (g =? h); [|apply H]);
    cbn [fst snd]; (split; [reflexivity|]);
    (split; [apply G|]); apply N.mod_lt; discriminate.
Qed.

Lemma fetch_ok m store w r h i x : stands m (store, w) r -> handles w h = Some i -> refs r h = Some x ->
  if snd x + places (fst x) <=? tape_length (tape r)
  then exists v, get_ref (in_words (pool w)) i = Ok v
    /\ stores v (fst (read_back (tape r) x)) (snd (read_back (tape r) x))
  else exists p, get_ref (in_words (pool w)) i = Panic p.
Proof.
  intros (_ & _ & _ & (P & H)) Eh Er. cbn [snd] in *. assert (Y := H h). rewrite Eh, Er in Y.
  destruct Y as (-> & A & B). destruct x as [n q]. cbn [fst snd] in *.
  rewrite <- (laid_length _ (p_good _ _ P)), <- (p_words _ _ P).
  destruct (N.leb_spec (q + places n) (len (in_words (pool w)))) as [C|C].
  2:{ exists PIndex. apply get_ref_out. unfold in_range, past. cbn [i_index i_width]. unfold places in C. lia. }
  set (mem := StoreInterpSpec.mkmemory (len (in_words (pool w))) (wv (in_words (pool w))) (fun _ => None)).
  assert (Mt : PStoreInterp.matches (in_words (pool w), fun _ => None) mem).
  { split; [|split; [reflexivity|split; [reflexivity|intros ?; exact Logic.I]]].
    cbn [fst]. rewrite (p_words _ _ P). apply laid_words, (p_good _ _ P). }
  assert (Wi : StoreInterpSpec.within mem (mkindex n q) = true).
  { unfold StoreInterpSpec.within, StoreInterpSpec.stop. cbn [i_index i_width mem StoreInterpSpec.cells]. lia. }
  assert (V := PStoreInterp.view_stores _ _ mem (mkindex n q) Mt Wi (conj B A)).
  exists (mkbv n (view (in_words (pool w)) (mkindex n q))). split.
  - rewrite get_ref_in; [reflexivity|]. unfold in_range, past. cbn [i_index i_width]. unfold places in C. exact C.
  - cbn [i_width] in V. unfold read_back. cbn [fst snd]. rewrite <- (laid_number _ (p_good _ _ P)), <- (p_words _ _ P). exact V.
Qed.

Lemma library_ok h g m store w r c : proper h -> stands m (store, w) r -> gcall_range (Core (Lib c)) ->
  gmatching h g w r (Core (Lib c)) ->
  let x := wperform1 (h_probe h) (h_order h) (h_saved h) m w c in
  stands m (store, fst x) (fst (library_step m g r c)) /\ snd x = snd (library_step m g r c).
Proof.
  intros Hp St T M. assert (St' := St). destruct St as (S1 & R & S3 & (P & H)). cbn [fst snd] in R, P, H.
  destruct c as [c|c|a dense iw d|k a i|a i x|hd k|k hd|hd gd|hd|hd]; cbn [library_step gcall_range gmatching] in *.
  - cbn [wperform1]. assert (X := vector_step_ok m (vectors w) (vars r) c R T).
    destruct (vector_step m (vars r) c) as [e q]. cbn [fst snd] in X. destruct X as (X1 & X2).
    destruct (BvInterpSpec.vperform1 m (vectors w) c) as [e' q']. cbn [fst snd] in *. subst q'. split; [|reflexivity].
    split; [exact S1|]. split; [exact X1|]. split; [exact S3|]. now split.
  - cbn [wperform1]. destruct (array_step_ok h g m store w r c Hp St' T M) as (X1 & X2).
    destruct (array_step m g r c) as [r' o]. auto.
  - cbn [wperform1]. assert (Rd := R d). destruct (vectors w d) as [v|], (vars r d) as [[n x]|]; try easy.
    rewrite <- (stores_value v n x Rd).
    destruct (array_step_ok h g m store w r (ArrayInterpSpec.New a (origin dense iw v)) Hp St') as (X1 & X2); [|exact Logic.I|].
    { destruct dense; (split; [apply Rd|exact T]). }
    destruct (array_step m g r (ArrayInterpSpec.New a (origin dense iw v))) as [r' o]. auto.
  - cbn [wperform1]. assert (Ri := R i). destruct (vectors w i) as [v|], (vars r i) as [[n x]|]; try easy.
    rewrite <- (stores_value v n x Ri). assert (Wv : well_shaped v) by apply Ri.
    destruct (array_step_ok h g m store w r (ArrayInterpSpec.Select a v) Hp St' Wv (M v eq_refl)) as (X1 & X2).
    destruct (array_step m g r (ArrayInterpSpec.Select a v)) as [r1 o1] eqn:E1.
    destruct (on_array (h_probe h) (h_order h) (h_saved h) m w (ArrayInterpSpec.Select a v)) as [w1 o2].
    cbn [fst snd] in *. subst o2. destruct o1; auto. split; [|reflexivity]. apply set_var_ok; [exact X1|].
    apply shaped_stores. unfold array_step in E1. cbn [any_predict1] in E1. injection E1 as _ E1.
    assert (Ta := proj1 S3 a). cbn [snd] in Ta. destruct (arrays w a) as [b|], (things r a) as [t|]; try easy.
    destruct (any_read m (plain g) t (width v) (uval v)) as [[n' x']|] eqn:Er; [|discriminate E1]. injection E1 as <-.
    exact (good_shaped _ (read_shaped m (plain g) b t v (n', x') Ta Wv Er)).
  - cbn [wperform1]. assert (Ri := R i). assert (Rx := R x).
    destruct (vectors w i) as [v|], (vars r i) as [[n y]|]; try easy.
    destruct (vectors w x) as [u|], (vars r x) as [[n' y']|]; try easy.
    rewrite <- (stores_value v n y Ri), <- (stores_value u n' y' Rx).
    destruct (array_step_ok h g m store w r (ArrayInterpSpec.Change a (KindSpec.Store v u)) Hp St') as (X1 & X2);
      [split; [apply Ri|apply Rx]|now apply M|].
    destruct (array_step m g r (ArrayInterpSpec.Change a (KindSpec.Store v u))) as [r' o]. auto.
  - destruct (vars r k) as [s|] eqn:Er; [now apply intern_ok|].
    cbn [wperform1]. assert (X := R k). rewrite Er in X. destruct (vectors w k); [easy|]. auto.
  - cbn [wperform1]. assert (Hh := H hd). destruct (handles w hd) as [i|] eqn:Ei, (refs r hd) as [x|] eqn:Ex; try easy.
    assert (F := fetch_ok m store w r hd i x St' Ei Ex). unfold interner_words.
    destruct (snd x + places (fst x) <=? tape_length (tape r)); [|destruct F as (q & ->); auto].
    destruct F as (v & E & S). rewrite E. split; [|reflexivity].
    cbn [fst]. rewrite (surjective_pairing (read_back (tape r) x)). now apply set_var_ok.
  - cbn [wperform1]. split; [exact St'|]. cbn [snd]. assert (Hh := H hd). assert (Hg := H gd).
    destruct (handles w hd) as [i|], (refs r hd) as [x|]; try easy.
    destruct (handles w gd) as [j|], (refs r gd) as [y|]; try easy.
    destruct Hh as (-> & _), Hg as (-> & _). reflexivity.
  - cbn [wperform1]. split; [exact St'|]. cbn [snd]. assert (Hh := H hd).
    destruct (handles w hd) as [i|], (refs r hd) as [x|]; try easy. destruct Hh as (-> & _). reflexivity.
  - cbn [wperform1]. split; [exact St'|]. cbn [snd]. assert (Hh := H hd).
    destruct (handles w hd) as [i|], (refs r hd) as [x|]; try easy. destruct Hh as (-> & _). reflexivity.
Qed.

Lemma mem_ok h m g s r c : stands m s r -> scall_range c ->
  let x := eperform1 (h_probe h) (h_order h) (h_saved h) m s (Mem c) in
  stands m (fst x) (fst (core_step m g r (Mem c))) /\ snd x = snd (core_step m g r (Mem c)).
Proof.
  intros (S1 & R & S3 & S5) T. destruct s as [store w]. cbn [fst snd] in S1, R, S3, S5. cbn [eperform1 core_step].
  set (mem := StoreInterpSpec.mkmemory (cells r) (content r) (vars r)) in *. destruct S1 as (Ws & L & V).
  assert (Mt : PStoreInterp.matches (store, vectors w) mem) by (split; [exact Ws|split; [exact L|split; [exact V|exact R]]]).
  assert (X := PStoreInterp.sstep_ok m _ _ c Mt T). unfold PStoreInterp.same in X.
  destruct (StoreInterpSpec.sperform1 m (store, vectors w) c) as [[store' e] q].
  destruct (StoreInterpSpec.spredict1 m mem c) as [mem' q'].
  cbn [fst snd] in X. destruct X as (X & ->). cbn [fst snd]. split; [|reflexivity].
  destruct X as (X1 & X2 & X3 & X4). cbn [fst snd] in *. split; [split; [exact X1|split; [exact X2|exact X3]]|].
  split; [exact X4|]. split; [exact S3|exact S5].
Qed.

Lemma at_index_range i c : index_typed i -> scall_range c -> scall_range (at_index i c).
Proof. intros I. destruct c; cbn [scall_range at_index]; tauto. Qed.

Lemma compare_ok h g m env ref a b : proper h -> tagree env ref ->
  matching h (plain g) env ref (ArrayInterpSpec.Compare a b) ->
  match env a, env b, ref a, ref b with
  | Some x, Some y, Some t, Some u =>
      match array_is_equal (h_order h) m x y, any_compared m (plain g) t u with
      | Ok e, Some e' => e = e' | Panic _, None => True | _, _ => False
      end
  | Some _, None, Some _, None | None, _, None, _ => True
  | _, _, _, _ => False
  end.
Proof.
  intros Hp A M. assert (Aa := A a). assert (Ab := A b).
  destruct (any_step h (plain g) m env ref (ArrayInterpSpec.Compare a b) Hp A Logic.I M) as (E & _).
  cbn [ArrayInterpSpec.perform1 any_predict1] in E.
  destruct (env a), (ref a); try easy; destruct (env b), (ref b); try easy. cbn [snd] in E.
  destruct (array_is_equal _ _ _ _), (any_compared _ _ _ _); try discriminate E; [now injection E|exact Logic.I].
Qed.

Lemma gstep h g m s r c : proper h -> stands m s r -> gcall_range c -> gmatching h g (snd s) r c ->
  stands m (fst (gperform1 h m s c)) (fst (gpredict1 m g r c)) /\ snd (gperform1 h m s c) = snd (gpredict1 m g r c).
Proof.
  intros Hp St T M. destruct s as [store w]. assert (St' := St). destruct St as (S1 & R & (S3 & S4) & S5).
  cbn [fst snd] in S1, R, S3, S4, S5, M.
  destruct c as [c|c|k a|hd i|hd c|a b|hd|].
  2:{ cbn [gperform1 gpredict1 gcall_range gmatching] in *.
      destruct (full_step h g m _ _ c Hp S3 S4 T M) as (Eo & A' & F').
      destruct (full_perform1 h m (arrays w) c) as [e1 o1]. destruct (full_predict1 m g (things r) c) as [r1 o2].
      cbn [fst snd] in *. subst o2. split; [|reflexivity].
      split; [exact S1|]. split; [exact R|]. split; [split; [exact A'|exact F']|exact S5]. }
  2:{ cbn [gperform1 gpredict1].
      destruct (full_step h g m _ _ (FullArraySpec.Default a) Hp S3 S4 Logic.I Logic.I) as (Eo & _ & _).
      destruct (full_perform1 h m (arrays w) (FullArraySpec.Default a)) as [e1 o1].
      destruct (full_predict1 m g (things r) (FullArraySpec.Default a)) as [r1 o2] eqn:E2.
      cbn [fst snd] in Eo. subst o2. destruct (vector_given o1) as [v|] eqn:Ev; [|auto]. split; [|reflexivity].
      apply set_var_ok; [exact St'|]. apply shaped_stores. cbn [full_predict1] in E2. injection E2 as _ E2.
      assert (Ta := S3 a). destruct (arrays w a) as [b|], (things r a) as [t|]; try easy; [|now rewrite <- E2 in Ev].
      destruct (FullArraySpec.full_default m t) as [[s|]|] eqn:Ed; subst o1; try discriminate Ev.
      injection Ev as <-. exact (good_shaped _ (default_shaped m b t s Ta Ed)). }
  2:{ cbn [gperform1 gpredict1 gcall_range] in *. split; [|reflexivity]. split; [exact S1|]. split; [exact R|].
      split; [split; [exact S3|exact S4]|]. split; [apply S5|]. intros k. cbn [snd fst handles refs]. unfold set.
      destruct (k =? hd); [|apply S5]. destruct i as [w' q]. destruct T as (T1 & T2). now split. }
  2:{ cbn [gperform1 gpredict1 gcall_range] in *. assert (Hh := proj2 S5 hd). cbn [snd].
      destruct (handles w hd) as [i|], (refs r hd) as [x|]; try easy. destruct Hh as (-> & W & I).
      destruct (mem_ok h m g (store, w) r _ St' (at_index_range (mkindex (fst x) (snd x)) c (conj I W) T)) as (X1 & X2).
      destruct (eperform1 _ _ _ m (store, w) _) as [s' o]. destruct (core_step m g r _) as [r' o'].
      cbn [fst snd] in *. subst o'. auto. }
  2:{ cbn [gperform1 gpredict1 gmatching] in *. split; [exact St'|]. cbn [snd].
      assert (X := compare_ok h g m _ _ a b Hp S3 M). unfold array_eq.
      destruct (arrays w a) as [x|], (things r a) as [t|]; try easy; [|now destruct (arrays w b)].
      destruct (arrays w b) as [y|], (things r b) as [u|]; try easy.
      destruct (array_is_equal _ _ _ _) as [e|], (any_compared _ _ _ _) as [e'|]; try easy. subst e'. now destruct e. }
  2:{ cbn [gperform1 gpredict1]. split; [exact St'|]. cbn [snd]. assert (Hh := proj2 S5 hd).
      destruct (handles w hd) as [i|], (refs r hd) as [[w' q]|]; try easy. destruct Hh as (-> & _). reflexivity. }
  2:{ cbn [gperform1 gpredict1]. split; [exact St'|]. cbn [snd]. unfold debug_interner.
      rewrite (p_many _ _ (proj1 S5)). unfold small_ones. rewrite <- (p_few _ _ (proj1 S5)), N.add_sub. reflexivity. }
  destruct c as [c|c|i j|k|k|a]; cbn [gperform1 gpredict1 eperform1 core_step].
  - destruct (library_ok h g m store w r c Hp St' T M) as (X1 & X2).
    destruct (wperform1 (h_probe h) (h_order h) (h_saved h) m w c) as [w' o]. destruct (library_step m g r c) as [r' o'].
    cbn [fst snd] in *. subst o'. auto.
  - destruct (mem_ok h m g (store, w) r c St' T) as (X1 & X2). cbn [eperform1 core_step] in X1, X2.
    destruct (StoreInterpSpec.sperform1 m (store, vectors w) c) as [[store' e] q].
    destruct (StoreInterpSpec.spredict1 m _ c) as [mem' q']. cbn [fst snd] in *. rewrite X2. auto.
  - split; [exact St'|]. cbn [snd]. f_equal. assert (Ri := R i). assert (Rj := R j).
    destruct (vectors w i) as [a|], (vars r i) as [[n x]|]; try easy.
    destruct (vectors w j) as [b|], (vars r j) as [[n' y]|]; try easy. f_equal. now apply order_ok.
  - split; [exact St'|]. cbn [snd]. f_equal. assert (Rk := R k).
    destruct (vectors w k) as [a|], (vars r k) as [[n x]|]; try easy. f_equal. now apply digest_ok.
  - split; [exact St'|]. cbn [snd]. f_equal. assert (Rk := R k).
    destruct (vectors w k) as [a|], (vars r k) as [[n x]|]; try easy.
    unfold debug_bv. rewrite (dirty_bits a n x Rk). reflexivity.
  - split; [exact St'|]. cbn [snd]. f_equal. assert (Ta := S3 a).
    destruct (arrays w a) as [b|], (things r a) as [t|]; try easy.
    destruct (PChance.tholds_type b t Ta) as (<- & _). now destruct b.
Qed.

Definition no_luck : luck := mkluck (mkchance false []) [] 0.
Definition plain_hashes : hashes := mkhashes (PChance.probe_as false) (fun _ l => l) (fun _ l => l).
Lemma plain_proper : proper plain_hashes.
Proof. split; [apply PChance.probe_as_hashing|]. split; exact PChance.id_reorders. Qed.

Lemma gmatching_some h m s r c : proper h -> stands m s r -> gcall_range c -> exists g, gmatching h g (snd s) r c.
Proof.
  intros Hp (_ & R & (S3 & S4) & _) T.
  assert (One : forall c, any_range c -> exists g, matching h (plain g) (arrays (snd s)) (things r) c).
  { intros c' T'. destruct (matching_some h _ _ c' Hp S3 T') as (g & M). now exists (mkluck g [] 0). }
  destruct c as [c|c|k a|hd i|hd c|a b|hd|]; cbn [gmatching gcall_range] in *; try (now exists no_luck);
    [|now apply full_matching_some|now apply One].
  destruct c as [c|c|i j|k|k|a]; try (now exists no_luck).
  destruct c as [c|c|a dense iw d|k a i|a i x|hd k|k hd|hd gd|hd|hd]; try (now exists no_luck).
  - now apply One.
  - assert (Ri := R i). destruct (vectors (snd s) i) as [v|]; [|now exists no_luck]. destruct (vars r i) as [[n y]|]; [|easy].
    destruct (One (ArrayInterpSpec.Select a v) (proj1 Ri)) as (g & M). exists g. intros v' E. now injection E as <-.
  - assert (Ri := R i). assert (Rx := R x). destruct (vectors (snd s) i) as [v|]; [|now exists no_luck].
    destruct (vars r i) as [[n y]|]; [|easy].
    destruct (vectors (snd s) x) as [u|]; [|now exists no_luck]. destruct (vars r x) as [[n' y']|]; [|easy].
    destruct (One (ArrayInterpSpec.Change a (KindSpec.Store v u)) (conj (proj1 Ri) (proj1 Rx))) as (g & M). exists g.
    intros v' u' E E'. injection E as <-. now injection E' as <-.
Qed.

Lemma gmatching_all g m s r c : stands m s r -> gcall_range c -> exists h, proper h /\ gmatching h g (snd s) r c.
Proof.
  intros (_ & R & (S3 & S4) & _) T.
  assert (One : forall c, any_range c -> exists h, proper h /\ matching h (plain g) (arrays (snd s)) (things r) c).
  { intros c' T'. now apply matching_all. }
  assert (Any : exists h, proper h /\ True) by (exists plain_hashes; split; [exact plain_proper|exact Logic.I]).
  destruct c as [c|c|k a|hd i|hd c|a b|hd|]; cbn [gmatching gcall_range] in *; try exact Any;
    [|now apply full_matching_all|now apply One].
  destruct c as [c|c|i j|k|k|a]; try exact Any.
  destruct c as [c|c|a dense iw d|k a i|a i x|hd k|k hd|hd gd|hd|hd]; try exact Any.
  - now apply One.
  - assert (Ri := R i). destruct (vectors (snd s) i) as [v|]; [|exists plain_hashes; split; [exact plain_proper|easy]].
    destruct (vars r i) as [[n y]|]; [|easy].
    destruct (One (ArrayInterpSpec.Select a v) (proj1 Ri)) as (h & Hp & M). exists h. split; [exact Hp|]. intros v' E. now injection E as <-.
  - assert (Ri := R i). assert (Rx := R x).
    destruct (vectors (snd s) i) as [v|]; [|exists plain_hashes; split; [exact plain_proper|easy]].
    destruct (vars r i) as [[n y]|]; [|easy].
    destruct (vectors (snd s) x) as [u|]; [|exists plain_hashes; split; [exact plain_proper|easy]].
    destruct (vars r x) as [[n' y']|]; [|easy].
    destruct (One (ArrayInterpSpec.Change a (KindSpec.Store v u)) (conj (proj1 Ri) (proj1 Rx))) as (h & Hp & M). exists h.
    split; [exact Hp|]. intros v' u' E E'. injection E as <-. now injection E' as <-.
Qed.

Lemma gsound m : forall cs hs s r, (forall n, proper (hs n)) -> stands m s r -> Forall gcall_range cs ->
  exists gs, gperform_from m s hs cs = gpredict_from m r gs cs.
Proof.
  induction cs as [|c cs IH]; intros hs s r P St T.
  - now exists (fun _ => no_luck).
  - inversion_clear T as [|? ? T1 T2]. destruct (gmatching_some (hs O) m s r c (P O) St T1) as (g & M).
    destruct (gstep (hs O) g m s r c (P O) St T1 M) as (St' & Eo).
    destruct (IH (fun n => hs (S n)) _ _ (fun n => P (S n)) St' T2) as (gs & E).
    exists (fun n => match n with O => g | S n => gs n end). cbn [gperform_from gpredict_from].
    destruct (gperform1 (hs O) m s c) as [s1 o1]. destruct (gpredict1 m g r c) as [r1 o2]. cbn [fst snd] in *. rewrite Eo.
    f_equal. exact E.
Qed.
Lemma gcomplete m : forall cs gs s r, stands m s r -> Forall gcall_range cs ->
  exists hs, (forall n, proper (hs n)) /\ gperform_from m s hs cs = gpredict_from m r gs cs.
Proof.
  induction cs as [|c cs IH]; intros gs s r St T.
  - exists (fun _ => plain_hashes). split; [intros _; exact plain_proper|reflexivity].
  - inversion_clear T as [|? ? T1 T2]. destruct (gmatching_all (gs O) m s r c St T1) as (h & P & M).
    destruct (gstep h (gs O) m s r c P St T1 M) as (St' & Eo).
    destruct (IH (fun n => gs (S n)) _ _ St' T2) as (hs & Ps & E).
    exists (fun n => match n with O => h | S n => hs n end). split; [intros [|n]; auto|].
    cbn [gperform_from gpredict_from].
    destruct (gperform1 h m s c) as [s1 o1]. destruct (gpredict1 m (gs O) r c) as [r1 o2]. cbn [fst snd] in *. rewrite Eo.
    f_equal. exact E.
Qed.

Lemma stands_start m n : stands m (repeat 0 (N.to_nat n), fresh) (start n).
Proof.
  split; [split; [apply Words_repeat0|split; [cbn [fst cells start]; now rewrite len_repeat, N2Nat.id|apply wv_repeat0]]|].
  split; [intros k; exact Logic.I|]. split; [split; [intros k; exact Logic.I|intros k t E; discriminate E]|].
  split; [exact pooled_new|intros k; exact Logic.I].
Qed.

Lemma every_behaviour m n cs os : Forall gcall_range cs ->
  (exists hs, (forall k, proper (hs k)) /\ gperform m n hs cs = os) <-> (exists gs, gpredict m n gs cs = os).
Proof.
  intros T. split.
  - intros (hs & P & <-). destruct (gsound m cs hs _ _ P (stands_start m n) T) as (gs & E). exists gs. now symmetry.
  - intros (gs & <-). destruct (gcomplete m cs gs _ _ (stands_start m n) T) as (hs & P & E). eauto.
Qed.

(** ** The interpreters of C91 and C93 are parts of this one *)
Lemma core_range c : ecall_range c -> gcall_range (Core c).
Proof.
  destruct c as [c|c|i j|k|k|a]; cbn [ecall_range gcall_range]; auto.
  destruct c as [c|c|a dense iw d|k a i|a i x|hd k|k hd|hd gd|hd|hd]; cbn [fcall_range]; auto; [apply PChance.raw_any|].
  destruct dense; [auto|]. lia.
Qed.

Lemma core_each m : forall cs hs s r os, (forall n, proper (hs n)) -> fits s r -> Forall ecall_range cs ->
  epredict_from m r cs = Some os -> gperform_from m s hs (map Core cs) = map Told os.
Proof.
  induction cs as [|c cs IH]; intros hs s r os P F T E; cbn [epredict_from map gperform_from gperform1] in *.
  { now injection E as <-. }
  inversion_clear T as [|? ? T1 T2]. destruct (epredict1 m r c) as [[r' o]|] eqn:E1; [|discriminate E].
  destruct (epredict_from m r' cs) as [l|] eqn:E2; [|discriminate E]. injection E as <-.
  destruct (P O) as (_ & Ho & Or).
  destruct (estep_ok (h_probe (hs O)) _ _ m s r c r' o Ho Or F T1 E1) as (X1 & X2).
  destruct (eperform1 _ _ _ m s c) as [s' o']. cbn [fst snd map] in *. subst o'. f_equal.
  apply (IH _ s' r'); auto.
Qed.

Lemma core_agrees m n cs os gs : Forall ecall_range cs -> epredict m n cs = Some os ->
  gpredict m n gs (map Core cs) = map Told os.
Proof.
  intros T E. assert (T' : Forall gcall_range (map Core cs)).
  { apply Forall_map. eapply Forall_impl; [|exact T]. exact core_range. }
  destruct (gcomplete m (map Core cs) gs _ _ (stands_start m n) T') as (hs & P & X). unfold gpredict. rewrite <- X.
  exact (core_each m cs hs _ _ os P (fits_start n) T E).
Qed.

Lemma more_each m : forall cs gs r, gpredict_from m r gs (map More cs)
  = map Also (FullArraySpec.full_predict_from m (things r) gs cs).
Proof.
  induction cs as [|c cs IH]; intros gs r; [reflexivity|]. cbn [map gpredict_from FullArraySpec.full_predict_from gpredict1].
  destruct (full_predict1 m (gs O) (things r) c) as [e o]. cbn [map]. f_equal. apply IH.
Qed.
Lemma more_agrees m n cs gs : gpredict m n gs (map More cs) = map Also (FullArraySpec.full_predict m gs cs).
Proof. exact (more_each m cs gs (start n)). Qed.

(** ** More than 2^32 words *)
Definition numbered (a k : nat) : list slot := map (fun i => (64, N.of_nat i)) (seq a k).

Lemma numbered_place i : forall k a, (a <= i)%nat ->
  place (numbered a k) (64, N.of_nat i) = N.of_nat (if (i <? a + k)%nat then i - a else k)
  /\ on_tape (numbered a k) (64, N.of_nat i) = (i <? a + k)%nat.
Proof.
  unfold on_tape. induction k as [|k IH]; intros a L; cbn [numbered seq map place existsb].
  - destruct (Nat.ltb_spec i (a + 0)); [lia|]. auto.
  - assert (Ea : alike (64, N.of_nat a) (64, N.of_nat i) = (N.of_nat a =? N.of_nat i)) by reflexivity. rewrite Ea. clear Ea.
    destruct (N.eqb_spec (N.of_nat a) (N.of_nat i)) as [E|E].
    + replace (i <? a + S k)%nat with true by (symmetry; apply Nat.ltb_lt; lia). cbn [orb]. split; [lia|reflexivity].
    + destruct (IH (S a) ltac:(lia)) as (X & Y). unfold numbered in X, Y. rewrite X, Y.
      replace (i <? a + S k)%nat with (i <? S a + k)%nat by (f_equal; lia). cbn [orb]. split; [|reflexivity].
      cbn [fst]. change (places 64) with 1. destruct (Nat.ltb_spec i (S a + k)); lia.
Qed.

Lemma make_number m e i : i < 2 ^ 64 ->
  vector_step m e (BvInterpSpec.Make 0 (KFromU64 i 64)) = (set e 0 (64, i), BvInterpSpec.Done).
Proof.
  intros H. destruct m; cbn -[N.pow N.leb N.ltb N.modulo].
  - replace (2 ^ 64 <=? i) with false by (symmetry; apply N.leb_gt; exact H). reflexivity.
  - now rewrite N.mod_small.
Qed.

Lemma intern_number m r i gs rest : N.of_nat i < 2 ^ 64 -> tape r = numbered 0 (Nat.max 8 i) ->
  exists r', gpredict_from m r gs (Core (Lib (OnVector (BvInterpSpec.Make 0 (KFromU64 (N.of_nat i) 64))))
                                   :: Core (Lib (Intern 0 0)) :: rest)
             = done :: done :: gpredict_from m r' (fun n => gs (S (S n))) rest
    /\ tape r' = numbered 0 (Nat.max 8 (S i)) /\ refs r' 0 = Some (64, N.of_nat i mod 2 ^ 32)
    /\ vars r' 0 = Some (64, N.of_nat i).
Proof.
  intros H Et. cbn [gpredict_from gpredict1 core_step library_step]. rewrite make_number by exact H.
  set (r0 := with_vars r (set (vars r) 0 (64, N.of_nat i))). assert (V0 : vars r0 0 = Some (64, N.of_nat i)) by reflexivity.
  destruct (numbered_place i (Nat.max 8 i) 0 ltac:(lia)) as (P & O).
  assert (G : forall r1, tape r1 = numbered 0 (Nat.max 8 i) -> vars r1 0 = Some (64, N.of_nat i) -> exists r2,
     gintern m r1 0 (64, N.of_nat i) = (r2, V BvInterpSpec.Done)
     /\ tape r2 = numbered 0 (Nat.max 8 (S i)) /\ refs r2 0 = Some (64, N.of_nat i mod 2 ^ 32)
     /\ vars r2 0 = Some (64, N.of_nat i)).
  { intros r1 E1 Ev. eexists. split; [destruct m; reflexivity|]. cbn [tape refs vars]. unfold set. cbn [N.eqb]. rewrite E1.
    split; [|split; [|exact Ev]].
    - unfold taped. fold (on_tape (numbered 0 (Nat.max 8 i)) (64, N.of_nat i)). rewrite O, Nat.add_0_l.
      destruct (Nat.ltb_spec i (Nat.max 8 i)) as [X|X].
      + f_equal. lia.
      + replace (Nat.max 8 (S i)) with (Nat.max 8 i + 1)%nat by lia. unfold numbered. rewrite seq_app, map_app. f_equal.
        cbn [seq map]. do 3 f_equal. lia.
    - rewrite P. cbn [fst]. do 2 f_equal. f_equal. destruct (Nat.ltb_spec i (0 + Nat.max 8 i)); lia. }
  destruct (G r0 Et V0) as (r2 & E & T2 & R2 & V2).
  rewrite V0, E. exists r2. split; [reflexivity|auto].
Qed.

Lemma intern_seq m rest : forall k i r gs, N.of_nat (i + k) < 2 ^ 64 -> tape r = numbered 0 (Nat.max 8 i) ->
  exists r' gs', gpredict_from m r gs (intern_numbers (seq i k) ++ rest)
                 = repeat done (2 * k) ++ gpredict_from m r' gs' rest
    /\ tape r' = numbered 0 (Nat.max 8 (i + k))
    /\ refs r' 0 = match k with O => refs r 0 | _ => Some (64, N.of_nat (i + k - 1) mod 2 ^ 32) end
    /\ vars r' 0 = match k with O => vars r 0 | _ => Some (64, N.of_nat (i + k - 1)) end.
Proof.
  induction k as [|k IH]; intros i r gs H Et.
  - exists r, gs. split; [reflexivity|]. split; [now rewrite Nat.add_0_r|auto].
  - cbn [seq intern_numbers flat_map app]. destruct (intern_number m r i gs (intern_numbers (seq (S i) k) ++ rest)) as (r1 & E & T1 & R1 & V1);
      [lia|exact Et|]. fold (intern_numbers (seq (S i) k)). rewrite E.
    destruct (IH (S i) r1 (fun n => gs (S (S n))) ltac:(lia) T1) as (r' & gs' & E' & T' & R' & V').
    exists r', gs'. rewrite E'. replace (2 * S k)%nat with (S (S (2 * k))) by lia. cbn [repeat app].
    split; [reflexivity|]. split; [rewrite T'; f_equal; lia|]. rewrite R', V'. destruct k as [|k].
    + rewrite R1, V1. replace (i + 1 - 1)%nat with i by lia. auto.
    + replace (i + S (S k) - 1)%nat with (S i + S k - 1)%nat by lia. auto.
Qed.

Lemma read_zero l : read_back ((64, 0) :: l) (64, 0) = (64, 0).
Proof.
  unfold read_back. cbn [fst snd tape_number]. generalize (tape_number l). intros q. change (places 64) with 1.
  rewrite N.mul_0_r, N.pow_0_r, N.div_1_r, N.add_0_l, N.mul_1_r, N.mul_comm. now rewrite N.mod_mul.
Qed.

Lemma full_interner m n gs k : N.of_nat k = 2 ^ 32 + 1 ->
  gpredict m n gs (intern_numbers (seq 0 k)
                   ++ [Core (Lib (IsZero 0)); Core (Lib (Fetch 1 0)); Core (Digest 0); Core (Digest 1)])
  = repeat done (2 * k)
    ++ [Told (Seen (V (BvInterpSpec.Says true))); done;
        Told (Hashed [HashU32 64; HashLen 1; HashU64 (2 ^ 32)]); Told (Hashed [HashU32 64; HashLen 1; HashU64 0])].
Proof.
  intros K. unfold gpredict.
  destruct (intern_seq m [Core (Lib (IsZero 0)); Core (Lib (Fetch 1 0)); Core (Digest 0); Core (Digest 1)]
              k 0 (start n) gs) as (r & gs' & E & T & R & V).
  { rewrite Nat.add_0_l, K. reflexivity. }
  { reflexivity. }
  rewrite E. f_equal. destruct k as [|k]; [discriminate K|].
  replace (0 + S k - 1)%nat with k in R, V by lia. replace (N.of_nat k) with (2 ^ 32) in R, V by lia.
  rewrite N.mod_same in R by discriminate.
  cbn [gpredict_from gpredict1 core_step library_step]. rewrite R. cbn [fst snd N.eqb].
  assert (B : read_back (tape r) (64, 0) = (64, 0)).
  { rewrite T. replace (Nat.max 8 (0 + S k)) with (S (Nat.max 7 k)) by lia.
    unfold numbered. cbn [seq map]. apply read_zero. }
  assert (L : 0 + places 64 <=? tape_length (tape r) = true).
  { rewrite T. replace (Nat.max 8 (0 + S k)) with (S (Nat.max 7 k)) by lia.
    unfold numbered. cbn [seq map tape_length fold_right fst]. apply N.leb_le. lia. }
  rewrite L, B. cbn [set_var with_vars vars]. unfold set. cbn [N.eqb]. rewrite V. reflexivity.
Qed.

Lemma numbers_range l : Forall (fun i => N.of_nat i < 2 ^ 64) l -> Forall gcall_range (intern_numbers l).
Proof.
  induction 1 as [|i l H F IH]; [constructor|]. cbn [intern_numbers flat_map app]. constructor; [|constructor; [exact Logic.I|exact IH]].
  cbn [gcall_range BvInterpSpec.vcall_range]. split; [reflexivity|]. split; [split; [exact H|reflexivity]|repeat constructor; auto].
Qed.

Lemma interner_wraps m n hs k : (forall i, proper (hs i)) -> N.of_nat k = 2 ^ 32 + 1 ->
  gperform m n hs (intern_numbers (seq 0 k)
                   ++ [Core (Lib (IsZero 0)); Core (Lib (Fetch 1 0)); Core (Digest 0); Core (Digest 1)])
  = repeat done (2 * k)
    ++ [Told (Seen (V (BvInterpSpec.Says true))); done;
        Told (Hashed [HashU32 64; HashLen 1; HashU64 (2 ^ 32)]); Told (Hashed [HashU32 64; HashLen 1; HashU64 0])].
Proof.
  intros P K. destruct (gsound m (intern_numbers (seq 0 k)
     ++ [Core (Lib (IsZero 0)); Core (Lib (Fetch 1 0)); Core (Digest 0); Core (Digest 1)]) hs _ _ P (stands_start m n)) as (gs & E).
  { apply Forall_app. split; [|repeat constructor]. apply numbers_range, Forall_forall. intros i I. apply in_seq in I. lia. }
  unfold gperform. rewrite E. now apply full_interner.
Qed.

(** ** Handles of the interner *)
Definition roomy (r : stage) : Prop :=
  forall h x, refs r h = Some x -> snd x + places (fst x) <= tape_length (tape r).

Lemma tape_length_app l s : tape_length (l ++ [s]) = tape_length l + places (fst s).
Proof.
  induction l as [|t l IH]; cbn [app tape_length fold_right]; [lia|].
  fold (tape_length (l ++ [s])). fold (tape_length l). lia.
Qed.
Lemma place_fits l s : place l s + places (fst s) <= tape_length (taped l s).
Proof.
  unfold taped. destruct (existsb _ l) eqn:E.
  - induction l as [|t l IH]; [discriminate E|]. cbn [place existsb tape_length fold_right] in *. fold (tape_length l).
    destruct (alike t s) eqn:A; [unfold alike in A; lia|]. cbn [orb] in E. specialize (IH E). lia.
  - rewrite tape_length_app. assert (X : place l s = tape_length l); [|lia].
    induction l as [|t l IH]; [reflexivity|]. cbn [place existsb tape_length fold_right] in *. fold (tape_length l).
    destruct (alike t s); [discriminate E|]. cbn [orb] in E. now rewrite IH.
Qed.
Lemma taped_longer l s : tape_length l <= tape_length (taped l s).
Proof. unfold taped. destruct (existsb _ l); [lia|]. rewrite tape_length_app. lia. Qed.

Lemma gintern_roomy m r h s : roomy r -> roomy (fst (gintern m r h s)).
Proof.
  intros H. assert (X : forall vs ts c n, roomy (mkstage c n vs ts (set (refs r) h (fst s, place (tape r) s mod 2 ^ 32)) (taped (tape r) s))).
  { intros vs ts c n g x. cbn [refs tape]. unfold set. destruct (g =? h).
    - intros E. injection E as <-. cbn [fst snd]. assert (P := place_fits (tape r) s).
      assert (M : place (tape r) s mod 2 ^ 32 <= place (tape r) s) by (apply N.mod_le; discriminate). lia.
    - intros E. assert (P := H g x E). assert (L := taped_longer (tape r) s). lia. }
  unfold gintern. destruct m, (fst s) eqn:E; cbn [fst]; try exact H; apply X.
Qed.

Lemma gstep_roomy m g r c : (forall h i, c <> NewHandle h i) -> roomy r -> roomy (fst (gpredict1 m g r c)).
Proof.
  intros N H. assert (Same : forall r', refs r' = refs r -> tape r' = tape r -> roomy r').
  { intros r' E E' h x. rewrite E, E'. apply H. }
  assert (Arr : forall c, roomy (fst (array_step m g r c))).
  { intros c'. unfold array_step. destruct (any_predict1 _ _ _ _). now apply Same. }
  destruct c as [c|c|k a|hd i|hd c|a b|hd|]; cbn [gpredict1]; try exact H.
  - destruct c as [c|c|i j|k|k|a]; cbn [core_step]; try exact H.
    + assert (X : roomy (fst (library_step m g r c))); [|now destruct (library_step m g r c)].
      destruct c as [c|c|a dense iw d|k a i|a i x|hd k|k hd|hd gd|hd|hd]; cbn [library_step]; try exact H.
      * destruct (vector_step _ _ _). now apply Same.
      * assert (X := Arr c). now destruct (array_step m g r c).
      * destruct (vars r d) as [s|]; [|exact H]. assert (X := Arr (ArrayInterpSpec.New a (origin dense iw (value s)))).
        now destruct (array_step m g r _).
      * destruct (vars r i) as [s|]; [|exact H]. assert (X := Arr (ArrayInterpSpec.Select a (value s))).
        destruct (array_step m g r _) as [r' []]; exact X.
      * destruct (vars r i) as [s|]; [|exact H]. destruct (vars r x) as [t|]; [|exact H].
        assert (X := Arr (ArrayInterpSpec.Change a (KindSpec.Store (value s) (value t)))). now destruct (array_step m g r _).
      * destruct (vars r k); [now apply gintern_roomy|exact H].
      * destruct (refs r hd) as [x|]; [|exact H]. destruct (_ <=? _); [|exact H]. now apply Same.
    + destruct (StoreInterpSpec.spredict1 _ _ _). now apply Same.
  - destruct (full_predict1 _ _ _ _). now apply Same.
  - destruct (full_predict1 _ _ _ _) as [e o]. destruct (vector_given o); [|exact H]. now apply Same.
  - now destruct (N hd i).
  - destruct (refs r hd); [|exact H]. cbn [core_step]. destruct (StoreInterpSpec.spredict1 _ _ _). now apply Same.
Qed.

Lemma fetches m k h : forall cs gs r i, (forall h i, ~ In (NewHandle h i) cs) -> roomy r ->
  nth_error cs i = Some (Core (Lib (Fetch k h))) ->
  nth_error (gpredict_from m r gs cs) i <> Some (Told (Seen (V BvInterpSpec.Panicked))).
Proof.
  induction cs as [|c cs IH]; intros gs r i N H E; [now destruct i|].
  cbn [gpredict_from]. assert (X := gstep_roomy m (gs O) r c (fun h i E => N h i (or_introl E)) H).
  destruct (gpredict1 m (gs O) r c) as [r' o] eqn:E1. cbn [fst] in X. destruct i as [|i]; cbn [nth_error] in *.
  - injection E as ->. cbn [gpredict1 core_step library_step] in E1. destruct (refs r h) as [x|] eqn:Er.
    + assert (L := H h x Er). apply N.leb_le in L. rewrite L in E1. injection E1 as _ <-. discriminate.
    + injection E1 as _ <-. discriminate.
  - apply IH; auto. intros h' i' I. now apply (N h' i'); right.
Qed.

Lemma fetches_all m n hs cs k h i : (forall i, proper (hs i)) -> Forall gcall_range cs ->
  (forall h i, ~ In (NewHandle h i) cs) -> nth_error cs i = Some (Core (Lib (Fetch k h))) ->
  nth_error (gperform m n hs cs) i <> Some (Told (Seen (V BvInterpSpec.Panicked))).
Proof.
  intros P T N E. destruct (gsound m cs hs _ _ P (stands_start m n) T) as (gs & X). unfold gperform. rewrite X.
  apply (fetches m k h cs gs (start n) i N); [intros g x; discriminate|exact E].
Qed.

(** ** A value that is interned again *)
Lemma pooled_again m p l s : pooled p l -> good s -> m = Release \/ 0 < fst s -> on_tape l s = true ->
  interner_get_index m p (value s) = Ok (p, mkindex (fst s) (place l s mod 2 ^ 32)).
Proof.
  intros P G D O. destruct (pooled_index m p l s P G D) as (p' & E & _). rewrite E. do 2 f_equal.
  assert (K : known_at l s = Some (place l s mod 2 ^ 32)) by (unfold known_at; now rewrite O).
  revert E. unfold interner_get_index. fold (wd s).
  assert (Cases : (exists x, wd s = [x]) \/ len (wd s) <> 1).
  { destruct (wd s) as [|x [|y q]]; [right|left; eauto|right]; rewrite ?len_cons; unfold len; cbn [length]; lia. }
  destruct Cases as [(x & E)|Long].
  - rewrite E. destruct (debug_assert m _); cbn [bind]; [|discriminate]. destruct (N.ltb_spec x 8); [congruence|].
    rewrite (p_small p l P s x G E) by lia. rewrite K. congruence.
  - assert (X : hm_get words_eqb (in_large p) (wd s) = Some (place l s mod 2 ^ 32)) by now rewrite (p_large p l P s G Long).
    destruct (wd s) as [|x [|y q]]; [|now destruct Long|];
      (destruct (debug_assert m _); cbn [bind]; [|discriminate]); rewrite X; congruence.
Qed.

Lemma intern_list m : forall vs p l, pooled p l ->
  Forall (fun v => well_shaped v /\ (m = Release \/ 0 < width v)) vs ->
  exists p' is t, intern_all m p vs = Ok (p', is) /\ pooled p' (l ++ t) /\ length is = length vs
    /\ forall k v i, nth_error vs k = Some v -> nth_error is k = Some i ->
       on_tape (l ++ t) (width v, uval v) = true
       /\ i = mkindex (width v) (place (l ++ t) (width v, uval v) mod 2 ^ 32).
Proof.
  induction vs as [|v vs IH]; intros p l P F; cbn [intern_all].
  - exists p, [], []. rewrite app_nil_r. split; [reflexivity|]. split; [exact P|]. split; [reflexivity|].
    intros [|k] v i E; discriminate E.
  - inversion_clear F as [|? ? (Wv & Dv) F']. assert (S := shaped_stores v Wv). assert (Ev := stores_value _ _ _ S).
    set (s := (width v, uval v)) in *. assert (G : good s) by now apply (stores_same v).
    destruct (pooled_index m p l s P G Dv) as (p1 & E1 & P1). rewrite <- Ev in E1. rewrite E1. cbn [bind].
    assert (Ex : exists t1, taped l s = l ++ t1 /\ on_tape (taped l s) s = true /\ place (taped l s) s = place l s).
    { unfold taped. fold (on_tape l s). destruct (on_tape l s) eqn:O.
      - exists []. rewrite app_nil_r. auto.
      - exists [s]. split; [reflexivity|]. rewrite on_app, place_app, O by apply (p_good _ _ P).
        unfold on_tape. cbn [existsb place].
        assert (A : alike s s = true) by (unfold alike; now rewrite !N.eqb_refl). rewrite A. split; [reflexivity|].
        rewrite N.add_0_r. symmetry. now apply place_end, O; apply (p_good _ _ P). }
    destruct Ex as (t1 & T1 & O1 & L1).
    destruct (IH p1 (taped l s) P1 F') as (p2 & is & t & E2 & P2 & Ln & R). rewrite E2. cbn [bind].
    exists p2, (mkindex (fst s) (place l s mod 2 ^ 32) :: is), (t1 ++ t).
    rewrite app_assoc, <- T1. split; [reflexivity|]. split; [exact P2|]. split; [cbn [length]; now rewrite Ln|].
    intros [|k] v' i Ek Ei; cbn [nth_error] in *; [|now apply (R k)].
    injection Ek as <-. injection Ei as <-. fold s. rewrite on_app, place_app, O1, L1 by apply (p_good _ _ P1). auto.
Qed.

Lemma again_always m vs : Forall (fun v => well_shaped v /\ (m = Release \/ 0 < width v)) vs ->
  exists st is, intern_all m interner_new vs = Ok (st, is) /\ length is = length vs
    /\ forall k v i, nth_error vs k = Some v -> nth_error is k = Some i -> interner_get_index m st v = Ok (st, i).
Proof.
  intros F. destruct (intern_list m vs _ _ pooled_new F) as (st & is & t & E & P & L & R). exists st, is.
  split; [exact E|]. split; [exact L|]. intros k v i Ek Ei. destruct (R k v i Ek Ei) as (O & ->).
  assert (V : well_shaped v /\ (m = Release \/ 0 < width v)) by (apply (proj1 (Forall_forall _ _) F); eapply nth_error_In; exact Ek).
  destruct V as (Wv & Dv). assert (S := shaped_stores v Wv).
  assert (Ev := stores_value _ _ _ S). transitivity (interner_get_index m st (value (width v, uval v))); [now rewrite <- Ev|].
  apply (pooled_again m st _ (width v, uval v) P); auto. now apply (stores_same v).
Qed.
