(** * PFree: programs with every operation, and texts and big integers of any size (C97). *)

From Coq Require Import ZifyBool ZifyNat ZifyN.
From Verif Require Import Base Strings Bv Map Array Fmt Indexed Unwind Spec TextSpec CallSpec ParseSpec PanicSpec DirtySpec
  MixedSpec InterpSpec BvInterpSpec BigSpec.
From Verif Require LongSpec StoreInterpSpec ReleaseInterpSpec PStoreInterp PDirty.
From Verif Require Import WholeSpec FullSpec AllSpec ChanceSpec EverySpec.
From Verif Require FullArraySpec.
From Verif Require Import PWords PUnwind PBvInterp PLong PBig PWhole PFull PEvery FreeSpec.
Import StoreInterpSpec(scall, within, part, put, owned).
Import PStoreInterp(matches, same).
Import PDirty(is_bv_stores).
Ltac Zify.zify_post_hook ::= idtac.

(** ** Calls *)
Lemma into_ends m v w n s r : stores v w n -> len s < 2 ^ 63 ->
  ends (un_from_str_radix m s r w (words v)) w (fst (read_into m r w n s)) (snd (read_into m r w n s)).
Proof.
  intros (S & <- & <-) L. assert (G := long_assign m v s r S L). unfold read_into.
  destruct (LongSpec.any_reading m r (width v) (uval v) s) as [n|k n|n]; cbn [LongSpec.ends_as fst snd] in *.
  - destruct G as (ws & -> & A & B). cbn [ends]. split; [|reflexivity]. split; [exact A|]. now split.
  - destruct G as (ws & -> & A & B). cbn [ends]. split; [|reflexivity]. split; [exact A|]. now split.
  - destruct G as (ws & p & -> & A & B). cbn [ends]. split; [|reflexivity]. split; [exact A|]. now split.
Qed.

Lemma copy_agrees m a w n s r : stores a w n -> len s < 2 ^ 63 ->
  agrees (run m (unary_call (UAssignStr s r) a)) (read_copy m r w n s).
Proof.
  intros H L. assert (E := into_ends m a w n s r H L). assert (Q := same_parse m a s r). destruct H as (_ & Ew & _).
  cbn [unary_call run]. rewrite Ew in Q. unfold read_copy.
  destruct (read_into m r w n s) as [n' o]. cbn [fst snd] in E.
  destruct (un_from_str_radix m s r w (words a)) as [ws [k|]|ws p]; rewrite Q; cbn [ends bind] in *; destruct E as [E ->]; cbn [agrees].
  - eexists. split; [reflexivity|exact E].
  - eexists. split; [reflexivity|exact E].
  - now exists p.
Qed.
Lemma copy_errs m r w n s : read_copy m r w n s <> Errs.
Proof. unfold read_copy. destruct (read_into m r w n s) as [n' []]; discriminate. Qed.

Definition made_as (r : res parsed) (o : outcome + int_error_kind) : Prop :=
  match o with
  | inl (Gives w n) => exists v, r = Ok (Parsed v) /\ stores v w n
  | inl Stops => panics r
  | inl Errs => False
  | inr k => r = Ok (ParseErr k)
  end.

Lemma gives_made r w o : LongSpec.gives r w o ->
  made_as r match o with LongSpec.Accepts n => inl (Gives w n) | LongSpec.Rejects k _ => inr k | LongSpec.Stops _ => inl Stops end.
Proof.
  destruct o; cbn [LongSpec.gives made_as]; try exact (fun H => H).
Qed.

Lemma new_made m c o : free_fresh c -> new_vector m c = Some o -> made_as (construct m c) o.
Proof.
  intros (_ & T) E. destruct c; try discriminate E; cbn [new_vector construct] in *; injection E as <-.
  - apply gives_made, long_parse; apply T.
  - assert (G := long_bit_str m s T). destruct (LongSpec.any_width m 1 s); [now apply gives_made|exact G].
  - assert (G := long_hex_str m s T). destruct (LongSpec.any_width m 4 s); [now apply gives_made|exact G].
  - assert (G := big_int_any m z). cbn [run]. destruct (big_width m 1 (N.size (Z.abs_N z))) as [w|].
    + destruct ((w =? 0) && (z <? 0)%Z); cbn [made_as].
      * destruct G as (p & ->). now exists p.
      * destruct G as (v & -> & B). exists v. split; [reflexivity|now apply is_bv_stores].
    + destruct G as (p & ->). now exists p.
  - assert (G := big_uint_any m n). cbn [run]. destruct (big_width m 0 (N.size n)) as [w|]; cbn [made_as].
    + destruct G as (v & -> & B). exists v. split; [reflexivity|now apply is_bv_stores].
    + destruct G as (p & ->). now exists p.
Qed.

Lemma old_fresh m c : free_fresh c -> new_vector m c = None -> fresh_range c.
Proof. intros (O & T) E. split; [exact O|]. destruct c; try discriminate E; cbn in *; auto. Qed.

Lemma vstep_free m env renv c : related env renv -> free_vcall c ->
  related (fst (vperform1 m env c)) (fst (free_vstep m renv c)) /\ snd (vperform1 m env c) = snd (free_vstep m renv c).
Proof.
  intros R T. assert (Old : vcall_range c -> related (fst (vperform1 m env c)) (fst (vector_step m renv c))
                            /\ snd (vperform1 m env c) = snd (vector_step m renv c)).
  { intros T'. exact (PStoreInterp.own_ok m env renv c R T'). }
  destruct c as [k c|k j|k u j|k op i j|k u|t i j|l k|k]; cbn [free_vcall vcall_range] in *; try (apply Old; exact Logic.I).
  - cbn [free_vstep]. destruct (new_vector m c) as [o|] eqn:E; [|apply Old; now apply (old_fresh m)].
    assert (G := new_made m c o T E). clear Old. cbn [vperform1]. destruct o as [[w n| |]|e]; cbn [made_as keep] in *.
    + destruct G as (v & -> & S). cbn [fst snd]. split; [now apply related_set|reflexivity].
    + easy.
    + destruct G as (p & ->). auto.
    + rewrite G. auto.
  - destruct u; try (apply Old; exact T). clear Old. cbn [free_vstep free_unary vperform1] in *.
    assert (Rj := R j). destruct (env j) as [v|], (renv j) as [[w n]|]; try easy.
    assert (A := copy_agrees m v w n s radix Rj (proj1 T)). assert (NE := copy_errs m radix w n s).
    destruct (read_copy m radix w n s); cbn [agrees keep] in *; [|easy|].
    + destruct A as (v' & -> & H). cbn. split; [now apply related_set|reflexivity].
    + destruct A as (p & ->). cbn. auto.
  - destruct u; try (apply Old; exact T). clear Old. cbn [free_vstep free_update vperform1 update_call] in *.
    assert (Rk := R k). destruct (env k) as [v|], (renv k) as [[w n]|]; try easy.
    assert (E := into_ends m v w n s radix Rk (proj1 T)). destruct Rk as (_ & Ew & _). rewrite Ew.
    destruct (read_into m radix w n s) as [n' o]. cbn [fst snd] in E.
    destruct (un_from_str_radix m s radix w (words v)) as [ws [x|]|ws p]; cbn [ends fst snd] in *; destruct E as [E ->];
      (split; [now apply related_set|reflexivity]).
Qed.

(** ** The vector of words *)
Lemma sstep_free m s r c : matches s r -> free_scall c -> same (StoreInterpSpec.sperform1 m s c) (free_sstep m r c).
Proof.
  intros M T. assert (Old : StoreInterpSpec.scall_range c -> same (StoreInterpSpec.sperform1 m s c) (StoreInterpSpec.spredict1 m r c)).
  { now apply PStoreInterp.sstep_ok. }
  destruct s as [store vars]. assert (P : same ((store, vars), Panicked) (r, Panicked)) by (split; [exact M|reflexivity]).
  destruct c as [c|p x|k i|k l i j|l i|t i j|i u|i j|i u j|i op j k]; cbn [free_scall] in T; try (apply Old; exact T).
  - clear Old. cbn [StoreInterpSpec.sperform1 free_sstep]. destruct (vstep_free m vars (owned r) c) as [R O]; [apply M|exact T|].
    destruct (vperform1 m vars c) as [vars' o], (free_vstep m (owned r) c) as [e o']. cbn [fst snd] in *. subst o'.
    destruct M as (A & B & C & _). split; [|reflexivity]. repeat split; assumption.
  - destruct u; try (apply Old; exact T). clear Old. cbn [StoreInterpSpec.sperform1 free_sstep free_update] in *.
    unfold get_mut_ref. rewrite (PStoreInterp.get_ref_eq store vars r i M). destruct (within r i) eqn:W; [|exact P].
    cbn [width words update_call].
    assert (E := into_ends m _ _ _ s radix (PStoreInterp.view_stores store vars r i M W (proj1 T)) (proj1 (proj2 T))).
    cbn [words] in E. destruct (read_into m radix (i_width i) (part r i) s) as [n o]. now apply PStoreInterp.finish_ok.
  - destruct u; try (apply Old; exact T). clear Old. cbn [StoreInterpSpec.sperform1 free_sstep free_unary] in *.
    rewrite (PStoreInterp.mut_2_eq m store vars r i j M). destruct (within r i) eqn:W; [|exact P].
    destruct (within r j) eqn:W'; [|exact P]. cbn [andb]. destruct (StoreInterpSpec.separate i j); [|exact P].
    apply PStoreInterp.result_ok; auto using copy_errs.
    + apply (PStoreInterp.view_stores store vars); tauto.
    + apply copy_agrees; [|apply T]. apply (PStoreInterp.view_stores store vars); tauto.
Qed.

Lemma mem_free h m s r c : stands m s r -> free_scall c ->
  let x := eperform1 (h_probe h) (h_order h) (h_saved h) m s (Mem c) in
  stands m (fst x) (fst (free_mem m r c)) /\ Told (snd x) = snd (free_mem m r c).
Proof.
  intros (S1 & R & S3 & S5) T. destruct s as [store w]. cbn [fst snd] in S1, R, S3, S5. cbn [eperform1]. unfold free_mem.
  set (mem := StoreInterpSpec.mkmemory (cells r) (content r) (vars r)) in *. destruct S1 as (Ws & L & V).
  assert (Mt : matches (store, vectors w) mem) by (split; [exact Ws|split; [exact L|split; [exact V|exact R]]]).
  assert (X := sstep_free m _ _ c Mt T). unfold same in X.
  destruct (StoreInterpSpec.sperform1 m (store, vectors w) c) as [[store' e] q].
  destruct (free_sstep m mem c) as [mem' q'].
  cbn [fst snd] in X. destruct X as (X & ->). cbn [fst snd]. split; [|reflexivity].
  destruct X as (X1 & X2 & X3 & X4). cbn [fst snd] in *. split; [split; [exact X1|split; [exact X2|exact X3]]|].
  split; [exact X4|]. split; [exact S3|exact S5].
Qed.

Lemma free_at_index i c : StoreInterpSpec.index_typed i -> free_scall c -> free_scall (at_index i c).
Proof. intros I. destruct c; cbn [free_scall StoreInterpSpec.scall_range at_index]; tauto. Qed.

(** ** Programs *)
Lemma free_step h g m s r c : proper h -> stands m s r -> free_call c -> gmatching h g (snd s) r c ->
  stands m (fst (gperform1 h m s c)) (fst (free_predict1 m g r c))
  /\ snd (gperform1 h m s c) = snd (free_predict1 m g r c).
Proof.
  intros Hp St T M.
  assert (Old : gcall_range c -> stands m (fst (gperform1 h m s c)) (fst (gpredict1 m g r c))
                                 /\ snd (gperform1 h m s c) = snd (gpredict1 m g r c)).
  { intros T'. now apply gstep. }
  destruct c as [c|c|k a|hd i|hd c|a b|hd|]; cbn [free_call] in T; try (apply Old; exact T).
  2:{ clear Old. cbn [gperform1 free_predict1]. assert (H := St). destruct H as (_ & _ & _ & (_ & H)). assert (Hh := H hd).
      destruct (handles (snd s) hd) as [i|], (refs r hd) as [x|]; try easy. destruct Hh as (-> & W & I).
      destruct (mem_free h m s r _ St (free_at_index (mkindex (fst x) (snd x)) c (conj I W) T)) as (X1 & X2).
      destruct (eperform1 _ _ _ m s _) as [s' o]. cbn [fst snd] in *. rewrite X2. auto. }
  destruct c as [c|c|i j|k|k|a]; try (apply Old; exact T).
  2:{ clear Old. cbn [gperform1 free_predict1]. destruct (mem_free h m s r c St T) as (X1 & X2).
      destruct (eperform1 _ _ _ m s _) as [s' o]. cbn [fst snd] in *. rewrite X2. auto. }
  destruct c as [c|c|a dense iw d|k a i|a i x|hd k|k hd|hd gd|hd|hd]; try (apply Old; exact T).
  clear Old. destruct s as [store w]. destruct St as (S1 & R & S3 & S5). cbn [fst snd] in S1, R, S3, S5.
  cbn [gperform1 eperform1 wperform1 free_predict1].
  assert (X := vstep_free m (vectors w) (vars r) c R T).
  destruct (free_vstep m (vars r) c) as [e q]. cbn [fst snd] in X. destruct X as (X1 & X2).
  destruct (vperform1 m (vectors w) c) as [e' q']. cbn [fst snd] in *. subst q'. split; [|reflexivity].
  split; [exact S1|]. split; [exact X1|]. split; [exact S3|exact S5].
Qed.

(** [gmatching] is about calls on arrays only *)
Lemma free_arrays c : free_call c -> gcall_range c \/ forall h g w r, gmatching h g w r c.
Proof.
  destruct c as [c|c|k a|hd i|hd c|a b|hd|]; cbn [free_call]; auto.
  - destruct c as [c|c|i j|k|k|a]; auto; [|right; intros; exact Logic.I].
    destruct c as [c|c|a dense iw d|k a i|a i x|hd k|k hd|hd gd|hd|hd]; auto. right. intros. exact Logic.I.
  - right. intros. exact Logic.I.
Qed.

Lemma free_sound m : forall cs hs s r, (forall n, proper (hs n)) -> stands m s r -> Forall free_call cs ->
  exists gs, gperform_from m s hs cs = free_predict_from m r gs cs.
Proof.
  induction cs as [|c cs IH]; intros hs s r P St T.
  - now exists (fun _ => no_luck).
  - inversion_clear T as [|? ? T1 T2].
    assert (X : exists g, gmatching (hs O) g (snd s) r c).
    { destruct (free_arrays c T1) as [T'|T']; [now apply (gmatching_some (hs O) m s r c (P O) St)|]. exists no_luck. apply T'. }
    destruct X as (g & M). destruct (free_step (hs O) g m s r c (P O) St T1 M) as (St' & Eo).
    destruct (IH (fun n => hs (S n)) _ _ (fun n => P (S n)) St' T2) as (gs & E).
    exists (fun n => match n with O => g | S n => gs n end). cbn [gperform_from free_predict_from].
    destruct (gperform1 (hs O) m s c) as [s1 o1]. destruct (free_predict1 m g r c) as [r1 o2]. cbn [fst snd] in *. rewrite Eo.
    f_equal. exact E.
Qed.

Lemma free_complete m : forall cs gs s r, stands m s r -> Forall free_call cs ->
  exists hs, (forall n, proper (hs n)) /\ gperform_from m s hs cs = free_predict_from m r gs cs.
Proof.
  induction cs as [|c cs IH]; intros gs s r St T.
  - exists (fun _ => plain_hashes). split; [intros _; exact plain_proper|reflexivity].
  - inversion_clear T as [|? ? T1 T2].
    assert (X : exists h, proper h /\ gmatching h (gs O) (snd s) r c).
    { destruct (free_arrays c T1) as [T'|T']; [now apply (gmatching_all (gs O) m s r c St)|].
      exists plain_hashes. split; [exact plain_proper|apply T']. }
    destruct X as (h & P & M). destruct (free_step h (gs O) m s r c P St T1 M) as (St' & Eo).
    destruct (IH (fun n => gs (S n)) _ _ St' T2) as (hs & Ps & E).
    exists (fun n => match n with O => h | S n => hs n end). split; [intros [|n]; auto|].
    cbn [gperform_from free_predict_from].
    destruct (gperform1 h m s c) as [s1 o1]. destruct (free_predict1 m (gs O) r c) as [r1 o2]. cbn [fst snd] in *. rewrite Eo.
    f_equal. exact E.
Qed.

Lemma free_behaviour m n cs os : Forall free_call cs ->
  (exists hs, (forall k, proper (hs k)) /\ gperform m n hs cs = os) <-> (exists gs, free_predict m n gs cs = os).
Proof.
  intros T. split.
  - intros (hs & P & <-). destruct (free_sound m cs hs _ _ P (stands_start m n) T) as (gs & E). exists gs. now symmetry.
  - intros (gs & <-). destruct (free_complete m cs gs _ _ (stands_start m n) T) as (hs & P & E). eauto.
Qed.

(** ** Agreement with C94 *)
Lemma short_reading m r w x s : len s < 2 ^ 30 -> LongSpec.any_reading m r w x s =
  match reading_of r w x s with Reads n => LongSpec.Accepts n | Fails k n => LongSpec.Rejects k n | Breaks => LongSpec.Stops x end.
Proof. intros L. apply long_short. left. eapply N.le_lt_trans; [apply digits_of_len|exact L]. Qed.
Lemma short_width m b s : b <= 4 -> len s + 1 < 2 ^ 30 -> LongSpec.any_width m b s = Some (text_width b s).
Proof.
  intros B L. unfold LongSpec.any_width, text_width.
  assert (W : len (without_sign s) <= len s).
  { unfold without_sign. destruct s as [|c t]; [apply N.le_refl|]. destruct (_ || _); rewrite ?len_cons; lia. }
  change (2 ^ 30) with 1073741824 in L. rewrite N.mod_small by (change (2 ^ 32) with 4294967296; clear - L W; lia).
  replace (_ <? 2 ^ 32) with true; [reflexivity|]. symmetry. apply N.ltb_lt. change (2 ^ 32) with 4294967296.
  assert (b * len (without_sign s) <= 4 * len s) by (apply N.mul_le_mono; assumption). destruct (has_minus s); lia.
Qed.

Lemma agree_new m c o : fresh_range c -> new_vector m c = Some o ->
  o = match m with Debug => built c | Release => ReleaseInterpSpec.rbuilt c end.
Proof.
  assert (Txt : forall r w s, len s < 2 ^ 30 -> read_new m r w s =
    match reading_of r w 0 s with Reads n => inl (Gives w n) | Fails e _ => inr e | Breaks => inl Stops end).
  { intros r w s L. unfold read_new. rewrite short_reading by exact L. now destruct (reading_of r w 0 s). }
  intros (_ & T1 & T2 & T3) E. destruct c; try discriminate E; cbn [new_vector] in E; injection E as <-; cbn [in_range in_memory] in *.
  - rewrite Txt by apply T1. now destruct m.
  - rewrite short_width by (exact T3 || (clear; lia)). rewrite Txt by exact T1. now destruct m.
  - rewrite short_width by (exact T3 || (clear; lia)). rewrite Txt by exact T1. now destruct m.
  - assert (X : N.size (Z.abs_N z) < 274877906880) by exact T2. clear T1 T2 T3. unfold big_width.
    destruct m; cbn [built ReleaseInterpSpec.rbuilt InterpSpec.fresh ReleaseInterpSpec.rfresh]; revert X; generalize (N.size (Z.abs_N z)); intros q X.
    all: change (2 ^ 32) with 4294967296; rewrite N.mod_small by (clear - X; dlia).
    + change (2 ^ 38) with 274877906944. rewrite N.mod_small by (clear - X; lia).
      destruct (N.eqb_spec ((q + 63) / 64) 0) as [Q|Q].
      { assert (q = 0) as -> by (clear - Q; dlia). reflexivity. }
      destruct (N.ltb_spec (4294967296 - 64) q) as [H|H].
      * replace (4294967296 <=? 64 * ((q + 63) / 64)) with true by (clear - H; dlia). reflexivity.
      * replace (4294967296 <=? 64 * ((q + 63) / 64)) with false by (clear - H; dlia).
        replace (q + 1 =? 0) with false by (clear; lia). reflexivity.
    + destruct (N.eqb_spec ((q + 63) / 64) 0) as [Q|Q]; [|reflexivity].
      assert (q = 0) as -> by (clear - Q; dlia). reflexivity.
  - assert (X : N.size n < 274877906880) by exact T2. clear T1 T2 T3. unfold big_width.
    assert (Sz := N.size_gt n).
    destruct m; cbn [built ReleaseInterpSpec.rbuilt InterpSpec.fresh ReleaseInterpSpec.rfresh]; revert X Sz; generalize (N.size n); intros q X Sz.
    all: change (2 ^ 32) with 4294967296; rewrite (N.mod_small ((q + 63) / 64)) by (clear - X; dlia).
    + change (2 ^ 38) with 274877906944. rewrite (N.mod_small q) by (clear - X; lia). rewrite N.add_0_r.
      destruct (N.eqb_spec ((q + 63) / 64) 0) as [Q|Q].
      { assert (q = 0) as -> by (clear - Q; dlia). rewrite N.mod_small by exact Sz. reflexivity. }
      destruct (N.ltb_spec (4294967296 - 64) q) as [H|H].
      * replace (4294967296 <=? 64 * ((q + 63) / 64)) with true by (clear - H; dlia). reflexivity.
      * replace (4294967296 <=? 64 * ((q + 63) / 64)) with false by (clear - H; dlia).
        now rewrite N.mod_small by exact Sz.
    + rewrite N.add_0_r. destruct (N.eqb_spec ((q + 63) / 64) 0) as [Q|Q]; [|reflexivity].
      assert (q = 0) as -> by (clear - Q; dlia). reflexivity.
Qed.

Lemma agree_into m r w n s src : len s < 2 ^ 30 ->
  read_into m r w n s = updated w n src (IParse s r) /\ read_copy m r w n s = unary_result (UAssignStr s r) w n.
Proof.
  intros L. unfold read_copy, read_into. rewrite short_reading by exact L. cbn [updated unary_result].
  now destruct (reading_of r w n s).
Qed.

Lemma agree_vstep m env c : vcall_range c -> free_vstep m env c = vector_step m env c.
Proof.
  intros T. destruct c as [k c|k j|k u j|k op i j|k u|t i j|l k|k]; try reflexivity; cbn [free_vstep vcall_range] in *.
  - destruct (new_vector m c) as [o|] eqn:E; [|reflexivity]. apply agree_new in E; [|exact T]. subst o.
    destruct m; cbn [vector_step vpredict1 ReleaseInterpSpec.rpredict1]; [now destruct (built c)|now destruct (ReleaseInterpSpec.rbuilt c)].
  - destruct u; try reflexivity. cbn [unary_range] in T. destruct m; cbn [vector_step vpredict1 ReleaseInterpSpec.rpredict1];
      (destruct (env j) as [[w n]|]; [|reflexivity]); rewrite (proj2 (agree_into _ radix w n s env (proj1 T))); reflexivity.
  - destruct u; try reflexivity. cbn [update_range] in T. destruct m; cbn [vector_step vpredict1 ReleaseInterpSpec.rpredict1];
      (destruct (env k) as [[w n]|]; [|reflexivity]); rewrite (proj1 (agree_into _ radix w n s env (proj1 T))); reflexivity.
Qed.

Lemma agree_sstep m r c : StoreInterpSpec.scall_range c -> free_sstep m r c = StoreInterpSpec.spredict1 m r c.
Proof.
  intros T. destruct c as [c|p x|k i|k l i j|l i|t i j|i u|i j|i u j|i op j k]; try reflexivity;
    cbn [free_sstep StoreInterpSpec.spredict1 StoreInterpSpec.scall_range] in *.
  - rewrite agree_vstep by exact T. reflexivity.
  - destruct u; try reflexivity. unfold StoreInterpSpec.change.
    rewrite (proj1 (agree_into m radix (i_width i) (part r i) s (owned r) (proj1 (proj2 T)))). now destruct m.
  - destruct u; try reflexivity.
    rewrite (proj2 (agree_into m radix (i_width j) (part r j) s (owned r) (proj1 (proj1 (proj2 T))))). now destruct m.
Qed.

Lemma agree_mem m r c : StoreInterpSpec.scall_range c ->
  free_mem m r c = let (r', o) := core_step m no_luck r (Mem c) in (r', Told o).
Proof. intros T. unfold free_mem. cbn [core_step]. rewrite agree_sstep by exact T. now destruct (StoreInterpSpec.spredict1 m _ c). Qed.

Lemma agree_each m : forall cs gs s r, stands m s r -> Forall gcall_range cs ->
  free_predict_from m r gs cs = gpredict_from m r gs cs.
Proof.
  induction cs as [|c cs IH]; intros gs s r St T; [reflexivity|]. inversion_clear T as [|? ? T1 T2].
  cbn [free_predict_from gpredict_from].
  assert (E : free_predict1 m (gs O) r c = gpredict1 m (gs O) r c).
  { destruct c as [c|c|k a|hd i|hd c|a b|hd|]; try reflexivity.
    - destruct c as [c|c|i j|k|k|a]; try reflexivity.
      + destruct c as [c|c|a dense iw d|k a i|a i x|hd k|k hd|hd gd|hd|hd]; try reflexivity.
        cbn [free_predict1 gpredict1 core_step library_step gcall_range] in *. rewrite agree_vstep by exact T1.
        now destruct (vector_step m (vars r) c).
      + exact (agree_mem m r c T1).
    - cbn [free_predict1 gpredict1]. destruct St as (_ & _ & _ & (_ & H)). assert (Hh := H hd).
      destruct (refs r hd) as [x|]; [|reflexivity]. destruct (handles (snd s) hd) as [i|]; [|easy]. destruct Hh as (_ & W & I).
      apply agree_mem. apply at_index_range; [split; [exact I|exact W]|exact T1]. }
  rewrite E. destruct (gmatching_all (gs O) m s r c St T1) as (h & P & M).
  destruct (gstep h (gs O) m s r c P St T1 M) as (St' & _). destruct (gpredict1 m (gs O) r c) as [r1 o]. f_equal.
  now apply (IH _ (fst (gperform1 h m s c))).
Qed.
Lemma free_agrees m n cs gs : Forall gcall_range cs -> free_predict m n gs cs = gpredict m n gs cs.
Proof. intros T. exact (agree_each m cs gs _ _ (stands_start m n) T). Qed.
Lemma wider c : gcall_range c -> free_call c.
Proof.
  assert (F : forall c, fresh_range c -> free_fresh c).
  { intros c' (A & B & _). split; [exact A|]. destruct c'; auto; cbn [in_range] in B; change (2 ^ 63) with 9223372036854775808;
      change (2 ^ 30) with 1073741824 in B; lia. }
  assert (U : forall u, unary_range u -> free_unary u).
  { intros u. destruct u; cbn [unary_range free_unary]; auto. change (2 ^ 63) with 9223372036854775808. change (2 ^ 30) with 1073741824. lia. }
  assert (P : forall u, update_range u -> free_update u).
  { intros u. destruct u; cbn [update_range free_update]; auto. change (2 ^ 63) with 9223372036854775808. change (2 ^ 30) with 1073741824. lia. }
  assert (V : forall c, vcall_range c -> free_vcall c).
  { intros c'. destruct c'; cbn [vcall_range free_vcall]; auto. }
  assert (S : forall c, StoreInterpSpec.scall_range c -> free_scall c).
  { intros c'. destruct c'; cbn [StoreInterpSpec.scall_range free_scall]; auto; intuition. }
  destruct c as [c|c|k a|hd i|hd c|a b|hd|]; cbn [gcall_range free_call]; auto.
  destruct c as [c|c|i j|k|k|a]; auto. destruct c; auto.
Qed.

(** ** Two programs *)
Lemma torn_program m n hs k : N.of_nat k = 2 ^ 32 + 1 ->
  gperform m n hs [Core (Lib (OnVector (Make 0 (KOnes 130)))); Core (Lib (OnVector (Update 0 (IParse (repeat 48 k) 2)))); Core (Digest 0)]
  = [done; Told (Seen (V Panicked));
     Told (Hashed [HashU32 130; HashLen 3; HashU64 match m with Debug => 2 ^ 64 - 1 | Release => 0 end; HashU64 (2 ^ 64 - 1); HashU64 3])].
Proof.
  intros K. unfold gperform. cbn [gperform_from gperform1 eperform1 wperform1 vperform1 construct run vectors WholeSpec.fresh].
  destruct (PConv.ones_ok m 130 ltac:(reflexivity) ltac:(reflexivity)) as (v & -> & B). apply is_bv_stores in B.
  destruct B as (S & Ew & Ev). cbn [bind unwrap eperform1 wperform1 vperform1 vectors]. unfold set at 1. cbn [N.eqb update_call].
  assert (G := torn_by_zeros m v k S ltac:(rewrite Ew; reflexivity) K). destruct G as (ws & p & -> & A & U).
  cbn [vectors eperform1]. unfold set at 1. cbn [N.eqb]. unfold done. do 4 f_equal. rewrite Ew, Ev in *.
  assert (X : stores (mkbv 130 ws) 130 match m with Debug => 2 ^ 130 - 1 | Release => 2 ^ 64 * ((2 ^ 130 - 1) / 2 ^ 64) end).
  { split; [exact A|]. split; [reflexivity|exact U]. }
  destruct m; rewrite (PAll.digest_ok _ (130, _) X); vm_compute; reflexivity.
Qed.

Lemma vanishing_program m n hs q x : N.size x = 2 ^ 38 * (q + 1) ->
  gperform m n hs [Core (Lib (OnVector (Make 0 (KOfBigUint x)))); Core (Digest 0)] = [done; Told (Hashed [HashU32 0; HashLen 0])].
Proof.
  intros E. unfold gperform. cbn [gperform_from gperform1 eperform1 wperform1 vperform1 construct run vectors WholeSpec.fresh].
  destruct (big_vanishes m q x E) as (v & -> & B). apply is_bv_stores in B. cbn [bind unwrap vectors eperform1]. unfold set at 1. cbn [N.eqb].
  rewrite (PAll.digest_ok v (0, 0) B). reflexivity.
Qed.

(** ** Handles of the interner *)
Lemma free_roomy m g r c : (forall h i, c <> NewHandle h i) -> roomy r -> roomy (fst (free_predict1 m g r c)).
Proof.
  intros N H. assert (Same : forall r', refs r' = refs r -> tape r' = tape r -> roomy r').
  { intros r' E E' h x. rewrite E, E'. apply H. }
  assert (Old := gstep_roomy m g r c N H).
  destruct c as [c|c|k a|hd i|hd c|a b|hd|]; try exact Old.
  - destruct c as [c|c|i j|k|k|a]; try exact Old.
    + destruct c as [c|c|a dense iw d|k a i|a i x|hd k|k hd|hd gd|hd|hd]; try exact Old.
      cbn [free_predict1]. destruct (free_vstep _ _ _). now apply Same.
    + cbn [free_predict1]. unfold free_mem. destruct (free_sstep _ _ _). now apply Same.
  - cbn [free_predict1]. destruct (refs r hd); [|exact H]. unfold free_mem. destruct (free_sstep _ _ _). now apply Same.
Qed.

Lemma free_fetches m k h : forall cs gs r i, (forall h i, ~ In (NewHandle h i) cs) -> roomy r ->
  nth_error cs i = Some (Core (Lib (Fetch k h))) ->
  nth_error (free_predict_from m r gs cs) i <> Some (Told (Seen (V Panicked))).
Proof.
  induction cs as [|c cs IH]; intros gs r i N H E; [now destruct i|].
  cbn [free_predict_from]. assert (X := free_roomy m (gs O) r c (fun h i E => N h i (or_introl E)) H).
  destruct (free_predict1 m (gs O) r c) as [r' o] eqn:E1. cbn [fst] in X. destruct i as [|i]; cbn [nth_error] in *.
  - injection E as ->. cbn [free_predict1 gpredict1 core_step library_step] in E1. destruct (refs r h) as [x|] eqn:Er.
    + assert (L := H h x Er). apply N.leb_le in L. rewrite L in E1. injection E1 as _ <-. discriminate.
    + injection E1 as _ <-. discriminate.
  - apply IH; auto. intros h' i' I. now apply (N h' i'); right.
Qed.

Lemma free_fetches_all m n hs cs k h i : (forall i, proper (hs i)) -> Forall free_call cs ->
  (forall h i, ~ In (NewHandle h i) cs) -> nth_error cs i = Some (Core (Lib (Fetch k h))) ->
  nth_error (gperform m n hs cs) i <> Some (Told (Seen (V Panicked))).
Proof.
  intros P T N E. destruct (free_sound m cs hs _ _ P (stands_start m n) T) as (gs & X). unfold gperform. rewrite X.
  apply (free_fetches m k h cs gs (start n) i N); [intros g x; discriminate|exact E].
Qed.

(** a program beyond the limits of C94 *)
Definition long_program (k : nat) : list gcall :=
  [Core (Lib (OnVector (Make 0 (KOnes 130)))); Core (Lib (OnVector (Update 0 (IParse (repeat 48 k) 2))));
   Core (Lib (OnVector (Make 1 (KOfBigUint (2 ^ (2 ^ 38 - 1)))))); Core (Lib (Intern 0 0)); Core (Lib (Fetch 2 0)); Core (Digest 1)].
Lemma long_program_free : exists k, N.of_nat k = 2 ^ 32 + 1 /\ Forall free_call (long_program k)
  /\ ~ Forall gcall_range (long_program k).
Proof.
  assert (E : exists k, N.of_nat k = 4294967297) by (exists (N.to_nat 4294967297); apply N2Nat.id).
  destruct E as (k & K). exists k. assert (L : len (repeat 48 k) = 4294967297) by now rewrite len_repeat.
  change (2 ^ 32) with 4294967296. split; [exact K|]. unfold long_program. split.
  - repeat (apply Forall_cons || apply Forall_nil); cbn [free_call free_vcall free_update free_fresh operands in_range gcall_range];
      try exact Logic.I.
    + split; reflexivity.
    + unfold free_update. rewrite L. split; reflexivity.
    + split; [reflexivity|exact Logic.I].
  - intros F. apply Forall_inv_tail, Forall_inv in F. cbn [gcall_range vcall_range update_range] in F. rewrite L in F.
    destruct F as (F & _). discriminate F.
Qed.
