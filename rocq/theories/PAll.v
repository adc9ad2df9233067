(** * PAll: the reference interpreter for the library and a word store together is right
    (C91). *)

From Coq Require Import ZifyBool ZifyNat ZifyN.
From Verif Require Import Base Strings Bv Map Array Fmt Indexed Spec ArraySpec CallSpec DirtySpec MixedSpec AnswerSpec.
From Verif Require BvInterpSpec StoreInterpSpec RawArraySpec PBvInterp PStoreInterp PRawArray PRawInterp.
From Verif Require Import StoreSpec PWords PropsArith PRegister PStore PDirty PAnswer PArrays PIntern WholeSpec FullSpec PWhole PFull AllSpec.
Import StoreInterpSpec(scall, scall_range, sperform1, spredict1).
Ltac Zify.zify_post_hook ::= idtac.

Lemma words_low_first : forall k a b l l', Words l -> Words l' -> length l = k -> length l' = k ->
  wv l = a -> wv l' = b -> words_cmp l l' = low_first k a b.
Proof.
  induction k as [|k IH]; intros a b l l' W W' L L' Ea Eb.
  - destruct l, l'; try discriminate. reflexivity.
  - destruct l as [|x l], l' as [|y l']; try discriminate. inversion_clear W. inversion_clear W'.
    cbn [words_cmp low_first]. rewrite <- Ea, <- Eb, !wv_cons, !(N.mul_comm (2 ^ 64)).
    rewrite !N.mod_add, !N.div_add, !N.mod_small, !N.div_small, !N.add_0_l by (assumption || discriminate).
    destruct (x ?= y); [|reflexivity..]. cbn [length] in *. apply IH; auto.
Qed.

Lemma hash_pieces : forall k n l, Words l -> length l = k -> wv l = n -> map HashU64 l = pieces k n.
Proof.
  induction k as [|k IH]; intros n l W L E; destruct l as [|x l]; try discriminate; [reflexivity|].
  inversion_clear W. cbn [map pieces]. rewrite <- E, wv_cons, (N.mul_comm (2 ^ 64)).
  rewrite N.mod_add, N.div_add, N.mod_small, N.div_small, N.add_0_l by (assumption || discriminate).
  cbn [length] in L. f_equal. apply IH; auto.
Qed.

Lemma stores_length v w n : stores v w n -> length (words v) = N.to_nat (places w) /\ Words (words v) /\ wv (words v) = n.
Proof.
  intros S. pose proof (PDirty.stores_inv _ _ _ S) as (E & _ & L & W & V & _). unfold len in L. fold (places w) in L. split; [lia|auto].
Qed.

Lemma order_ok a b s t : stores a (fst s) (snd s) -> stores b (fst t) (snd t) -> bv_cmp a b = order_of s t.
Proof.
  intros A B. unfold bv_cmp, order_of. assert (Ea : width a = fst s) by apply A. assert (Eb : width b = fst t) by apply B.
  rewrite Ea, Eb. destruct (N.compare_spec (fst s) (fst t)) as [E|E|E]; auto.
  destruct (stores_length _ _ _ A) as (L & W & V). destruct (stores_length _ _ _ B) as (L' & W' & V').
  apply words_low_first; auto. now rewrite E.
Qed.

Lemma digest_ok a s : stores a (fst s) (snd s) -> bv_hash a = digest_of s.
Proof.
  intros A. destruct (stores_length _ _ _ A) as (L & W & V). unfold bv_hash, digest_of, words_hash.
  replace (width a) with (fst s) by (symmetry; apply A). f_equal. f_equal.
  - f_equal. unfold len. rewrite L. lia.
  - now apply hash_pieces.
Qed.

Definition fits (s : state) (r : scene) : Prop :=
  Words (fst s) /\ len (fst s) = cells r /\ wv (fst s) = content r /\ shows (snd s) (rest r).

Lemma estep_ok probe ho order m s r c r' o : reorders ho -> reorders order ->
  fits s r -> ecall_range c -> epredict1 m r c = Some (r', o) ->
  fits (fst (eperform1 probe ho order m s c)) r' /\ snd (eperform1 probe ho order m s c) = o.
Proof.
  intros Ho Or F T E. assert (F' := F). destruct F as (Ws & L & V & Sh). assert (Sh' := Sh).
  destruct s as [store w]. cbn [fst snd] in *. destruct Sh as (R & Ag & I & C & H).
  destruct c as [c|c|i j|k|k|a]; cbn [epredict1 ecall_range eperform1] in *.
  - destruct (fpredict1 m (rest r) c) as [[p q]|] eqn:E1; [|discriminate E]. injection E as <- <-.
    destruct (fstep_ok probe ho order m w (rest r) c p q Ho Or Sh' T E1) as (X & Y).
    destruct (wperform1 probe ho order m w c) as [w' q']. cbn [fst snd] in *. subst q'. split; [|reflexivity].
    split; [exact Ws|]. split; [exact L|]. split; [exact V|exact X].
  - set (mem := StoreInterpSpec.mkmemory (cells r) (content r) (slots (rest r))) in *.
    assert (M : PStoreInterp.matches (store, vectors w) mem) by (split; [exact Ws|split; [exact L|split; [exact V|exact R]]]).
    assert (X := PStoreInterp.sstep_ok m _ _ c M T). unfold PStoreInterp.same in X.
    destruct (sperform1 m (store, vectors w) c) as [[store' e] q]. destruct (spredict1 m mem c) as [mem' q'].
    cbn [fst snd] in X. destruct X as (X & ->). injection E as <- <-. cbn [fst snd]. split; [|reflexivity].
    destruct X as (X1 & X2 & X3 & X4). cbn [fst snd] in *. split; [exact X1|]. split; [exact X2|]. split; [exact X3|].
    split; [exact X4|cbn; auto].
  - injection E as <- <-. split; [exact F'|]. cbn [snd]. assert (Ri := R i). assert (Rj := R j).
    destruct (vectors w i) as [a|], (slots (rest r) i) as [[n x]|]; try easy.
    destruct (vectors w j) as [b|], (slots (rest r) j) as [[n' y]|]; try easy. f_equal. now apply order_ok.
  - injection E as <- <-. split; [exact F'|]. cbn [snd]. assert (Rk := R k).
    destruct (vectors w k) as [a|], (slots (rest r) k) as [[n x]|]; try easy. f_equal. now apply digest_ok.
  - injection E as <- <-. split; [exact F'|]. cbn [snd]. assert (Rk := R k).
    destruct (vectors w k) as [a|], (slots (rest r) k) as [[n x]|]; try easy.
    unfold debug_bv. rewrite (dirty_bits a n x Rk). reflexivity.
  - injection E as <- <-. split; [exact F'|]. cbn [snd]. assert (Aa := Ag a).
    destruct (arrays w a) as [b|], (raws (rest r) a) as [q|]; try easy.
    destruct (PRawArray.rholds_type b q Aa) as (<- & _). now destruct b.
Qed.

Lemma eperform_from_ok probe ho order m : reorders ho -> reorders order ->
  forall cs s r os, fits s r -> Forall ecall_range cs -> epredict_from m r cs = Some os ->
  eperform_from probe ho order m s cs = os.
Proof.
  intros Ho Or. induction cs as [|c cs IH]; intros s r os F T E; cbn [epredict_from eperform_from] in *.
  { now injection E as <-. }
  inversion_clear T as [|? ? T1 T2]. destruct (epredict1 m r c) as [[r' o]|] eqn:E1; [|discriminate E].
  destruct (epredict_from m r' cs) as [l|] eqn:E2; [|discriminate E]. injection E as <-.
  destruct (estep_ok probe ho order m s r c r' o Ho Or F T1 E1) as (X1 & X2).
  destruct (eperform1 probe ho order m s c) as [s' o']. cbn [fst snd] in *. subst o'. f_equal. now apply (IH s' r').
Qed.

Lemma fits_start n : fits (repeat 0 (N.to_nat n), fresh) (mkscene n 0 empty).
Proof.
  split; [apply Words_repeat0|]. split; [cbn [fst cells]; now rewrite len_repeat, N2Nat.id|].
  split; [apply wv_repeat0|].
  split; [intros k; exact Logic.I|]. split; [intros k; exact Logic.I|]. split; [apply inv_new|]. split; [apply counts_new|].
  intros k. exact Logic.I.
Qed.

Lemma eperform_ok probe ho order m n cs os : reorders ho -> reorders order ->
  Forall ecall_range cs -> epredict m n cs = Some os -> eperform probe ho order m n cs = os.
Proof.
  intros Ho Or T E. exact (eperform_from_ok probe ho order m Ho Or cs _ _ os (fits_start n) T E).
Qed.

(** ** The interpreters of C88 and C89 are parts of this one *)

Lemma lib_only m : forall cs r, epredict_from m r (map Lib cs)
  = match fpredict_from m (rest r) cs with Some os => Some (map Seen os) | None => None end.
Proof.
  induction cs as [|c cs IH]; intros r; cbn [map epredict_from fpredict_from]; [reflexivity|]. cbn [epredict1].
  destruct (fpredict1 m (rest r) c) as [[p o]|]; [|reflexivity]. rewrite IH. cbn [rest].
  now destruct (fpredict_from m p cs).
Qed.

Lemma mem_only m : forall cs r, epredict_from m r (map Mem cs)
  = Some (map (fun o => Seen (V o))
      (StoreInterpSpec.spredict_from m (StoreInterpSpec.mkmemory (cells r) (content r) (slots (rest r))) cs)).
Proof.
  induction cs as [|c cs IH]; intros r; cbn [map epredict_from StoreInterpSpec.spredict_from]; [reflexivity|]. cbn [epredict1].
  destruct (spredict1 m _ c) as [[n x e] o]. rewrite IH. reflexivity.
Qed.

(** ** When the interpreter is silent *)
Import RawArraySpec(raw, q_iw, q_dw, q_cells, RSmall, RBig, raw_predict1, densified, raw_compared, raw_read, raw_changed,
  raw_write, raw_created, Known, Panicking, Unknown).
Import PRawInterp(knows, low_cells, densify_knows, number_knows, created_low).

Lemma far_dec q : far q \/ ~ far q.
Proof.
  unfold far. assert (G : forall A (l : list (N * A)), (exists e, In e l /\ 2 ^ 32 <= fst e) \/ ~ exists e, In e l /\ 2 ^ 32 <= fst e).
  { intros A l. destruct (existsb (fun e => 2 ^ 32 <=? fst e) l) eqn:E.
    - left. apply existsb_exists in E as (e & I & E). exists e. split; [exact I|lia].
    - right. intros (e & I & L). assert (X : existsb (fun e => 2 ^ 32 <=? fst e) l = true).
      { apply existsb_exists. exists e. split; [exact I|lia]. }
      congruence. }
  destruct (q_cells q); auto.
Qed.

Lemma near_low a q : PRawArray.rholds a q -> ~ far q -> low_cells (q_dw q) (q_cells q).
Proof.
  intros (_ & D & H) F. unfold far in F. destruct (q_cells q) as [n|b l|b l|b l|b l]; try exact Logic.I.
  - split; [apply H|]. apply Forall_forall. intros e I. destruct (N.lt_ge_cases (fst e) (2 ^ 32)); auto.
    exfalso. apply F. eauto.
  - split; [exact D|]. apply Forall_forall. intros e I. destruct (N.lt_ge_cases (fst e) (2 ^ 32)); auto.
    exfalso. apply F. eauto.
Qed.

Lemma array_silent m env ref c : PRawInterp.agree env ref -> RawArraySpec.raw_range c ->
  raw_predict1 m ref c = None ->
  exists a q, ref a = Some q /\ far q
    /\ (c = ArrayInterpSpec.Change a KindSpec.MakeDense
        \/ exists b, c = ArrayInterpSpec.Compare a b \/ c = ArrayInterpSpec.Compare b a).
Proof.
  intros Ag T E. assert (Lo : forall k q, ref k = Some q -> ~ far q -> low_cells (q_dw q) (q_cells q)).
  { intros k q Ek F. assert (A := Ag k). rewrite Ek in A. destruct (env k) as [a|]; [|easy]. now apply (near_low a). }
  assert (De : forall k q, ref k = Some q -> densified m q = Unknown -> far q).
  { intros k q Ek U. destruct (far_dec q) as [F|F]; auto. exfalso. exact (densify_knows m q (Lo k q Ek F) U). }
  destruct c as [k o1|k j|k i|k c|k j|k|k]; cbn [raw_predict1 RawArraySpec.raw_range] in *; try discriminate E.
  - exfalso. assert (X := created_low m o1 T). destruct (raw_created m o1); easy.
  - exfalso. assert (X := Ag k). destruct (ref k) as [r|]; [|discriminate E].
    destruct (env k) as [a|]; [|easy].
    destruct (raw_read m r (width i) (uval i)) as [[w n]| |] eqn:Er; try discriminate E.
    assert (K : knows (raw_read m r (width i) (uval i))).
    { unfold raw_read, RawArraySpec.position. PRawInterp.known. destruct (q_cells r); PRawInterp.known; apply number_knows. }
    now apply K.
  - destruct (ref k) as [r|] eqn:Ek; [|discriminate E]. destruct (raw_changed m r c) eqn:Ec; try discriminate E.
    destruct c as [i x| |]; cbn [raw_changed] in Ec; [|discriminate Ec|].
    + exfalso. revert Ec. unfold raw_write, RawArraySpec.position, RawArraySpec.checked, RawArraySpec.required. cbv zeta.
      destruct m, (q_cells r); repeat match goal with |- context [if ?b then _ else _] => destruct b end; discriminate.
    + exists k, r. split; [exact Ek|]. split; [exact (De k r Ek Ec)|]. now left.
  - destruct (ref k) as [r|] eqn:Ek; [|discriminate E]. destruct (ref j) as [s|] eqn:Ej; [|discriminate E].
    destruct (raw_compared m r s) eqn:Ec; try discriminate E. unfold raw_compared in Ec.
    destruct (_ && _) in Ec; [|discriminate Ec]. destruct (Bool.eqb _ _) in Ec; [discriminate Ec|].
    destruct (densified m r) eqn:E1; [destruct (densified m s) eqn:E2|..]; try discriminate Ec.
    + exists j, s. split; [exact Ej|]. split; [exact (De j s Ej E2)|]. right. exists k. now right.
    + exists k, r. split; [exact Ek|]. split; [exact (De k r Ek E1)|]. right. exists j. now left.
Qed.

Lemma select_silent m env ref a i : PRawInterp.agree env ref -> well_shaped i ->
  raw_predict1 m ref (ArrayInterpSpec.Select a i) <> None.
Proof.
  intros Ag W E. destruct (array_silent m env ref (ArrayInterpSpec.Select a i) Ag W E) as (? & ? & _ & _ & [X|(? & [X|X])]); discriminate X.
Qed.

Lemma new_silent m env ref a o : PRawInterp.agree env ref -> RawArraySpec.raw_origin o ->
  raw_predict1 m ref (ArrayInterpSpec.New a o) <> None.
Proof.
  intros Ag W E. destruct (array_silent m env ref (ArrayInterpSpec.New a o) Ag W E) as (? & ? & _ & _ & [X|(? & [X|X])]); discriminate X.
Qed.

Lemma store_silent m env ref a i x : PRawInterp.agree env ref -> well_shaped i -> well_shaped x ->
  raw_predict1 m ref (ArrayInterpSpec.Change a (KindSpec.Store i x)) <> None.
Proof.
  intros Ag W W' E. destruct (array_silent m env ref (ArrayInterpSpec.Change a (KindSpec.Store i x)) Ag (conj W W') E)
    as (? & ? & _ & _ & [X|(? & [X|X])]); discriminate X.
Qed.

Lemma stored_empty vs n : stored (vs ++ [value (0, n)]) = stored vs.
Proof.
  unfold stored, small_values, wide_values. rewrite !filter_app. cbn [filter]. change (uval (value (0, n))) with 0.
  change (width (value (0, n))) with 0. cbn [N.leb N.ltb N.compare andb]. now rewrite !app_nil_r.
Qed.

Lemma estep_silent m s r c : fits s r -> ecall_range c -> epredict1 m r c = None ->
  interns_too_much r c \/ exists a q, raws (rest r) a = Some q /\ far q /\ converts c a.
Proof.
  intros (_ & _ & _ & R & Ag & _) T E. destruct c as [c|c|i j|k|k|a]; cbn [epredict1 ecall_range] in *; try discriminate E.
  2:{ destruct (spredict1 m _ c); discriminate E. }
  destruct (fpredict1 m (rest r) c) as [[p o]|] eqn:F; [discriminate E|]. clear E.
  destruct c as [c|c|a dense iw d|k a i|a i x|h k|k h|h g|h|h]; cbn [fpredict1 fcall_range] in *; try discriminate F.
  - destruct (vector_step m _ c); discriminate F.
  - right. unfold array_call in F. destruct (raw_predict1 m (raws (rest r)) c) as [[e o]|] eqn:E1; [discriminate F|].
    destruct (array_silent m _ _ c Ag T E1) as (a & q & Ea & Fa & X). exists a, q. split; [exact Ea|]. split; [exact Fa|].
    unfold converts. destruct X as [->|(b & [->| ->])]; [now left|right; exists b; now left|right; exists b; now right].
  - exfalso. assert (Rd := R d). destruct (slots (rest r) d) as [[n x]|]; [|discriminate F].
    destruct (vectors (snd s) d) as [v|]; [|easy]. rewrite <- (stores_value v n x Rd) in F. unfold array_call in F.
    assert (X := new_silent m _ _ a (origin dense iw v) Ag). destruct (raw_predict1 m _ _) as [[e o]|]; [discriminate F|].
    apply X; [|reflexivity]. destruct dense; (split; [apply Rd|exact T]).
  - exfalso. assert (Ri := R i). destruct (slots (rest r) i) as [[n x]|]; [|discriminate F].
    destruct (vectors (snd s) i) as [v|]; [|easy]. rewrite <- (stores_value v n x Ri) in F. unfold array_call in F.
    assert (X := select_silent m _ _ a v Ag (proj1 Ri)). destruct (raw_predict1 m _ _) as [[e o]|]; [|now apply X].
    destruct o; discriminate F.
  - exfalso. assert (Ri := R i). assert (Rx := R x). destruct (slots (rest r) i) as [[n y]|]; [|discriminate F].
    destruct (slots (rest r) x) as [[n' y']|]; [|discriminate F].
    destruct (vectors (snd s) i) as [v|]; [|easy]. destruct (vectors (snd s) x) as [u|]; [|easy].
    rewrite <- (stores_value v n y Ri), <- (stores_value u n' y' Rx) in F. unfold array_call in F.
    assert (X := store_silent m _ _ a v u Ag (proj1 Ri) (proj1 Rx)). destruct (raw_predict1 m _ _) as [[e o]|]; [discriminate F|now apply X].
  - left. destruct (slots (rest r) k) as [q|] eqn:Ek; [|discriminate F]. exists h, k, q. split; [reflexivity|].
    split; [exact Ek|]. unfold intern in F. destruct (N.eqb_spec (fst q) 0) as [Z|Z]; [destruct m; [discriminate F|]|].
    + destruct (N.ltb_spec (stored (interned_values (rest r))) (2 ^ 32)); [discriminate F|].
      destruct q as [w x]. cbn [fst] in Z. subst w. now rewrite stored_empty.
    + destruct (N.leb_spec (stored (interned_values (rest r) ++ [value q])) (2 ^ 32)); [discriminate F|]. lia.
Qed.

Lemma scene_fits m : forall cs s r r', fits s r -> Forall ecall_range cs -> scene_after m r cs = Some r' ->
  exists s', fits s' r'.
Proof.
  induction cs as [|c cs IH]; intros s r r' F T E; cbn [scene_after] in E.
  { injection E as <-. eauto. }
  inversion_clear T as [|? ? T1 T2]. destruct (epredict1 m r c) as [[r1 o]|] eqn:E1; [|discriminate E].
  assert (O : reorders (fun _ l => l)) by (intros ? ?; reflexivity).
  destruct (estep_ok some_probe _ _ m s r c r1 o O O F T1 E1) as (X & _). now apply (IH _ r1 r' X).
Qed.

Lemma esilent m n cs r c : Forall ecall_range cs -> scene_after m (mkscene n 0 empty) cs = Some r ->
  ecall_range c -> epredict1 m r c = None ->
  interns_too_much r c \/ exists a q, raws (rest r) a = Some q /\ far q /\ converts c a.
Proof.
  intros T E T1 E1. destruct (scene_fits m cs _ _ r (fits_start n) T E) as (s & F). now apply (estep_silent m s).
Qed.

Lemma silent_example :
  let store i w x := Lib (OnArray (ArrayInterpSpec.Change 0 (KindSpec.Store (bv_of 64 i) (bv_of w x)))) in
  let cs := [Lib (OnArray (ArrayInterpSpec.New 0 (KindSpec.NewSparse 5 (bv_of 1 0)))); store 7 1 1; store (2 ^ 32 + 7) 2 2] in
  let c := Lib (OnArray (ArrayInterpSpec.Change 0 KindSpec.MakeDense)) in
  Forall ecall_range (cs ++ [c])
  /\ (exists os, epredict Release 0 cs = Some os) /\ epredict Release 0 (cs ++ [c]) = None.
Proof.
  cbv zeta. assert (W : forall w n, w < 2 ^ 32 -> n < 2 ^ (64 * places w) -> well_shaped (bv_of w n)).
  { intros w n A B. apply (PRawArray.stores_bv_of w n A B). }
  split.
  - cbn [app]. constructor; [split; [apply W; reflexivity|lia]|].
    do 2 (constructor; [split; apply W; reflexivity|]). constructor; [exact Logic.I|constructor].
  - split; [eexists|]; vm_compute; reflexivity.
Qed.
