(** * PBvInterp: the reference interpreter for programs over bit-vectors agrees with the code (C83). *)

From Coq Require Import String QArith Qreduction ZifyBool ZifyNat ZifyN.
From Verif Require Import Base Arith Strings Bytes BigInt Bv Serde Unwind Spec TextSpec IoSpec RegSpec UnwindSpec ProfileSpec
  CallSpec PanicSpec ParseSpec MixedSpec DirtySpec InterpSpec AnswerSpec BvInterpSpec Fmt.
From Verif Require Import PWords PArith PShift PConv PIo PRegister PProfile PCall PReading PDirty PInterp PAnswer PSerde PUnwind.
Local Open Scope N_scope.
Ltac Zify.zify_post_hook ::= idtac.

(** ** What a panicking update leaves, with unused bits set *)
Lemma stores_eta v w n : stores v w n -> v = mkbv w (words v).
Proof. intros (_ & <- & _). now destruct v. Qed.

Lemma zero_clear v w n : stores v w n -> un_clear (words v) = un_clear (words (bv_zero w)).
Proof.
  intros H. pose proof (clear_shaped v w n H) as E. pose proof (clear_shaped (bv_zero w) w 0) as E'.
  assert (Z : stores (bv_zero w) w 0) by (apply is_bv_stores, zero_is_bv, (stores_inv _ _ _ H)).
  specialize (E' Z). unfold un_clear, modify. f_equal.
  apply (f_equal words) in E. apply (f_equal words) in E'. unfold bv_clear in E, E'. cbn [words] in E, E'.
  congruence.
Qed.

Lemma stores_left m v w n op ws p : stores v w n -> reg_typed op ->
  reg_call m w op (words v) = Unwound ws p -> stores (mkbv w ws) w (reg_left w n op).
Proof.
  intros H T E. pose proof (stores_inv _ _ _ H) as (Ew & Hw & Hl & Wl & Vl & Bl).
  destruct (N.eq_dec w 0) as [->|N0].
  { apply is_bv_stores. destruct (stores_0 _ _ H) as [_ ->]. apply (register_left m v 0 0 op ws p); auto.
    apply (stores_is_bv v 0 0); auto; reflexivity. }
  assert (At : atomic (reg_call m w op) (words v) -> stores (mkbv w ws) w n).
  { intros A. apply A in E. subst ws. now rewrite <- (stores_eta v w n H). }
  assert (Rt : returns (reg_call m w op) (words v) -> stores (mkbv w ws) w (reg_left w n op)).
  { intros A. now apply A in E. }
  assert (Zw : is_bv (bv_zero w) w 0) by (apply zero_is_bv; auto).
  destruct op; cbn [reg_call reg_left reg_typed] in *.
  - apply At. unfold un_assign. do 3 (apply atomic_look_seq; intros _ _). discriminate.
  - apply Rt. discriminate.
  - apply Rt. apply mod_returns; auto; [apply map_length|lia].
  - apply is_bv_stores. apply (register_left m (bv_zero w) w 0 (RFromU64 n0) ws p); auto. cbn [reg_call].
    unfold un_assign_from_u64 in *. unfold seq_ at 1. unfold seq_ at 1 in E. now rewrite (zero_clear v w n H) in E.
  - apply is_bv_stores. apply (register_left m (bv_zero w) w 0 (RFromI64 z) ws p); auto. cbn [reg_call].
    unfold un_assign_from_i64 in *. unfold seq_ at 1. unfold seq_ at 1 in E. now rewrite (zero_clear v w n H) in E.
  - apply At, atomic_write.
  - apply At, atomic_write.
  - apply Rt, mask_returns; auto. lia.
  - apply At. apply atomic_seq_returns; [apply atomic_write|]. intros s1 a Q. apply mask_returns; [|lia].
    unfold write in Q. destruct (set_idx (words v) k n0) as [r|] eqn:R; [|discriminate]. injection Q as -> _.
    apply set_idx_same in R. unfold len in *. now rewrite R.
  - apply At. intros s' q. unfold seq_. destruct (un_from_str_radix m s radix w (words v)) as [|s1 q1] eqn:F; [discriminate|].
    intros Q. injection Q as <- <-. eapply from_str_atomic; eauto.
Qed.

(** ** Updates *)

(** [e] ends with the number [n'] in the storage and the observation [o] *)
Definition ends (e : ending (list N) (option int_error_kind)) (w n' : N) (o : observed) : Prop :=
  match e with
  | Returned ws None => stores (mkbv w ws) w n' /\ o = Done
  | Returned ws (Some k) => stores (mkbv w ws) w n' /\ o = Failed k
  | Unwound ws _ => stores (mkbv w ws) w n' /\ o = Panicked
  end.

(** the build in which the prediction of a panic is good *)
Definition good (m : mode) (b : bool) : Prop := m = Debug \/ b = false.

Lemma reg_release v op : same_in_release (fun m => reg_run m v op).
Proof.
  intros x. assert (R : forall c (f : mode -> res bv),
    (forall m, run m c = (let* v := f m in Ok (Some v))) -> f Debug = Ok x -> f Release = Ok x).
  { intros c f F E. pose proof (run_release c (Some x)) as L. cbn beta in L. rewrite !F, E in L.
    specialize (L eq_refl). destruct (f Release) as [y|]; cbn [bind] in L; congruence. }
  destruct op; cbn [reg_run]; auto.
  - apply (R (KAssign v src) (fun m => bv_assign m v src)). reflexivity.
  - apply (R (KAssignOnes v) (fun m => bv_assign_ones m v)). reflexivity.
  - apply (R (KAssignU64 v n) (fun m => bv_assign_from_u64 m v n)). reflexivity.
  - apply (R (KAssignI64 v z) (fun m => bv_assign_from_i64 m v z)). reflexivity.
  - apply (R (KMask v) (fun m => bv_mask_msb m v)). reflexivity.
  - destruct (set_idx (words v) k n) as [ws|]; cbn [bind]; auto.
    apply (R (KMask (mkbv (width v) ws)) (fun m => bv_mask_msb m (mkbv (width v) ws))). reflexivity.
  - apply (R (KAssignStr v s radix) (fun m => let* (v', _) := bv_assign_from_str_radix m v s radix in Ok v')).
    intros m. cbn [run]. destruct (bv_assign_from_str_radix m v s radix) as [[? ?]|]; reflexivity.
Qed.

Lemma plain_ends m v w n op (b : bool) n' : stores v w n -> reg_typed op -> good m b ->
  does (reg_run Debug v op) (if b then Stops else Gives w n') -> (b = true -> n' = reg_left w n op) ->
  ends ((do _ <- reg_call m w op ;; ret None) (words v)) w n' (if b then Panicked else Done).
Proof.
  intros H T G D L. pose proof H as (_ & Ew & _).
  pose proof (same_register m v op) as SR. rewrite Ew in SR. unfold seq_, ret.
  destruct (reg_call m w op (words v)) as [ws a|ws p] eqn:E; cbn [ends].
  - destruct b; cbn [does] in D.
    + destruct G as [->|[=]]. destruct D as (q & D). rewrite D in SR. discriminate.
    + split; [|reflexivity]. destruct D as (x & D & Hx).
      assert (D' : reg_run m v op = Ok x) by (destruct m; auto; now apply reg_release).
      rewrite SR in D'. injection D' as <-. exact Hx.
  - destruct b; cbn [does] in D.
    + split; [|reflexivity]. rewrite L by auto. eapply stores_left; eauto.
    + destruct D as (x & D & Hx).
      assert (D' : reg_run m v op = Ok x) by (destruct m; auto; now apply reg_release).
      congruence.
Qed.

Lemma agrees_does r o : agrees (let* v := r in Ok (Some v)) o -> does r o.
Proof.
  destruct o; cbn [does agrees].
  - intros (v & E & H). destruct r as [x|]; cbn [bind] in E; [|discriminate]. injection E as <-. exists x. auto.
  - destruct r; cbn [bind]; discriminate.
  - intros (p & E). destruct r as [x|q]; cbn [bind] in E; [discriminate|]. eexists. reflexivity.
Qed.

Lemma word_value l i x : Words l -> x < 2 ^ 64 -> i < len l ->
  exists l', set_idx l i x = Ok l' /\ Words l' /\ len l' = len l
    /\ wv l' = wv l mod 2 ^ (64 * i) + x * 2 ^ (64 * i)
               + wv l / (2 ^ (64 * i) * 2 ^ 64) * (2 ^ (64 * i) * 2 ^ 64).
Proof.
  intros W X L. rewrite set_idx_ok by auto. eexists. split; [reflexivity|].
  assert (Q : (N.to_nat i < length l)%nat) by (unfold len in L; lia).
  destruct (set_words l (N.to_nat i) x W X Q) as [A B]. split; [exact A|]. split; [exact B|].
  destruct (word_parts l (N.to_nat i) W Q) as (P1 & P2). rewrite N2Nat.id in P1, P2.
  rewrite wv_app, wv_cons, P1, P2, len_firstn, N2Nat.id by (unfold len; lia). ring.
Qed.

Lemma word_ends v w n i x src : stores v w n -> x < 2 ^ 64 ->
  ends ((do _ <- write (fun ws => set_idx ws i x) ;; ret None) (words v)) w
    (fst (updated w n src (IWord i x))) (snd (updated w n src (IWord i x))).
Proof.
  intros H X. pose proof (stores_inv _ _ _ H) as (Ew & Hw & Hl & Wl & Vl & Bl).
  cbn [updated]. unfold places, seq_, write. destruct (N.leb_spec ((w + 63) / 64) i) as [L|L]; cbn [fst snd].
  - rewrite set_idx_panic by (now rewrite Hl). cbn [ends]. split; [|reflexivity]. now rewrite <- (stores_eta v w n H).
  - destruct (word_value (words v) i x Wl X ltac:(now rewrite Hl)) as (l' & -> & W' & L' & V').
    cbn [ret ends]. split; [|reflexivity]. apply stores_intro; auto; [congruence|]. now rewrite V', Vl.
Qed.

Lemma parse_ends m v w n s radix src : stores v w n -> len s < 2 ^ 30 ->
  good m (match snd (updated w n src (IParse s radix)) with Panicked => true | _ => false end) ->
  ends (un_from_str_radix m s radix w (words v)) w
    (fst (updated w n src (IParse s radix))) (snd (updated w n src (IParse s radix))).
Proof.
  intros H X _. pose proof H as (Sh & Ew & Ev).
  pose proof (reading_assign m v s radix Sh X) as R. rewrite Ew, Ev in R.
  pose proof (same_parse m v s radix) as SP. rewrite Ew in SP.
  destruct (un_from_str_radix m s radix w (words v)) as [ws e|ws p] eqn:E; rewrite SP in R; cbn [updated].
  - destruct (reading_of radix w n s); cbn [assigned fst snd] in *.
    + destruct R as (v' & [= <- ->] & S' & _ & V'). split; [|reflexivity]. repeat split; auto; apply S'.
    + destruct R as (v' & [= <- ->] & S' & _ & V'). split; [|reflexivity]. repeat split; auto; apply S'.
    + destruct R as (p & [=]).
  - destruct (reading_of radix w n s); cbn [assigned fst snd] in *.
    + destruct R as (v' & [=] & _).
    + destruct R as (v' & [=] & _).
    + split; [|reflexivity]. apply (stores_left m v w n (RParse s radix) ws p H X).
      cbn [reg_call]. unfold seq_. now rewrite E.
Qed.

(** ** Environments *)

Definition related (env : N -> option bv) (renv : N -> option slot) : Prop :=
  forall k, match env k, renv k with
            | Some v, Some (w, n) => stores v w n
            | None, None => True
            | _, _ => False
            end.

Lemma related_set env renv k v w n : related env renv -> stores v w n -> related (set env k v) (set renv k (w, n)).
Proof. intros R H j. unfold set. destruct (j =? k); [exact H|apply R]. Qed.

Lemma update_ends m env renv v w n u : related env renv -> stores v w n -> update_range u ->
  good m (match snd (updated w n renv u) with Panicked => true | _ => false end) ->
  match update_call m w env u with
  | Some e => ends (e (words v)) w (fst (updated w n renv u)) (snd (updated w n renv u))
  | None => updated w n renv u = (n, Missing)
  end.
Proof.
  intros R H T G. pose proof H as (Sh & Ew & Ev).
  assert (PE : forall op b n', reg_typed op -> good m b ->
    does (reg_run Debug v op) (if b then Stops else Gives w n') -> (b = true -> n' = reg_left w n op) ->
    forall n2 o, n2 = n' -> o = (if b then Panicked else Done) ->
    ends ((do _ <- reg_call m w op ;; ret None) (words v)) w n2 o).
  { intros op b n' A B C D n2 o -> ->. eapply plain_ends; eauto. }
  assert (UN : forall u, unary_range u -> agrees (run Debug (unary_call u v)) (unary_result u w n))
    by (intros; apply unary_agrees; auto).
  destruct u as [j| | | |x|z|pos|pos|i x|s radix]; cbn [update_call updated update_range] in *.
  - specialize (R j). destruct (env j) as [b|], (renv j) as [[w' k]|]; try easy.
    pose proof (assign_does v b w n w' k H R) as D.
    destruct (w =? w') eqn:Q; cbn [fst snd] in *.
    + apply (PE (RAssign b) false k); auto; easy.
    + apply (PE (RAssign b) true n); auto; easy.
  - apply (PE RClear false 0); auto; try easy. apply agrees_does, (UN UClear I).
  - pose proof (agrees_does _ _ (UN UOnes I)) as D. cbn [unary_result] in D.
    destruct (w =? 0) eqn:Q; cbn [fst snd] in *.
    + apply (PE ROnes true n); auto; easy.
    + apply (PE ROnes false (2 ^ w - 1)); auto; easy.
  - pose proof (agrees_does _ _ (UN UMask I)) as D. cbn [unary_result] in D.
    destruct (w =? 0) eqn:Q; cbn [fst snd] in *.
    + apply (PE RMask true n); auto; easy.
    + apply (PE RMask false (n mod 2 ^ w)); auto; easy.
  - pose proof (agrees_does _ _ (UN (UAssignU64 x) T)) as D. cbn [unary_result] in D. cbn [fst snd] in *.
    destruct ((w =? 0) || (2 ^ w <=? x)) eqn:Q; cbn [fst snd] in *.
    + apply (PE (RFromU64 x) true (x mod 2 ^ w)); auto; easy.
    + apply (PE (RFromU64 x) false x); auto; try easy. apply N.mod_small. clear - Q. lia.
  - pose proof (agrees_does _ _ (UN (UAssignI64 z) T)) as D. cbn [unary_result] in D. cbn [fst snd] in *.
    destruct ((w =? 0) || negb (fitsb w z)) eqn:Q; cbn [fst snd] in *.
    + apply (PE (RFromI64 z) true (wrap w z)); auto; easy.
    + apply (PE (RFromI64 z) false (wrap w z)); auto; easy.
  - pose proof (agrees_does _ _ (UN (USetBit pos) T)) as D. cbn [unary_result] in D.
    destruct (64 * places w <=? pos) eqn:Q; cbn [fst snd] in *.
    + apply (PE (RSetBit pos) true n); auto; easy.
    + apply (PE (RSetBit pos) false (N.setbit n pos)); auto; easy.
  - pose proof (agrees_does _ _ (UN (UClearBit pos) T)) as D. cbn [unary_result] in D.
    destruct (64 * places w <=? pos) eqn:Q; cbn [fst snd] in *.
    + apply (PE (RClearBit pos) true n); auto; easy.
    + apply (PE (RClearBit pos) false (N.clearbit n pos)); auto; easy.
  - apply (word_ends v w n i x renv H T).
  - apply (parse_ends m v w n s radix renv H (proj1 T)). exact G.
Qed.

(** ** Steps *)

Lemma same_lowest x y : same_answer x y -> lowest x = lowest y.
Proof.
  destruct x as [| | | | | | |[p|]], y as [| | | | | | |[q|]]; cbn [same_answer lowest]; try congruence.
  intros E. do 2 f_equal. now apply Qred_complete.
Qed.

Lemma de_stores v w n : stores v w n -> de_bv (ser_bv v) = Some v.
Proof.
  intros ((A & B & C) & _). unfold ser_bv, de_bv.
  change (field "width"%string [("width"%string, TInt (width v)); ("words"%string, TSeq (map TInt (words v)))])
    with (Some (TInt (width v))).
  change (field "words"%string [("width"%string, TInt (width v)); ("words"%string, TSeq (map TInt (words v)))])
    with (Some (TSeq (map TInt (words v)))).
  cbn [obind]. rewrite de_int_ok by (rewrite B32_eq; auto). cbn [obind].
  rewrite de_seq_ok; [destruct v; reflexivity|]. exact C.
Qed.

Definition fine (m : mode) (o : observed) : Prop := m = Debug \/ o <> Panicked.

Lemma run_agrees m c o : agrees (run Debug c) o -> (m = Debug \/ o <> Stops) -> agrees (run m c) o.
Proof.
  intros A [->|N]; [exact A|]. pose proof (run_release c) as R. cbn beta in R. destruct m; [exact A|].
  destruct o; cbn [agrees] in *; [|auto|easy]. destruct A as (v & E & H). exists v. auto.
Qed.

Definition step (m : mode) (env : N -> option bv) (renv : N -> option slot) (c : vcall) : Prop :=
  related (fst (vperform1 m env c)) (fst (vpredict1 renv c))
  /\ snd (vperform1 m env c) = snd (vpredict1 renv c).

Lemma into_keep m env renv k c o : related env renv -> agrees (run Debug c) o -> o <> Errs ->
  fine m (snd (keep renv k o)) ->
  related (fst (into env k (run m c))) (fst (keep renv k o))
  /\ snd (into env k (run m c)) = snd (keep renv k o).
Proof.
  intros R A NE F. assert (A' : agrees (run m c) o).
  { apply run_agrees; auto. destruct F as [->|F]; [now left|]. right. intros ->. now apply F. }
  destruct o; cbn [agrees keep] in *; [|easy|].
  - destruct A' as (v & -> & H). cbn. split; [now apply related_set|reflexivity].
  - destruct A' as (p & ->). cbn. auto.
Qed.

Lemma make_step m env renv k c : related env renv -> fresh_range c -> fine m (snd (vpredict1 renv (Make k c))) ->
  step m env renv (Make k c).
Proof.
  intros R T F. unfold step. cbn [vperform1 vpredict1] in *.
  assert (PT : forall r w o, parses_to r w o ->
    let b := match o with Reads n => inl (Gives w n) | Fails e _ => inr e | Breaks => inl Stops end in
    let x := match r with
             | Ok (Parsed v) => (set env k v, Done)
             | Ok (ParseErr e) => (env, Failed e)
             | Panic _ => (env, Panicked) end in
    let y := match b with inl o => keep renv k o | inr e => (renv, Failed e) end in
    related (fst x) (fst y) /\ snd x = snd y).
  { intros r w o P. destruct o; cbn in *.
    - destruct P as (v & -> & S1 & S2 & S3). cbn. split; [|reflexivity]. apply related_set; [exact R|]. repeat split; auto; apply S1.
    - rewrite P. auto.
    - destruct P as (p & ->). auto. }
  assert (PN : match c with KFromStr _ _ _ | KFromBitStr _ | KFromHexStr _ => False | _ => True end ->
    fine m (snd (keep renv k (fresh c))) ->
    let x := match (let* v := run m c in let* v := unwrap v in Ok (Parsed v)) with
             | Ok (Parsed v) => (set env k v, Done)
             | Ok (ParseErr e) => (env, Failed e)
             | Panic _ => (env, Panicked) end in
    related (fst x) (fst (keep renv k (fresh c))) /\ snd x = snd (keep renv k (fresh c))).
  { intros NP F'. pose proof (fresh_agrees c T) as A.
    assert (NE : fresh c <> Errs).
    { destruct c; try easy; cbn [fresh]; try destruct (_ : bool); try discriminate. }
    destruct (into_keep m env renv k c (fresh c) R A NE F') as [I1 I2].
    destruct (run m c) as [[v|]|p]; cbn in *; auto. }
  destruct T as (Ho & Hr & Hm & Hl).
  destruct c; cbn [operands] in Ho; try discriminate Ho; cbn [construct built] in *;
    try (apply PN; [exact I|exact F]).
  - cbn [in_range] in Hr. apply (PT _ w (reading_of radix w 0 s)), reading_parse; tauto.
  - apply (PT _ (text_width 1 s)), reading_bit_str; auto.
  - apply (PT _ (text_width 4 s)), reading_hex_str; auto.
Qed.

Lemma unary_errs u w n : unary_result u w n <> Errs.
Proof.
  destruct u; cbn [unary_result]; try discriminate; try (destruct (_ : bool); discriminate).
  destruct (reading_of _ _ _ _); discriminate.
Qed.
Lemma binary_errs op w n w' k : binary_result op w n w' k <> Errs.
Proof. destruct op; cbn [binary_result]; destruct (_ : bool); discriminate. Qed.

Lemma step_ok m env renv c : related env renv -> vcall_range c -> fine m (snd (vpredict1 renv c)) ->
  step m env renv c.
Proof.
  intros R T F. destruct c as [k c|k j|k u j|k op i j|k u|t i j|l k|k]; [now apply make_step|..];
    unfold step; cbn [vperform1 vpredict1 vcall_range] in *.
  - pose proof (R j) as Rj. destruct (env j) as [v|], (renv j) as [[w n]|]; try easy.
    cbn [fst snd]. split; [now apply related_set|reflexivity].
  - pose proof (R j) as Rj. destruct (env j) as [v|], (renv j) as [[w n]|]; try easy.
    apply into_keep; auto using unary_errs. now apply unary_agrees.
  - pose proof (R i) as Ri. destruct (env i) as [a|], (renv i) as [[w n]|]; try easy.
    pose proof (R j) as Rj. destruct (env j) as [b|], (renv j) as [[w' n']|]; try easy.
    apply into_keep; auto using binary_errs. cbn [run]. apply does_agrees. now apply binary_agrees.
  - pose proof (R k) as Rk. destruct (env k) as [v|], (renv k) as [[w n]|] eqn:K; try easy.
    pose proof Rk as (_ & Ew & _). rewrite Ew.
    pose proof (update_ends m env renv v w n u R Rk T) as U.
    destruct (updated w n renv u) as [n' o] eqn:UE. cbn [fst snd] in *.
    assert (G : good m (match o with Panicked => true | _ => false end)).
    { destruct F as [->|F]; [now left|]. right. destruct o; auto. easy. }
    specialize (U G). destruct (update_call m w env u) as [e|].
    + destruct (e (words v)) as [ws [x|]|ws p]; cbn [ends fst snd] in *; destruct U as [U ->];
        (split; [now apply related_set|reflexivity]).
    + injection U as -> ->. cbn [fst snd]. split; [|reflexivity]. intros q. unfold set.
      destruct (N.eqb_spec q k) as [->|]; [|apply R]. specialize (R k). rewrite K in R. exact R.
  - pose proof (R i) as Ri. destruct (env i) as [a|], (renv i) as [[w n]|]; try easy.
    pose proof (R j) as Rj. destruct (env j) as [b|], (renv j) as [[w' n']|]; try easy.
    cbn [fst snd] in *. split; [exact R|]. pose proof (test_ok t a b w n w' n' Ri Rj) as X.
    destruct (test_result t w n w' n').
    + destruct X as [X1 X2]. destruct m; [now rewrite X1|now rewrite X2].
    + destruct F as [->|F]; [|easy]. destruct X as (p & ->). reflexivity.
  - pose proof (R k) as Rk. destruct (env k) as [v|], (renv k) as [[w n]|]; try easy.
    cbn [fst snd] in *. split; [exact R|]. pose proof (look_ok l v w n Rk) as X.
    destruct (look_result l w n).
    + destruct (X m) as (x & -> & E). f_equal. now apply same_lowest.
    + destruct F as [->|F]; [|easy]. destruct X as (p & ->). reflexivity.
  - pose proof (R k) as Rk. destruct (env k) as [v|] eqn:K, (renv k) as [[w n]|] eqn:K'; try easy.
    rewrite (de_stores v w n Rk). cbn [fst snd]. split; [|reflexivity]. intros q. unfold set.
    destruct (N.eqb_spec q k) as [->|]; [|apply R]. now rewrite K'.
Qed.

Lemma vperform_from_ok m : forall cs env renv, related env renv -> Forall vcall_range cs ->
  m = Debug \/ ~ In Panicked (vpredict_from renv cs) -> vperform_from m env cs = vpredict_from renv cs.
Proof.
  induction cs as [|c cs IH]; intros env renv R T F; [reflexivity|]. inversion T as [|? ? T1 T2]; subst.
  cbn [vperform_from vpredict_from] in *.
  assert (S : step m env renv c).
  { apply step_ok; auto. destruct F as [->|F]; [now left|]. right. intros E. apply F.
    destruct (vpredict1 renv c). cbn [snd] in E. subst. now left. }
  unfold step in S. destruct (vperform1 m env c) as [e o], (vpredict1 renv c) as [e' o']. cbn [fst snd] in S.
  destruct S as [S ->]. f_equal. apply IH; auto. destruct F as [->|F]; [now left|]. right. intros E. apply F.
  now right.
Qed.

Lemma vperform_debug cs : Forall vcall_range cs -> vperform Debug cs = vpredict cs.
Proof. intros T. apply vperform_from_ok; auto. intros k. exact I. Qed.
Lemma vperform_release cs : Forall vcall_range cs -> ~ In Panicked (vpredict cs) -> vperform Release cs = vpredict cs.
Proof. intros T P. apply vperform_from_ok; auto. intros k. exact I. Qed.

Lemma bv_interp_example :
  let cs := [Make 0 (KFromU64 7 8); Update 0 (IFromU64 1000); Inspect LU64 0; Clone 1 0;
             Update 0 (ISetBit 9); Compare TEqual 0 1; Inspect (LFixedSigned 4) 1; Reload 0;
             Inspect LHexStr 0; Inspect LU64 0; Unary 2 UMask 0; Compare TEqual 2 1;
             Update 2 (IParse (lit "12x") 10); Inspect LU64 2; Update 2 (IParse (lit "-7") 10); Inspect LI64 2;
             Binary 3 BConcat 1 2; Inspect LHexStr 3; Binary 4 BAdd 3 2; Inspect LWidth 4; Update 3 (IAssign 4);
             Make 4 (KFromStr (lit "-1") 2 70); Update 4 (IWord 0 5); Inspect LBigUint 4; Inspect LDecStr 4;
             Update 4 (IAssign 3); Update 4 (IWord 2 5); Inspect LIsNegative 4; Make 5 (KFromStr (lit "9") 8 8);
             Make 5 (KFromU64 256 8); Update 5 IClear] in
  Forall vcall_range cs
  /\ vpredict cs =
     [Done; Panicked; Tells (AOptNum (Some 232)); Done;
      Done; Says false; Tells (ARatio (Some (-3 # 2)%Q)); Done;
      Tells (AText (lit "e8")); Tells (AOptNum (Some 744)); Done; Says true;
      Failed InvalidDigit; Tells (AOptNum (Some 232)); Done; Tells (AOptInt (Some (-7)%Z));
      Done; Tells (AText (lit "e8f9")); Panicked; Missing; Missing;
      Done; Done; Tells (ANum 1162144876643701751813); Tells (AText (lit "1162144876643701751813"));
      Panicked; Panicked; Tells (ABool true); Failed InvalidDigit; Panicked; Missing]
  /\ vperform Debug cs = vpredict cs.
Proof.
  cbv zeta. match goal with |- Forall _ ?l /\ _ => assert (T : Forall vcall_range l) end.
  { repeat (apply Forall_cons || apply Forall_nil); cbn; auto; unfold fresh_range, fits; cbn -[N.pow Z.pow];
      repeat split; try reflexivity. }
  split; [exact T|]. split; [vm_compute; reflexivity|]. now apply vperform_debug.
Qed.
