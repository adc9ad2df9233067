(** * PPretty: the multi-line Debug texts (C90). *)

From Coq Require Import String ZifyBool ZifyNat ZifyN.
From Verif Require Import Base Arith Strings Bv Map Indexed Array Fmt Pretty Spec TextSpec StoreSpec FmtSpec PrettySpec.
From Verif Require Import PWords PArith PropsArith PConv PText PropsText PRegister PStore PIntern PFmt.
Ltac Zify.zify_post_hook ::= idtac.
Open Scope list_scope.

(** A text of one line is moved four places to the right. *)
Lemma pad_line s t : Forall (fun c => c <> newline) s -> pad false (s ++ newline :: t) = s ++ newline :: pad true t.
Proof.
  induction s as [|c s IH]; intros H; cbn [app pad].
  - change (newline =? newline) with true. reflexivity.
  - inversion H as [|? ? H1 H2]; subst. replace (c =? newline) with false by lia.
    now rewrite IH by exact H2.
Qed.

Lemma pad_first c s : c <> newline -> Forall (fun c => c <> newline) s ->
  pad true (c :: s ++ [newline]) = lit "    " ++ c :: s ++ [newline].
Proof.
  intros Hc Hs. cbn [pad]. replace (c =? newline) with false by lia. now rewrite (pad_line s [] Hs).
Qed.

Lemma pad_text s : s <> [] -> Forall (fun c => c <> newline) s -> pad true (s ++ [newline]) = lit "    " ++ s ++ [newline].
Proof.
  intros N H. destruct s as [|c s]; [easy|]. inversion H as [|? ? H1 H2]; subst. apply (pad_first c s); auto.
Qed.

Lemma lit_line s : forallb (fun c => negb (c =? newline)) (lit s) = true -> Forall (fun c => c <> newline) (lit s).
Proof. intros H. apply Forall_forall. intros x Hx. rewrite forallb_forall in H. specialize (H x Hx). lia. Qed.

Lemma bits_line w x s : bits_text w x s -> Forall (fun c => c <> newline) s.
Proof.
  intros (L & P). apply Forall_forall. intros c Hc. destruct (In_nth s c 0 Hc) as (k & Hk & E).
  specialize (P (N.of_nat k) ltac:(unfold len in L; lia)). rewrite Nat2N.id, E in P. unfold newline.
  destruct (N.testbit x (w - 1 - N.of_nat k)); lia.
Qed.

Lemma digits_line n : n < 2 ^ 32 -> Forall (fun c => c <> newline) (display_dec n).
Proof.
  intros H. destruct (decimal_ok n) as [N _]; [apply (N.lt_trans _ _ _ H); reflexivity|].
  apply (number_digits (display_dec n) n) in N. eapply Forall_impl; [|exact N]. intros c. unfold newline. cbn beta. lia.
Qed.

Ltac line_ok := repeat first [apply Forall_app; split | assumption | now apply digits_line | apply lit_line; reflexivity].

Lemma pad_ok s : s <> [] -> Forall (fun c => c <> newline) s -> pad true (s ++ lit "," ++ [newline]) = line (lit "    " ++ s ++ lit ",").
Proof.
  intros N H. rewrite app_assoc. rewrite pad_text.
  - unfold line. rewrite <- !app_assoc. reflexivity.
  - destruct s; [easy|discriminate].
  - line_ok.
Qed.

Lemma tuple_ok name s : s <> [] -> Forall (fun c => c <> newline) s ->
  pretty_tuple name [s] = line (lit name ++ lit "(") ++ line (lit "    " ++ s ++ lit ",") ++ lit ")".
Proof.
  intros N H. unfold pretty_tuple. cbn [flat_map]. rewrite pad_ok by auto. rewrite app_nil_r.
  unfold line at 2. rewrite <- !app_assoc. reflexivity.
Qed.

Lemma field_ok name s : lit name <> [] -> forallb (fun c => negb (c =? newline)) (lit name) = true ->
  Forall (fun c => c <> newline) s ->
  pad true (lit name ++ lit ": " ++ s ++ lit "," ++ [newline]) = line (lit "    " ++ lit name ++ lit ": " ++ s ++ lit ",").
Proof.
  intros N L H. rewrite !(app_assoc (lit name)), (app_assoc _ s). rewrite pad_ok.
  - unfold line. rewrite <- !app_assoc. reflexivity.
  - destruct (lit name); [easy|discriminate].
  - apply lit_line in L. line_ok.
Qed.

Lemma pretty_bits v w x : is_bv v w x -> exists s, bits_text w x s
  /\ pretty_value (VBitVec v) = Ok (line (lit "BitVec(") ++ line (lit "    ValueOwned(" ++ s ++ lit "),") ++ lit ")").
Proof.
  intros H. destruct (debug_bits v w x H) as (s & T & D & _). exists s. split; [exact T|].
  unfold pretty_value. rewrite D. cbn [bind]. f_equal. rewrite tuple_ok.
  - rewrite <- !app_assoc. reflexivity.
  - discriminate.
  - pose proof (bits_line w x s T). line_ok.
Qed.

Lemma pretty_injective v v' w x w' x' : is_bv v w x -> is_bv v' w' x' ->
  pretty_value (VBitVec v) = pretty_value (VBitVec v') -> v = v'.
Proof.
  intros H H' E. destruct (pretty_bits v w x H) as (s & T & D).
  destruct (pretty_bits v' w' x' H') as (s' & T' & D').
  rewrite D, D' in E. apply (f_equal (fun r => match r with Ok l => l | Panic _ => [] end)) in E. cbn beta iota in E.
  apply app_inv_head in E. apply app_inv_tail in E. unfold line in E. apply app_inv_tail in E.
  apply app_inv_head in E. apply app_inv_tail in E. subst s'.
  destruct (bits_text_inj w x s w' x') as (-> & ->); auto.
  - destruct H as ((_ & _ & _ & B) & <- & <-). exact B.
  - destruct H' as ((_ & _ & _ & B) & <- & <-). exact B.
  - eapply is_bv_unique; eauto.
Qed.

Lemma pretty_index_ok i : i_width i < 2 ^ 32 -> i_index i < 2 ^ 32 -> exists a b,
  decimal (i_width i) a /\ decimal (i_index i) b
  /\ pretty_index i = line (lit "BitVecValueIndex {") ++ line (lit "    width: " ++ a ++ lit ",")
                       ++ line (lit "    index: " ++ b ++ lit ",") ++ lit "}".
Proof.
  intros A B. exists (display_dec (i_width i)), (display_dec (i_index i)).
  assert (L : forall n, n < 2 ^ 32 -> n < 2 ^ 128).
  { intros n Hn. apply (N.lt_trans _ _ _ Hn). reflexivity. }
  split; [apply decimal_ok; auto|]. split; [apply decimal_ok; auto|].
  unfold pretty_index, pretty_struct. cbn [flat_map fst snd].
  rewrite !field_ok by (discriminate || reflexivity || now apply digits_line).
  rewrite app_nil_r. unfold line. rewrite <- !app_assoc. reflexivity.
Qed.

Lemma pretty_index_inj i j : i_width i < 2 ^ 32 -> i_index i < 2 ^ 32 -> i_width j < 2 ^ 32 -> i_index j < 2 ^ 32 ->
  pretty_index i = pretty_index j -> i = j.
Proof.
  intros A B C D E.
  destruct (pretty_index_ok i A B) as (a & b & (Na & _) & (Nb & _) & Ei).
  destruct (pretty_index_ok j C D) as (a' & b' & (Na' & _) & (Nb' & _) & Ej).
  rewrite Ei, Ej in E. apply app_inv_head in E. unfold line in E. rewrite <- !app_assoc in E. apply app_inv_head in E.
  apply (digits_split a a') in E; [|eapply number_digits; eauto|eapply number_digits; eauto|reflexivity].
  destruct E as (<- & E). apply app_inv_head in E.
  apply app_inv_head in E.
  apply (digits_split b b') in E; [|eapply number_digits; eauto|eapply number_digits; eauto|reflexivity].
  destruct E as (<- & _). rewrite Na in Na'. rewrite Nb in Nb'. injection Na' as Ew. injection Nb' as Ex.
  destruct i, j. cbn in *. congruence.
Qed.

Lemma pretty_others s d :
  pretty_parse_error InvalidDigit = line (lit "ParseIntError {") ++ line (lit "    kind: InvalidDigit,") ++ lit "}"
  /\ pretty_parse_error ExceedsWidth = line (lit "ParseIntError {") ++ line (lit "    kind: ExceedsWidth,") ++ lit "}"
  /\ pretty_value (VArray (ASparse s)) = Ok (line (lit "Array(") ++ line (lit "    SparseArrayValue(..),") ++ lit ")")
  /\ pretty_value (VArray (ADense d)) = Ok (line (lit "Array(") ++ line (lit "    DenseArrayValue(..),") ++ lit ")").
Proof. repeat split. Qed.
