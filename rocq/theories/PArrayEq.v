(** * PArrayEq: laws of array equality. *)

From Coq Require Import ZifyBool ZifyNat ZifyN.
From Verif Require Import Base Bv Map Array Spec ArraySpec.
From Verif Require Import PWords PropsArith PConv PDense PSparse PConvert PArrays.
Ltac Zify.zify_post_hook ::= idtac.

Lemma equal_true ho m a b : array_eq ho m a b = Ok true <-> array_is_equal ho m a b = Ok (Some true).
Proof.
  unfold array_eq. destruct (array_is_equal ho m a b) as [[[|]|]|p]; cbn;
    split; intros H; congruence.
Qed.

Lemma array_refl probe ho m a iw dw f : hashing probe -> reorders ho ->
  built probe ho m a iw dw f -> array_eq ho m a a = Ok true.
Proof.
  intros Hp Hr Ha. apply equal_true. destruct a as [s|d].
  - destruct (sparse_equal_exact probe ho m s s iw dw f f Hp Hr Ha Ha)
      as (r & da & db & E & Da & Db & I).
    assert (da = db) as <- by congruence. rewrite E.
    destruct r; auto. exfalso. assert (false = true); [|discriminate]. apply I. split; auto.
    intros i Hi. reflexivity.
  - destruct (array_equal_total probe ho m _ _ iw dw f iw dw f Hp Hr Ha Ha (or_introl eq_refl)) as (r & E).
    destruct (array_equal_ok probe ho m _ _ iw dw f iw dw f r Hp Hr Ha Ha E) as (N & _ & F).
    rewrite E. destruct r as [[|]|]; auto; exfalso.
    + apply F; auto. intros i Hi. reflexivity.
    + destruct (proj1 N eq_refl); congruence.
Qed.

Lemma array_sym probe ho m a b iw dw f iw' dw' g r : hashing probe -> reorders ho ->
  built probe ho m a iw dw f -> built probe ho m b iw' dw' g ->
  array_is_equal ho m a b = Ok r -> array_is_equal ho m b a = Ok r.
Proof.
  intros Hp Hr Ha Hb E.
  destruct (bool_dec (array_is_dense a) (array_is_dense b)) as [D|D].
  2:{ destruct a, b; try (exfalso; apply D; reflexivity); exact E. }
  destruct (array_equal_total probe ho m b a iw' dw' g iw dw f Hp Hr Hb Ha (or_introl (eq_sym D))) as (r' & E').
  rewrite E'. f_equal.
  destruct (array_equal_ok probe ho m _ _ _ _ _ _ _ _ _ Hp Hr Ha Hb E) as (N & T & F).
  destruct (array_equal_ok probe ho m _ _ _ _ _ _ _ _ _ Hp Hr Hb Ha E') as (N' & T' & F').
  assert (NN : r = None <-> r' = None).
  { rewrite N, N'. split; intros [H|H]; auto. }
  assert (Sy : forall k u v, same_contents k u v -> same_contents k v u).
  { intros k u v H i Hi. symmetry. auto. }
  destruct r as [c|], r' as [c'|]; auto.
  2:{ destruct (proj2 NN eq_refl). reflexivity. }
  2:{ destruct (proj1 NN eq_refl). reflexivity. }
  assert (iw = iw' /\ dw = dw') as (<- & <-).
  { destruct (N.eq_dec iw iw') as [|X].
    2:{ exfalso. assert (Some c = None) by (apply N; auto). discriminate. }
    destruct (N.eq_dec dw dw') as [|Y].
    2:{ exfalso. assert (Some c = None) by (apply N; auto). discriminate. }
    auto. }
  clear N N' NN. f_equal.
  destruct a as [sa|da], b as [sb|db]; try discriminate D.
  - destruct (sparse_equal_exact probe ho m sa sb iw dw f g Hp Hr Ha Hb) as (q & x & y & Q & X & Y & I).
    destruct (sparse_equal_exact probe ho m sb sa iw dw g f Hp Hr Hb Ha) as (q' & x' & y' & Q' & X' & Y' & I').
    assert (x' = y) as -> by congruence. assert (y' = x) as -> by congruence.
    assert (q = c) as -> by congruence. assert (q' = c') as -> by congruence.
    destruct c, c'; auto.
    + apply I'. destruct (proj1 I eq_refl). auto.
    + symmetry. apply I. destruct (proj1 I' eq_refl). auto.
  - destruct c, c'; auto; exfalso.
    + apply (F' eq_refl); auto.
    + apply (F eq_refl); auto.
Qed.

Lemma array_trans probe ho m a b c iw dw f iw' dw' g iw'' dw'' h r : hashing probe -> reorders ho ->
  built probe ho m a iw dw f -> built probe ho m b iw' dw' g -> built probe ho m c iw'' dw'' h ->
  array_is_dense a = true \/ array_is_dense c = true \/ array_is_dense b = false ->
  array_eq ho m a b = Ok true -> array_eq ho m b c = Ok true -> array_eq ho m a c = Ok r -> r = true.
Proof.
  intros Hp Hr Ha Hb Hc HD E1 E2 E3. apply equal_true in E1, E2.
  destruct (array_equal_ok probe ho m _ _ _ _ _ _ _ _ _ Hp Hr Ha Hb E1) as (N1 & T1 & _).
  destruct (array_equal_ok probe ho m _ _ _ _ _ _ _ _ _ Hp Hr Hb Hc E2) as (N2 & T2 & _).
  assert (Sh : forall i i' d d' : N, (Some true = None <-> (i <> i' \/ d <> d')) -> i = i' /\ d = d').
  { intros i i' d d' H. destruct (N.eq_dec i i'); [|exfalso; assert (Some true = None) by (apply H; auto); discriminate].
    destruct (N.eq_dec d d'); [auto|exfalso; assert (Some true = None) by (apply H; auto); discriminate]. }
  apply Sh in N1 as (<- & <-). apply Sh in N2 as (<- & <-).
  assert (Tr : same_contents iw f h).
  { intros i Hi. rewrite (T1 eq_refl i Hi). apply (T2 eq_refl i Hi). }
  unfold array_eq in E3. destruct (array_is_equal ho m a c) as [q|p] eqn:Q; [|discriminate].
  destruct (array_equal_ok probe ho m _ _ _ _ _ _ _ _ _ Hp Hr Ha Hc Q) as (N3 & _ & F3).
  cbn in E3. injection E3 as <-. destruct q as [[|]|]; auto; cbn; exfalso.
  2:{ destruct (proj1 N3 eq_refl); congruence. }
  destruct (array_is_dense a) eqn:Da; [apply F3; auto|].
  destruct (array_is_dense c) eqn:Dc; [apply F3; auto|].
  destruct HD as [HD|[HD|HD]]; try discriminate.
  destruct a as [sa|], b as [sb|], c as [sc|]; try discriminate.
  destruct (sparse_equal_exact probe ho m sa sb iw dw f g Hp Hr Ha Hb) as (q1 & x & y & Q1 & X & Y & I1).
  destruct (sparse_equal_exact probe ho m sb sc iw dw g h Hp Hr Hb Hc) as (q2 & y' & z & Q2 & Y' & Z & I2).
  destruct (sparse_equal_exact probe ho m sa sc iw dw f h Hp Hr Ha Hc) as (q3 & x' & z' & Q3 & X' & Z' & I3).
  assert (y' = y) as -> by congruence. assert (x' = x) as -> by congruence.
  assert (z' = z) as -> by congruence.
  assert (q1 = true) as -> by congruence. assert (q2 = true) as -> by congruence.
  assert (q3 = false) as -> by congruence.
  destruct (proj1 I1 eq_refl) as (A1 & _). destruct (proj1 I2 eq_refl) as (A2 & _).
  assert (false = true); [|discriminate]. apply I3. split; [congruence|auto].
Qed.

Lemma array_trans_refuted probe ho m : hashing probe -> reorders ho ->
  exists a b c f g h, built probe ho m a 1 8 f /\ built probe ho m b 1 8 g /\ built probe ho m c 1 8 h
    /\ array_eq ho m a b = Ok true /\ array_eq ho m b c = Ok true /\ array_eq ho m a c = Ok false.
Proof.
  intros P Ho.
  destruct (sparse_equal_refuted probe ho m P Ho) as (a & c & f & h & Ba & Bc & Sc & E).
  assert (Fd : fits_dense m 1 8).
  { split; [split; [reflexivity|discriminate]|]. right. discriminate. }
  destruct (make_dense_ok probe ho m a 1 8 f P Ho Ba Fd ltac:(left; discriminate)) as (b & Eb & Db & _).
  assert (Bb : built probe ho m b 1 8 f) by (apply (built_make_dense probe ho m a 1 8 f b Ba); auto; apply Fd).
  assert (G : forall x y u v, built probe ho m x 1 8 u -> built probe ho m y 1 8 v -> same_contents 1 u v ->
      array_is_dense x = true \/ array_is_dense y = true -> array_eq ho m x y = Ok true).
  { intros x y u v Bx By S D. apply equal_true.
    destruct (array_equal_total probe ho m x y 1 8 u 1 8 v P Ho Bx By) as (r & Er).
    { right. split; auto. left. discriminate. }
    destruct (array_equal_ok probe ho m x y 1 8 u 1 8 v r P Ho Bx By Er) as (N & _ & F).
    rewrite Er. destruct r as [[|]|]; auto; exfalso.
    - apply F; auto.
    - destruct (proj1 N eq_refl); congruence. }
  exists a, b, c, f, f, h. split; [exact Ba|]. split; [exact Bb|]. split; [exact Bc|].
  split; [|split].
  - apply (G a b f f); auto. intros i Hi. reflexivity.
  - apply (G b c f h); auto.
  - unfold array_eq. rewrite E. reflexivity.
Qed.

(** ** Few entries *)

Lemma incl_seq_length n (l : list N) : (forall i, i < n -> In i l) -> n <= len l.
Proof.
  intros H.
  assert (L : (length (map N.of_nat (seq 0 (N.to_nat n))) <= length l)%nat).
  { apply NoDup_incl_length.
    - apply FinFun.Injective_map_NoDup; [intros x y; lia|]. apply seq_NoDup.
    - intros x Hx. apply in_map_iff in Hx as (k & <- & Hk). apply in_seq in Hk. apply H. lia. }
  rewrite map_length, seq_length in L. unfold len. lia.
Qed.

Lemma sparse_few probe ho m a b iw dw f g la lb : hashing probe -> reorders ho -> 0 < iw ->
  built probe ho m (ASparse a) iw dw f -> built probe ho m (ASparse b) iw dw g ->
  sparse_entries ho m a = Ok la -> sparse_entries ho m b = Ok lb -> len la + len lb < 2 ^ iw ->
  (array_eq ho m (ASparse a) (ASparse b) = Ok true <-> same_contents iw f g).
Proof.
  intros Hp Hr Hi Ha Hb Ea Eb Hl.
  destruct (sparse_equal_exact probe ho m a b iw dw f g Hp Hr Ha Hb) as (r & da & db & E & Da & Db & I).
  destruct (built_entries probe ho m a iw dw f Hp Hr Ha Hi) as (ea & d & x & Qa & Dd & Bd & _ & _ & Ia).
  destruct (built_entries probe ho m b iw dw g Hp Hr Hb Hi) as (eb & d' & y & Qb & Dd' & Bd' & _ & _ & Ib).
  assert (ea = la) as -> by congruence. assert (eb = lb) as -> by congruence.
  assert (d = da) as -> by congruence. assert (d' = db) as -> by congruence.
  destruct Bd as (_ & _ & <-). destruct Bd' as (_ & _ & <-).
  rewrite equal_true, E. split; intros H.
  - apply I. congruence.
  - do 2 f_equal. apply I. split; auto.
    destruct (N.eq_dec (uval da) (uval db)) as [|Hn]; auto. exfalso.
    assert (C : 2 ^ iw <= len (map (fun e => uval (fst e)) la ++ map (fun e => uval (fst e)) lb)).
    { apply incl_seq_length. intros i Hi'. apply in_or_app.
      destruct (N.eq_dec (f i) (uval da)) as [Ef|Ef].
      - right. destruct (Ib i Hi') as (e & He & <-); [rewrite <- H by auto; congruence|].
        apply in_map_iff. eauto.
      - left. destruct (Ia i Hi' Ef) as (e & He & <-). apply in_map_iff. eauto. }
    rewrite len_app, !len_map in C. lia.
Qed.
