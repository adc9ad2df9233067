(** * PWire: proofs about the positional form of serde (C84) *)

From Coq Require Import String ZifyBool ZifyNat ZifyN Permutation.
From Verif Require Import Base Arith Map Bv Array Serde Wire Spec CallSpec ArraySpec DirtySpec StoreSpec WireSpec.
From Verif Require Import PWords PropsArith PArrays PSerde PPersist PDirty PBvInterp.
Ltac Zify.zify_post_hook ::= idtac.

(** ** The positional form does what the named form does *)

Definition and_rest {A} (o : option A) (rest : list N) : option (A * list N) :=
  match o with Some x => Some (x, rest) | None => None end.

Definition alike {A B} (g : reader B) (put : A -> list N) (d : A -> option B) : Prop :=
  forall x rest, g (put x ++ rest) = and_rest (d x) rest.

Lemma int_alike bound : alike (get_int bound) put_int (fun n => de_int bound (TInt n)).
Proof. intros x rest. cbn. destruct (x <? bound); reflexivity. Qed.

Lemma many_alike {A B} (g : reader B) (put : A -> list N) d : alike g put d -> forall l rest,
  get_many g (length l) (flat_map put l ++ rest) = and_rest (omapM d l) rest.
Proof.
  intros H. induction l as [|x l IH]; intros rest; [reflexivity|].
  cbn [length get_many flat_map omapM]. unfold rbind at 1. rewrite <- app_assoc, H.
  destruct (d x) as [y|]; cbn [and_rest obind]; [|reflexivity]. unfold rbind. rewrite IH.
  destruct (omapM d l); reflexivity.
Qed.
Lemma seq_alike {A B} (g : reader B) (put : A -> list N) d : alike g put d ->
  alike (get_seq g) (put_seq put) (omapM d).
Proof.
  intros H l rest. unfold get_seq, put_seq, rbind, get_num. cbn [app].
  unfold len. rewrite Nat2N.id. now apply many_alike.
Qed.
Lemma omapM_map {A B C} (f : B -> option C) (g : A -> B) l : omapM f (map g l) = omapM (fun x => f (g x)) l.
Proof. induction l as [|x l IH]; [reflexivity|]. cbn [map omapM]. now rewrite IH. Qed.
Lemma ints_alike bound : alike (get_seq (get_int bound)) (put_seq put_int) (fun l => de_seq bound (TSeq (map TInt l))).
Proof. intros l rest. cbn [de_seq]. rewrite omapM_map. apply (seq_alike _ _ _ (int_alike bound)). Qed.

Ltac step :=
  match goal with
  | |- context [and_rest ?o] => destruct o; cbn [and_rest obind]
  end.

Lemma int_cons bound n s : get_int bound (n :: s) = and_rest (de_int bound (TInt n)) s.
Proof. apply (int_alike bound n s). Qed.

Lemma bv_alike : alike get_bv put_bv (fun v => de_bv (ser_bv v)).
Proof.
  intros v rest. unfold get_bv, put_bv, ser_bv, de_bv.
  set (fs := [("width"%string, _); _]).
  change (field "width" fs) with (Some (TInt (width v))).
  change (field "words" fs) with (Some (TSeq (map TInt (words v)))).
  cbn [obind app]. unfold rbind at 1. rewrite int_cons. step; [|reflexivity]. unfold rbind. rewrite (ints_alike B64).
  step; reflexivity.
Qed.

Lemma get_num_cons n s : get_num (n :: s) = Some (n, s).
Proof. reflexivity. Qed.

Lemma dense_impl_alike : alike get_dense_impl put_dense_impl (fun d => de_dense_impl (ser_dense_impl d)).
Proof.
  intros d rest. unfold get_dense_impl.
  destruct d as [v|l|l|l]; cbn [put_dense_impl ser_dense_impl de_dense_impl app]; unfold rbind at 1; rewrite get_num_cons;
    cbn [N.eqb Pos.eqb String.eqb Ascii.eqb Bool.eqb]; unfold rbind.
  - rewrite bv_alike. step; reflexivity.
  - rewrite ints_alike. step; reflexivity.
  - rewrite ints_alike. step; reflexivity.
  - rewrite ints_alike. step; reflexivity.
Qed.

Lemma dense_alike : alike get_dense put_dense (fun d => de_dense (ser_dense d)).
Proof.
  intros d rest. unfold get_dense, put_dense, ser_dense, de_dense.
  set (fs := [("index_width"%string, _); _; _]).
  change (field "index_width" fs) with (Some (TInt (d_iw d))).
  change (field "data_width" fs) with (Some (TInt (d_dw d))).
  change (field "data" fs) with (Some (ser_dense_impl (d_data d))).
  cbn [obind app]. unfold rbind at 1. rewrite int_cons. step; [|reflexivity].
  unfold rbind at 1. rewrite int_cons. step; [|reflexivity]. unfold rbind.
  rewrite dense_impl_alike. step; reflexivity.
Qed.

Lemma map_alike {K V} (eqb : K -> K -> bool) (gk : reader K) (gv : reader V) pk pv (sk : K -> tree) (sv : V -> tree)
  (dk : tree -> option K) (dv : tree -> option V) ho :
  alike gk pk (fun k => dk (sk k)) -> alike gv pv (fun v => dv (sv v)) ->
  alike (get_map eqb gk gv) (put_map ho pk pv) (fun l => de_map eqb dk dv (ser_map ho sk sv l)).
Proof.
  intros Hk Hv l rest. unfold get_map, put_map, ser_map. cbn [de_map]. generalize (ho (K * V)%type l). clear l. intros l.
  assert (P : alike (get k <- gk ;; get v <- gv ;; rret (k, v)) (fun kv => pk (fst kv) ++ pv (snd kv))
    (fun kv => let? k := dk (sk (fst kv)) in let? v := dv (sv (snd kv)) in Some (k, v))).
  { intros [k v] r. cbn [fst snd]. unfold rbind. rewrite <- app_assoc, Hk. step; [|reflexivity]. rewrite Hv. step; reflexivity. }
  unfold rbind at 1. rewrite (seq_alike _ _ _ P).
  assert (E : forall acc, de_entries eqb dk dv (map (fun kv => (sk (fst kv), sv (snd kv))) l) acc
    = let? kvs := omapM (fun kv => let? k := dk (sk (fst kv)) in let? v := dv (sv (snd kv)) in Some (k, v)) l in
      Some (fold_left (fun acc kv => hm_insert eqb acc (fst kv) (snd kv)) kvs acc)).
  { induction l as [|[k v] l IH]; intros acc; [reflexivity|]. cbn [map de_entries omapM fst snd].
    destruct (dk (sk k)); cbn [obind]; [|reflexivity]. destruct (dv (sv v)); cbn [obind]; [|reflexivity].
    rewrite IH. destruct (omapM _ l); reflexivity. }
  rewrite E. destruct (omapM _ l); reflexivity.
Qed.

Lemma sparse_impl_alike ho : alike get_sparse_impl (put_sparse_impl ho) (fun s => de_sparse_impl (ser_sparse_impl ho s)).
Proof.
  intros s rest. unfold get_sparse_impl.
  destruct s as [d l|d l|d l]; cbn [put_sparse_impl ser_sparse_impl de_sparse_impl app]; unfold rbind at 1; rewrite get_num_cons;
    cbn [N.eqb Pos.eqb String.eqb Ascii.eqb Bool.eqb]; unfold rbind at 1.
  - rewrite <- app_assoc, int_alike. step; [|reflexivity]. unfold rbind.
    rewrite (map_alike _ _ _ _ _ TInt TInt (de_int B64) (de_int B64)) by apply int_alike.
    step; reflexivity.
  - rewrite <- app_assoc, bv_alike. step; [|reflexivity]. unfold rbind.
    rewrite (map_alike _ _ _ _ _ TInt ser_bv (de_int B64) de_bv) by (apply int_alike || apply bv_alike).
    step; reflexivity.
  - rewrite <- app_assoc, bv_alike. step; [|reflexivity]. unfold rbind.
    rewrite (map_alike _ _ _ _ _ ser_bv ser_bv de_bv de_bv) by apply bv_alike.
    step; reflexivity.
Qed.

Lemma sparse_alike ho : alike get_sparse (put_sparse ho) (fun s => de_sparse (ser_sparse ho s)).
Proof.
  intros s rest. unfold get_sparse, put_sparse, ser_sparse, de_sparse.
  set (fs := [("index_width"%string, _); _; _]).
  change (field "index_width" fs) with (Some (TInt (s_iw s))).
  change (field "data_width" fs) with (Some (TInt (s_dw s))).
  change (field "data" fs) with (Some (ser_sparse_impl ho (s_data s))).
  cbn [obind app]. unfold rbind at 1. rewrite int_cons. step; [|reflexivity].
  unfold rbind at 1. rewrite int_cons. step; [|reflexivity]. unfold rbind.
  rewrite sparse_impl_alike. step; reflexivity.
Qed.

Lemma array_alike ho : alike get_array (put_array ho) (fun a => de_array (ser_array ho a)).
Proof.
  intros a rest. unfold get_array, ser_array, de_array.
  destruct a as [s|d]; cbn [put_array app]; unfold rbind at 1; rewrite get_num_cons; cbn [N.eqb Pos.eqb];
    set (fs := [("data"%string, _)]).
  - change (field "data" fs) with (Some (TNewtype "Sparse" (ser_sparse ho s))).
    cbn [obind String.eqb Ascii.eqb Bool.eqb]. unfold rbind. rewrite sparse_alike. step; reflexivity.
  - change (field "data" fs) with (Some (TNewtype "Dense" (ser_dense d))).
    cbn [obind String.eqb Ascii.eqb Bool.eqb]. unfold rbind. rewrite dense_alike. step; reflexivity.
Qed.

Lemma wire_bv v rest : get_bv (put_bv v ++ rest)
  = match de_bv (ser_bv v) with Some v' => Some (v', rest) | None => None end.
Proof. apply bv_alike. Qed.
Lemma wire_array order a rest : get_array (put_array order a ++ rest)
  = match de_array (ser_array order a) with Some a' => Some (a', rest) | None => None end.
Proof. apply array_alike. Qed.

(** ** Streams *)
Lemma stream_ok probe ho m order l rest : hashing probe -> reorders ho -> reorders order ->
  Forall (savable probe ho m) l ->
  exists l', read_all (map type_of l) (write_all order l ++ rest) = Some (l', rest)
    /\ Forall2 (same_item probe ho m) l l'.
Proof.
  intros P Ho Oo. revert rest. induction l as [|i l IH]; intros rest F.
  - exists []. split; [reflexivity|constructor].
  - inversion F as [|? ? F1 F2]; subst. destruct (IH rest F2) as (l' & E & S).
    unfold write_all in *. cbn [map flat_map read_all].
    destruct i as [v|a]; cbn [type_of savable] in *; rewrite <- app_assoc.
    + rewrite wire_bv, (de_stores v (width v) (uval v)) by (now apply shaped_stores).
      rewrite E. exists (Vec v :: l'). split; [reflexivity|]. constructor; [reflexivity|exact S].
    + destruct F1 as (iw & dw & f & B). rewrite wire_array.
      destruct (reload_array probe ho m order a iw dw f P Ho Oo B) as (a' & E' & B' & K & Q).
      rewrite E', E. exists (Arr a' :: l'). split; [reflexivity|]. constructor; [|exact S].
      cbn [same_item]. repeat split; auto. exists iw, dw, f. auto.
Qed.

(** ** Truncated streams *)

(** a reader consumes a prefix and does not look at the rest *)
Definition consumes {A} (g : reader A) : Prop :=
  forall s x r, g s = Some (x, r) -> exists p, s = p ++ r /\ forall r', g (p ++ r') = Some (x, r').

Lemma consumes_ret {A} (a : A) : consumes (rret a).
Proof. intros s x r [= <- <-]. exists []. split; reflexivity. Qed.
Lemma consumes_bind {A B} (g : reader A) (k : A -> reader B) : consumes g -> (forall a, consumes (k a)) -> consumes (rbind g k).
Proof.
  intros Hg Hk s y r E. unfold rbind in E. destruct (g s) as [[a t]|] eqn:G; [|discriminate].
  destruct (Hg _ _ _ G) as (p & -> & Ep). destruct (Hk a _ _ _ E) as (q & -> & Eq).
  exists (p ++ q). split; [now rewrite app_assoc|]. intros r'. unfold rbind. now rewrite <- app_assoc, Ep, Eq.
Qed.
Lemma consumes_num : consumes get_num.
Proof. intros [|n s] x r E; [discriminate|]. injection E as <- <-. exists [n]. split; reflexivity. Qed.
Lemma consumes_none {A} : consumes (fun _ => @None (A * list N)).
Proof. intros s x r [=]. Qed.
Lemma consumes_int bound : consumes (get_int bound).
Proof.
  apply consumes_bind; [apply consumes_num|]. intros n s x r E. destruct (n <? bound) eqn:L; [|discriminate].
  injection E as <- <-. exists []. split; reflexivity.
Qed.
Lemma consumes_many {A} (g : reader A) k : consumes g -> consumes (get_many g k).
Proof.
  intros H. induction k as [|k IH]; cbn [get_many]; [apply consumes_ret|].
  apply consumes_bind; [exact H|]. intros x. apply consumes_bind; [exact IH|]. intros l. apply consumes_ret.
Qed.
Lemma consumes_seq {A} (g : reader A) : consumes g -> consumes (get_seq g).
Proof. intros H. apply consumes_bind; [apply consumes_num|]. intros n. now apply consumes_many. Qed.

Ltac consume :=
  repeat first
    [ apply consumes_int | apply consumes_seq | apply consumes_num | apply consumes_none | apply consumes_ret
    | apply consumes_bind; [|intros]
    | match goal with |- consumes (if ?b then _ else _) => destruct b end ].

Lemma consumes_bv : consumes get_bv.
Proof. unfold get_bv. consume. Qed.
Lemma consumes_array : consumes get_array.
Proof.
  unfold get_array, get_sparse, get_dense, get_sparse_impl, get_dense_impl, get_map.
  consume; try apply consumes_bv; consume; apply consumes_bv.
Qed.

Lemma truncated {A} (g : reader A) : consumes g -> forall s x p q,
  g s = Some (x, []) -> s = p ++ q -> q <> [] -> g p = None.
Proof.
  intros H s x p q E -> Q. destruct (g p) as [[y r]|] eqn:G; [|reflexivity]. exfalso.
  destruct (H _ _ _ G) as (p' & -> & Ep). rewrite <- app_assoc, Ep in E. injection E as _ E.
  apply Q. now destruct r, q.
Qed.
Lemma truncated_bv s v p q : get_bv s = Some (v, []) -> s = p ++ q -> q <> [] -> get_bv p = None.
Proof. apply truncated, consumes_bv. Qed.
Lemma truncated_array s a p q : get_array s = Some (a, []) -> s = p ++ q -> q <> [] -> get_array p = None.
Proof. apply truncated, consumes_array. Qed.

(** ** Any stream *)
Lemma many_ints bound k : forall s l r, get_many (get_int bound) k s = Some (l, r) ->
  length l = k /\ s = l ++ r /\ Forall (fun x => x < bound) l.
Proof.
  induction k as [|k IH]; intros s l r E; cbn [get_many] in E.
  - injection E as <- <-. auto.
  - unfold rbind in E. destruct s as [|n s]; [discriminate|]. rewrite int_cons in E. cbn [de_int] in E.
    destruct (n <? bound) eqn:L; cbn [and_rest] in E; [|discriminate].
    destruct (get_many (get_int bound) k s) as [[l' r']|] eqn:G; [|discriminate].
    injection E as <- <-. destruct (IH _ _ _ G) as (Hl & -> & F).
    split; [now cbn [length]; rewrite Hl|]. split; [reflexivity|]. constructor; [lia|exact F].
Qed.
Lemma flat_ints l : flat_map put_int l = l.
Proof. induction l as [|x l IH]; [reflexivity|]. cbn [flat_map put_int app]. now rewrite IH. Qed.

Lemma any_bv s v r : get_bv s = Some (v, r) ->
  s = put_bv v ++ r /\ width v < 2 ^ 32 /\ Forall (fun x => x < 2 ^ 64) (words v).
Proof.
  unfold get_bv, get_seq, rbind. destruct s as [|w s]; [discriminate|]. rewrite int_cons. cbn [de_int].
  destruct (w <? B32) eqn:L; cbn [and_rest]; [|discriminate]. destruct s as [|n s]; [discriminate|].
  rewrite get_num_cons. destruct (get_many (get_int B64) (N.to_nat n) s) as [[l r']|] eqn:G; [|discriminate].
  intros [= <- <-]. destruct (many_ints _ _ _ _ _ G) as (Hl & -> & F). cbn [width words].
  rewrite B32_eq in L. rewrite B64_eq in F. split; [|split; [lia|exact F]].
  unfold put_bv, put_seq, len. cbn [width words]. rewrite Hl, flat_ints, N2Nat.id. reflexivity.
Qed.

Lemma unique_bv v v' r r' : well_shaped v -> well_shaped v' -> put_bv v ++ r = put_bv v' ++ r' -> v = v' /\ r = r'.
Proof.
  intros H H' E. pose proof (wire_bv v r) as A. pose proof (wire_bv v' r') as B.
  rewrite (de_stores v _ _ (shaped_stores v H)) in A. rewrite (de_stores v' _ _ (shaped_stores v' H')) in B.
  rewrite E in A. rewrite A in B. injection B as -> ->. auto.
Qed.

(** ** What is accepted *)

Definition accepts {A} (g : reader A) (P : form A) : Prop :=
  forall s a r, g s = Some (a, r) <-> exists p, s = p ++ r /\ P p a.

Lemma bind_some {A B} (g : reader A) (k : A -> reader B) s b r :
  rbind g k s = Some (b, r) <-> exists a t, g s = Some (a, t) /\ k a t = Some (b, r).
Proof.
  unfold rbind. destruct (g s) as [[a t]|]; split.
  - intros E. eauto.
  - intros (a' & t' & [= <- <-] & E). exact E.
  - discriminate.
  - intros (a' & t' & [=] & _).
Qed.
Lemma ret_some {A} (a b : A) s r : rret a s = Some (b, r) <-> a = b /\ s = r.
Proof. unfold rret. split; [now intros [= -> ->]|now intros [-> ->]]. Qed.
Lemma num_some s n r : get_num s = Some (n, r) <-> s = n :: r.
Proof. destruct s; cbn; split; congruence. Qed.

Lemma accepts_num_bound b b' : b = b' -> accepts (get_int b) (number b').
Proof.
  intros <- s n r. unfold get_int, number. rewrite bind_some. split.
  - intros (n' & t & E & F). apply num_some in E. subst s. destruct (n' <? b) eqn:L; [|discriminate].
    injection F as <- <-. exists [n']. split; [reflexivity|]. split; [reflexivity|]. lia.
  - intros (p & -> & -> & L). exists n, r. split; [reflexivity|]. cbn. assert (n <? b = true) by lia. now rewrite H.
Qed.
Lemma accepts_many {A} (g : reader A) P k : accepts g P ->
  accepts (get_many g k) (fun s l => length l = k /\ elements P s l).
Proof.
  intros H. induction k as [|k IH]; intros s l r; cbn [get_many].
  - rewrite ret_some. split.
    + intros [<- ->]. exists []. repeat split. constructor.
    + intros (p & -> & L & E). destruct l; [|discriminate]. inversion E; subst. auto.
  - rewrite bind_some. split.
    + intros (a & t & E & F). apply H in E. destruct E as (p & -> & Pa). apply bind_some in F.
      destruct F as (l' & u & F & G). apply IH in F. destruct F as (q & -> & L & E).
      apply ret_some in G. destruct G as [<- ->]. exists (p ++ q). split; [now rewrite app_assoc|].
      split; [cbn; now rewrite L|]. now constructor.
    + intros (p & -> & L & E). inversion E as [|s1 t1 x l1 Px El]; subst; [discriminate|].
      cbn in L. injection L as L. exists x, (t1 ++ r). split.
      * apply H. exists s1. split; [now rewrite app_assoc|exact Px].
      * apply bind_some. exists l1, r. split; [|now apply ret_some]. apply IH. exists t1. auto.
Qed.
Lemma accepts_seq {A} (g : reader A) P : accepts g P -> accepts (get_seq g) (sequence P).
Proof.
  intros H s l r. unfold get_seq, sequence. rewrite bind_some. split.
  - intros (n & t & E & F). apply num_some in E. subst s. apply (accepts_many g P _ H) in F.
    destruct F as (p & -> & L & E). exists (n :: p). split; [reflexivity|]. exists p. split; [|exact E].
    f_equal. unfold len. rewrite L. now rewrite N2Nat.id.
  - intros (p & -> & t & -> & E). exists (len l), (t ++ r). split; [reflexivity|].
    apply (accepts_many g P _ H). exists t. split; [reflexivity|]. split; [|exact E]. unfold len. now rewrite Nat2N.id.
Qed.

Lemma accepts_i64 : accepts (get_int B64) (number (2 ^ 64)).
Proof. now apply accepts_num_bound. Qed.
Lemma accepts_i32 : accepts (get_int B32) (number (2 ^ 32)).
Proof. now apply accepts_num_bound. Qed.
Lemma accepts_i8 : accepts (get_int 256) (number (2 ^ 8)).
Proof. now apply accepts_num_bound. Qed.

Lemma accepts_bv : accepts get_bv bit_vector.
Proof.
  intros s v r. unfold get_bv, bit_vector. rewrite bind_some. split.
  - intros (w & t & E & F). apply accepts_i32 in E. destruct E as (p & -> & -> & W).
    apply bind_some in F. destruct F as (l & u & F & G). apply (accepts_seq _ _ accepts_i64) in F.
    destruct F as (q & -> & Q). apply ret_some in G. destruct G as [<- ->]. cbn [width words].
    exists (w :: q). split; [reflexivity|]. exists q. auto.
  - intros (p & -> & t & -> & W & Q). exists (width v), (t ++ r). split.
    + apply accepts_i32. exists [width v]. repeat split; auto.
    + apply bind_some. exists (words v), r. split; [|apply ret_some; destruct v; auto].
      apply (accepts_seq _ _ accepts_i64). exists t. auto.
Qed.

Lemma accepts_entry {K V} (gk : reader K) (gv : reader V) P Q : accepts gk P -> accepts gv Q ->
  accepts (get k <- gk ;; get v <- gv ;; rret (k, v)) (entry P Q).
Proof.
  intros H1 H2 s [k v] r. unfold entry. rewrite bind_some. cbn [fst snd]. split.
  - intros (a & t & E & F). apply H1 in E. destruct E as (p & -> & Pa). apply bind_some in F.
    destruct F as (b & u & F & G). apply H2 in F. destruct F as (q & -> & Qb). apply ret_some in G.
    destruct G as [[= <- <-] ->]. exists (p ++ q). split; [now rewrite app_assoc|]. eauto.
  - intros (p & -> & a & b & -> & Pa & Qb). exists k, (b ++ r). split.
    + apply H1. exists a. split; [now rewrite app_assoc|exact Pa].
    + apply bind_some. exists v, r. split; [|now apply ret_some]. apply H2. eauto.
Qed.
Lemma accepts_table {K V} (eqb : K -> K -> bool) (gk : reader K) (gv : reader V) P Q : accepts gk P -> accepts gv Q ->
  accepts (get_map eqb gk gv) (table eqb P Q).
Proof.
  intros H1 H2 s m r. unfold get_map, table. rewrite bind_some.
  pose proof (accepts_seq _ _ (accepts_entry gk gv P Q H1 H2)) as X. split.
  - intros (l & t & E & F). apply X in E. destruct E as (p & -> & E). apply ret_some in F. destruct F as [<- ->]. eauto.
  - intros (p & -> & l & E & ->). exists l, r. split; [|now apply ret_some]. apply X. eauto.
Qed.

(** a reader behind a constructor *)
Lemma accepts_map {A B} (g : reader A) P (f : A -> B) s b r : accepts g P ->
  (get a <- g ;; rret (f a)) s = Some (b, r) <-> exists p a, s = p ++ r /\ P p a /\ b = f a.
Proof.
  intros H. rewrite bind_some. split.
  - intros (a & t & E & F). apply H in E. destruct E as (p & -> & Pa). apply ret_some in F. destruct F as [<- ->]. eauto.
  - intros (p & a & -> & Pa & ->). exists a, r. split; [|now apply ret_some]. apply H. eauto.
Qed.
Lemma accepts_pair {A B C} (g : reader A) (h : reader B) P Q (f : A -> B -> C) s c r : accepts g P -> accepts h Q ->
  (get a <- g ;; get b <- h ;; rret (f a b)) s = Some (c, r)
  <-> exists p q a b, s = (p ++ q) ++ r /\ P p a /\ Q q b /\ c = f a b.
Proof.
  intros H H'. rewrite bind_some. split.
  - intros (a & t & E & F). apply H in E. destruct E as (p & -> & Pa). apply (accepts_map h Q _ _ _ _ H') in F.
    destruct F as (q & b & -> & Qb & ->). exists p, q, a, b. now rewrite app_assoc.
  - intros (p & q & a & b & -> & Pa & Qb & ->). exists a, (q ++ r). split.
    + apply H. exists p. now rewrite app_assoc.
    + apply (accepts_map h Q _ _ _ _ H'). exists q, b. auto.
Qed.

Lemma accepts_dense_impl : accepts get_dense_impl dense_data.
Proof.
  intros s d r. unfold get_dense_impl. rewrite bind_some. split.
  - intros (i & t & E & F). apply num_some in E. subst s.
    destruct (N.eqb_spec i 0) as [->|_]; [|destruct (N.eqb_spec i 1) as [->|_]; [|destruct (N.eqb_spec i 2) as [->|_];
      [|destruct (N.eqb_spec i 3) as [->|_]; [|discriminate]]]].
    + apply (accepts_map _ _ DBit _ _ _ accepts_bv) in F. destruct F as (p & a & -> & X & ->).
      exists (0 :: p). split; [reflexivity|]. cbn. eauto.
    + apply (accepts_map _ _ DU8 _ _ _ (accepts_seq _ _ accepts_i8)) in F. destruct F as (p & a & -> & X & ->).
      exists (1 :: p). split; [reflexivity|]. cbn. eauto.
    + apply (accepts_map _ _ DU64 _ _ _ (accepts_seq _ _ accepts_i64)) in F. destruct F as (p & a & -> & X & ->).
      exists (2 :: p). split; [reflexivity|]. cbn. eauto.
    + apply (accepts_map _ _ DBig _ _ _ (accepts_seq _ _ accepts_i64)) in F. destruct F as (p & a & -> & X & ->).
      exists (3 :: p). split; [reflexivity|]. cbn. eauto.
  - intros (p & -> & X). destruct d; cbn [dense_data] in X; destruct X as (t & -> & X).
    + exists 0, (t ++ r). split; [reflexivity|]. apply (accepts_map _ _ DBit _ _ _ accepts_bv). eauto.
    + exists 1, (t ++ r). split; [reflexivity|]. apply (accepts_map _ _ DU8 _ _ _ (accepts_seq _ _ accepts_i8)). eauto.
    + exists 2, (t ++ r). split; [reflexivity|]. apply (accepts_map _ _ DU64 _ _ _ (accepts_seq _ _ accepts_i64)). eauto.
    + exists 3, (t ++ r). split; [reflexivity|]. apply (accepts_map _ _ DBig _ _ _ (accepts_seq _ _ accepts_i64)). eauto.
Qed.

Lemma accepts_sparse_impl : accepts get_sparse_impl sparse_data.
Proof.
  pose proof (accepts_table N.eqb _ _ _ _ accepts_i64 accepts_i64) as T0.
  pose proof (accepts_table N.eqb _ _ _ _ accepts_i64 accepts_bv) as T1.
  pose proof (accepts_table bv_eqb _ _ _ _ accepts_bv accepts_bv) as T2.
  intros s d r. unfold get_sparse_impl. rewrite bind_some. split.
  - intros (i & t & E & F). apply num_some in E. subst s.
    destruct (N.eqb_spec i 0) as [->|_]; [|destruct (N.eqb_spec i 1) as [->|_]; [|destruct (N.eqb_spec i 2) as [->|_];
      [|discriminate]]].
    + apply (accepts_pair _ _ _ _ SU64U64 _ _ _ accepts_i64 T0) in F. destruct F as (p & q & a & b & -> & X & Y & ->).
      exists (0 :: p ++ q). split; [reflexivity|]. cbn. eauto.
    + apply (accepts_pair _ _ _ _ SU64Big _ _ _ accepts_bv T1) in F. destruct F as (p & q & a & b & -> & X & Y & ->).
      exists (1 :: p ++ q). split; [reflexivity|]. cbn. eauto.
    + apply (accepts_pair _ _ _ _ SBigBig _ _ _ accepts_bv T2) in F. destruct F as (p & q & a & b & -> & X & Y & ->).
      exists (2 :: p ++ q). split; [reflexivity|]. cbn. eauto.
  - intros (p & -> & X). destruct d; cbn [sparse_data] in X; destruct X as (t & u & -> & X & Y).
    + exists 0, ((t ++ u) ++ r). split; [reflexivity|]. apply (accepts_pair _ _ _ _ SU64U64 _ _ _ accepts_i64 T0).
      eauto 10.
    + exists 1, ((t ++ u) ++ r). split; [reflexivity|]. apply (accepts_pair _ _ _ _ SU64Big _ _ _ accepts_bv T1).
      eauto 10.
    + exists 2, ((t ++ u) ++ r). split; [reflexivity|]. apply (accepts_pair _ _ _ _ SBigBig _ _ _ accepts_bv T2).
      eauto 10.
Qed.

Lemma accepts_triple {A C} (h : reader A) Q (f : N -> N -> A -> C) s c r : accepts h Q ->
  (get i <- get_int B32 ;; get j <- get_int B32 ;; get b <- h ;; rret (f i j b)) s = Some (c, r)
  <-> exists i j q b, s = (i :: j :: q) ++ r /\ i < 2 ^ 32 /\ j < 2 ^ 32 /\ Q q b /\ c = f i j b.
Proof.
  intros H. rewrite bind_some. split.
  - intros (i & t & E & F). apply accepts_i32 in E. destruct E as (p & -> & -> & I).
    apply (accepts_pair _ _ _ _ (f i) _ _ _ accepts_i32 H) in F. destruct F as (p & q & j & b & -> & [-> J] & X & ->).
    exists i, j, q, b. auto.
  - intros (i & j & q & b & -> & I & J & X & ->). exists i, ((j :: q) ++ r). split.
    + apply accepts_i32. exists [i]. repeat split; auto.
    + apply (accepts_pair _ _ _ _ (f i) _ _ _ accepts_i32 H). exists [j], q, j, b. repeat split; auto.
Qed.

Lemma accepts_array s a r : get_array s = Some (a, r) <-> exists p, s = p ++ r /\ array_form p a.
Proof.
  unfold get_array. rewrite bind_some. split.
  - intros (i & t & E & F). apply num_some in E. subst s.
    destruct (N.eqb_spec i 0) as [->|_]; [|destruct (N.eqb_spec i 1) as [->|_]; [|discriminate]];
      apply bind_some in F; destruct F as (x & u & F & G); apply ret_some in G; destruct G as [<- ->].
    + apply (accepts_triple _ _ mksparse _ _ _ accepts_sparse_impl) in F.
      destruct F as (i & j & q & b & -> & I & J & X & ->). exists (0 :: i :: j :: q). split; [reflexivity|].
      cbn. exists q. auto.
    + apply (accepts_triple _ _ mkdense _ _ _ accepts_dense_impl) in F.
      destruct F as (i & j & q & b & -> & I & J & X & ->). exists (1 :: i :: j :: q). split; [reflexivity|].
      cbn. exists q. auto.
  - intros (p & -> & X). destruct a as [x|x]; cbn [array_form] in X; destruct X as (t & -> & I & J & X).
    + exists 0, ((s_iw x :: s_dw x :: t) ++ r). split; [reflexivity|]. apply bind_some. exists x, r.
      split; [|now apply ret_some]. apply (accepts_triple _ _ mksparse _ _ _ accepts_sparse_impl).
      exists (s_iw x), (s_dw x), t, (s_data x). destruct x; auto.
    + exists 1, ((d_iw x :: d_dw x :: t) ++ r). split; [reflexivity|]. apply bind_some. exists x, r.
      split; [|now apply ret_some]. apply (accepts_triple _ _ mkdense _ _ _ accepts_dense_impl).
      exists (d_iw x), (d_dw x), t, (d_data x). destruct x; auto.
Qed.

Lemma wire_example :
  let a := ASparse (mksparse 8 70 (SU64Big (bv_of 70 (2 ^ 67)) [(3, bv_of 70 5); (9, bv_of 70 6)])) in
  let l := [Vec (bv_of 70 (2 ^ 69 + 5)); Arr a; Vec (bv_of 0 0); Arr (ADense (mkdense 1 8 (DU8 [7; 9])))] in
  let order := (fun _ l => rev l) : hash_order in
  write_all order l =
    [70; 2; 5; 32;
     0; 8; 70; 1; 70; 2; 0; 8; 2; 9; 70; 2; 6; 0; 3; 70; 2; 5; 0;
     0; 0;
     1; 1; 8; 1; 2; 7; 9]
  /\ read_all (map type_of l) (write_all order l) =
     Some ([Vec (bv_of 70 (2 ^ 69 + 5));
            Arr (ASparse (mksparse 8 70 (SU64Big (bv_of 70 (2 ^ 67)) [(9, bv_of 70 6); (3, bv_of 70 5)])));
            Vec (bv_of 0 0); Arr (ADense (mkdense 1 8 (DU8 [7; 9])))], [])
  /\ well_shaped (bv_of 70 (2 ^ 69 + 5))
  /\ built some_probe some_order Debug (ADense (mkdense 1 8 (DU8 [7; 9]))) 1 8 (fun i => nth (N.to_nat i) [7; 9] 0)
  /\ get_bv [70; 2; 5] = None /\ get_bv [2 ^ 32; 1; 5] = None /\ get_array [2; 1; 8] = None.
Proof.
  cbv zeta. split; [reflexivity|]. split; [reflexivity|]. split; [|split].
  - apply (is_bv_stores _ 70 (2 ^ 69 + 5)), bv_of_is_bv; reflexivity.
  - apply (built_u8s some_probe some_order Debug [7; 9]); [repeat constructor|vm_compute; discriminate|reflexivity].
  - repeat split.
Qed.
