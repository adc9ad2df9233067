(** * PBig: converting big integers of any size. *)

From Coq Require Import ZifyBool ZifyNat ZifyN.
From Verif Require Import Base Arith BigInt Bv Spec IoSpec BigSpec PWords PArith PShift PropsArith PConv PIo PRelease.
Ltac Zify.zify_post_hook ::= idtac.

(** the bits, if any digit is counted *)
Lemma count_any m n : n <> 0 -> as_u32 (len (u64_digits n)) <> 0 ->
  exists d, last_opt (u64_digits n) = Some d
    /\ (let* t := u32_mul m (as_u32 (len (u64_digits n))) 64 in u32_sub m t (leading_zeros64 d))
       = match m with
         | Debug => if 2 ^ 32 <=? 64 * (((N.size n + 63) / 64) mod 2 ^ 32) then Panic POverflow else Ok (N.size n mod 2 ^ 38)
         | Release => Ok (N.size n mod 2 ^ 32)
         end.
Proof.
  intros Hn K. destruct (last_digit n Hn) as (d & E1 & E2 & E3). exists d. split; [exact E1|].
  destruct (u64_digits_ok n) as (_ & _ & L). rewrite L in *. unfold as_u32 in *. rewrite B32_eq in *.
  assert (Sn : N.size n <> 0) by (destruct n; [lia|discriminate]).
  set (k := (N.size n + 63) / 64) in *.
  assert (Lz : leading_zeros64 d <= 63) by (clear - E2 Sn; unfold k in E2; dlia).
  destruct m.
  - rewrite (N.mul_comm 64 (k mod 2 ^ 32)). unfold u32_mul. rewrite B32_eq.
    destruct (k mod 2 ^ 32 * 64 <? 2 ^ 32) eqn:F.
    + apply N.ltb_lt in F. replace (2 ^ 32 <=? k mod 2 ^ 32 * 64) with false by (symmetry; apply N.leb_gt; exact F).
      cbn [bind]. rewrite u32_sub_ok by (clear - K Lz; lia). f_equal.
      assert (Q := N.div_mod k (2 ^ 32) ltac:(discriminate)). set (q := k / 2 ^ 32) in *. set (r := k mod 2 ^ 32) in *.
      change (2 ^ 32) with 4294967296 in *. change (2 ^ 38) with 274877906944.
      apply (N.mod_unique _ _ q); clear - E2 Q F K Lz; lia.
    + apply N.ltb_ge in F. replace (2 ^ 32 <=? k mod 2 ^ 32 * 64) with true by (symmetry; apply N.leb_le; exact F).
      reflexivity.
  - rewrite u32_mul_release. cbn [bind].
    assert (K0 : k <> 0) by (intros E; apply K; rewrite E; reflexivity).
    rewrite u32_sub_release; [|apply mod_lt; reflexivity|].
    2: { eapply N.le_lt_trans; [exact Lz|reflexivity]. }
    rewrite N.mul_mod_idemp_l by discriminate.
    f_equal. rewrite <- E2. apply sub_mod_wrap; [discriminate|clear - K0 Lz; lia|].
    eapply N.le_trans; [exact Lz|discriminate].
Qed.

Lemma big_width_range m extra size : extra <= 1 ->
  match big_width m extra size with Some w => w < 2 ^ 32 | None => True end.
Proof.
  intros H. unfold big_width. destruct (_ =? 0) eqn:Z; [change (2 ^ 32) with 4294967296; lia|].
  destruct m; [|apply N.mod_upper_bound; discriminate].
  destruct (2 ^ 32 <=? _) eqn:F; [exact I|].
  change (2 ^ 32) with 4294967296 in *. change (2 ^ 38) with 274877906944. revert F Z.
  assert (Q := N.div_mod ((size + 63) / 64) 4294967296 ltac:(discriminate)).
  set (q := (size + 63) / 64 / 4294967296) in *. set (r := ((size + 63) / 64) mod 4294967296) in *.
  intros F Z. assert (S1 : size <= 64 * ((size + 63) / 64)) by (clear; dlia).
  assert (S2 : 64 * ((size + 63) / 64) <= size + 63) by (clear; dlia).
  assert (E : size mod 274877906944 = size - 274877906944 * q).
  { symmetry. apply (N.mod_unique _ _ q); clear - S1 S2 Q F Z; lia. }
  rewrite E. clear - S1 Q F H. lia.
Qed.

Lemma count_uint m n : match big_width m 0 (N.size n) with
  | Some w => count_big_uint_bits m n = Ok w
  | None => panics (count_big_uint_bits m n)
  end.
Proof.
  destruct (N.eq_dec n 0) as [->|Hn]; [destruct m; reflexivity|].
  unfold big_width, count_big_uint_bits. destruct (u64_digits_ok n) as (_ & _ & L).
  assert (A : as_u32 (len (u64_digits n)) = ((N.size n + 63) / 64) mod 2 ^ 32) by (unfold as_u32; now rewrite L, B32_eq).
  rewrite <- A. destruct (as_u32 (len (u64_digits n)) =? 0) eqn:K; [reflexivity|].
  destruct (count_any m n Hn ltac:(clear - K; lia)) as (d & E1 & E2). rewrite E1. cbn [unwrap]. cbn [bind].
  rewrite E2, <- A. clear E2. destruct m.
  - destruct (2 ^ 32 <=? 64 * as_u32 (len (u64_digits n))); cbv iota; [eexists; reflexivity|]. now rewrite N.add_0_r.
  - now rewrite N.add_0_r.
Qed.

Lemma count_int m z : match big_width m 1 (N.size (Z.abs_N z)) with
  | Some w => count_big_int_bits m z = Ok w
  | None => panics (count_big_int_bits m z)
  end.
Proof.
  assert (R := big_width_range m 1 (N.size (Z.abs_N z)) ltac:(lia)). revert R.
  unfold count_big_int_bits. set (n := Z.abs_N z). 
  destruct (N.eq_dec n 0) as [->|Hn]; [destruct m; reflexivity|].
  unfold big_width. destruct (u64_digits_ok n) as (_ & _ & L).
  assert (A : as_u32 (len (u64_digits n)) = ((N.size n + 63) / 64) mod 2 ^ 32) by (unfold as_u32; now rewrite L, B32_eq).
  rewrite <- A. destruct (as_u32 (len (u64_digits n)) =? 0) eqn:K; [reflexivity|].
  destruct (count_any m n Hn ltac:(clear - K; lia)) as (d & E1 & E2). rewrite E1. cbn [unwrap]. cbn [bind].
  rewrite <- A in E2. destruct m.
  - destruct (2 ^ 32 <=? 64 * as_u32 (len (u64_digits n))); cbv iota.
    + intros _. destruct (u32_mul Debug _ 64) as [t|]; cbn [bind] in E2 |- *; [|eexists; reflexivity].
      rewrite E2. eexists. reflexivity.
    + intros R. rewrite (bind_bind_ok _ _ (fun t => u32_add Debug t 1) _ E2). unfold u32_add. rewrite B32_eq.
      replace (N.size n mod 2 ^ 38 + 1 <? 2 ^ 32) with true by (symmetry; apply N.ltb_lt; exact R). reflexivity.
  - intros _. rewrite (bind_bind_ok _ _ (fun t => u32_add Release t 1) _ E2).
    rewrite u32_add_release by (try apply mod_lt; reflexivity). rewrite N.add_mod_idemp_l by discriminate. reflexivity.
Qed.

(** C96 *)
Lemma big_uint_any m n : match big_width m 0 (N.size n) with
  | Some w => yields (bv_of_big_uint m n) w (n mod 2 ^ w)
  | None => panics (bv_of_big_uint m n)
  end.
Proof.
  unfold bv_of_big_uint. assert (C := count_uint m n). assert (R := big_width_range m 0 (N.size n) ltac:(lia)).
  destruct (big_width m 0 (N.size n)) as [w|].
  - rewrite C. cbn [bind]. now apply from_big_uint_ok.
  - destruct C as (p & ->). eexists. reflexivity.
Qed.

Lemma big_int_any m z : match big_width m 1 (N.size (Z.abs_N z)) with
  | Some w => if (w =? 0) && (z <? 0)%Z then panics (bv_of_big_int m z) else yields (bv_of_big_int m z) w (wrap w z)
  | None => panics (bv_of_big_int m z)
  end.
Proof.
  unfold bv_of_big_int. assert (C := count_int m z). assert (R := big_width_range m 1 (N.size (Z.abs_N z)) ltac:(lia)).
  destruct (big_width m 1 (N.size (Z.abs_N z))) as [w|].
  - rewrite C. cbn [bind]. destruct (w =? 0) eqn:W.
    + apply N.eqb_eq in W. subst w. cbn [andb].
      unfold bv_from_big_int, from_big_int, iter_to_word. cbn [N.eqb bind value_vec_zeros].
      destruct (z <? 0)%Z.
      * destruct m; eexists; reflexivity.
      * cbn [bind]. eexists. split; [reflexivity|]. unfold wrap. change (2 ^ Z.of_N 0)%Z with 1%Z. rewrite Z.mod_1_r.
        apply (zero_is_bv 0). reflexivity.
    + cbn [andb]. apply from_big_int_ok; auto. clear - W. lia.
  - destruct C as (p & ->). eexists. reflexivity.
Qed.

Lemma big_debug_cut n : 2 ^ 38 < N.size n -> N.size n <= 2 ^ 38 + 2 ^ 32 - 64 ->
  yields (bv_of_big_uint Debug n) (N.size n - 2 ^ 38) (n mod 2 ^ (N.size n - 2 ^ 38)).
Proof.
  intros L1 L2. assert (G := big_uint_any Debug n). revert G. generalize dependent (N.size n). intros s L1 L2. unfold big_width.
  change (2 ^ 32) with 4294967296 in *. change (2 ^ 38) with 274877906944 in *.
  assert (E : ((s + 63) / 64) mod 4294967296 = (s - 274877906944 + 63) / 64) by (clear - L1 L2; dlia).
  assert (E2 : s mod 274877906944 = s - 274877906944).
  { symmetry. apply (N.mod_unique _ _ 1); clear - L1 L2; lia. }
  rewrite E, E2, N.add_0_r. replace ((s - 274877906944 + 63) / 64 =? 0) with false by (clear - L1; dlia).
  replace (4294967296 <=? 64 * ((s - 274877906944 + 63) / 64)) with false; [auto|].
  symmetry. apply N.leb_gt. clear - L1 L2. dlia.
Qed.

Lemma big_vanishes m q n : N.size n = 2 ^ 38 * (q + 1) -> yields (bv_of_big_uint m n) 0 0.
Proof.
  intros S. assert (G := big_uint_any m n). rewrite S in G. unfold big_width in G.
  replace ((2 ^ 38 * (q + 1) + 63) / 64) with ((q + 1) * 2 ^ 32) in G.
  - rewrite N.mod_mul in G by discriminate. change (0 =? 0) with true in G. cbv iota in G. rewrite N.pow_0_r, N.mod_1_r in G. exact G.
  - change (2 ^ 38) with (4294967296 * 64). change (2 ^ 32) with 4294967296. clear. dlia.
Qed.

Lemma big_small m extra size : extra <= 1 -> size <= 2 ^ 32 - 64 -> big_width m extra size = Some (size + extra).
Proof.
  intros H L. unfold big_width. change (2 ^ 32) with 4294967296 in *. change (2 ^ 38) with 274877906944.
  rewrite (N.mod_small ((size + 63) / 64)) by (clear - L; dlia).
  destruct ((size + 63) / 64 =? 0) eqn:Z.
  - f_equal. clear - Z. dlia.
  - destruct m.
    + replace (4294967296 <=? 64 * ((size + 63) / 64)) with false by (symmetry; apply N.leb_gt; clear - L; dlia).
      rewrite N.mod_small; [reflexivity|]. clear - L. lia.
    + rewrite N.mod_small; [reflexivity|]. clear - L H. lia.
Qed.

Lemma power_size k : N.size (2 ^ k) = k + 1.
Proof.
  assert (P : 2 ^ k <> 0) by (apply N.pow_nonzero; discriminate).
  rewrite N.size_log2 by exact P. rewrite N.log2_pow2 by (clear; lia). clear. lia.
Qed.

Lemma big_sizes : N.size (2 ^ (2 ^ 38 - 1)) = 2 ^ 38 * (0 + 1) /\ N.size (2 ^ (2 ^ 38)) = 2 ^ 38 + 1.
Proof. rewrite !power_size. split; reflexivity. Qed.
