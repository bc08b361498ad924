(** Facts about the specification of multilinear extensions. *)
From Coq Require Import List Arith Lia Bool ZArith Znumtheory Field.
Import ListNotations.
From Verif Require Import Res ResLemmas Fp FSum SpecMle.
Local Open Scope nat_scope.

Lemma pow2_pos : forall n, 0 < 2 ^ n.
Proof. intros n. apply Nat.neq_0_lt_0. apply Nat.pow_nonzero. lia. Qed.

Lemma pow2_S : forall n, 2 ^ S n = 2 * 2 ^ n.
Proof. intros n. apply Nat.pow_succ_r'. Qed.

Lemma bits_length : forall n k, length (bits n k) = n.
Proof. intros. unfold bits. rewrite map_length, seq_length. reflexivity. Qed.

Lemma bits_S : forall n k, bits (S n) k = Nat.odd k :: bits n (Nat.div2 k).
Proof.
  intros n k. unfold bits. simpl. f_equal.
  rewrite <- seq_shift, map_map. reflexivity.
Qed.

Lemma bits_double : forall n k, bits (S n) (2 * k) = false :: bits n k.
Proof.
  intros n k. rewrite bits_S, Nat.div2_double. f_equal.
  rewrite <- Nat.negb_even, Nat.even_mul. reflexivity.
Qed.

Lemma bits_double1 : forall n k, bits (S n) (2 * k + 1) = true :: bits n k.
Proof.
  intros n k. rewrite bits_S. f_equal.
  - rewrite Nat.add_1_r, Nat.odd_succ, Nat.even_mul. reflexivity.
  - f_equal. rewrite Nat.add_1_r, Nat.div2_succ_double. reflexivity.
Qed.

Lemma bits_bval : forall bs, bits (length bs) (bval bs) = bs.
Proof.
  induction bs as [|b bs IH]; [reflexivity|].
  simpl length. simpl bval. destruct b.
  - replace (1 + (bval bs + (bval bs + 0))) with (2 * bval bs + 1) by lia.
    rewrite bits_double1, IH. reflexivity.
  - replace (0 + (bval bs + (bval bs + 0))) with (2 * bval bs) by lia.
    rewrite bits_double, IH. reflexivity.
Qed.

Lemma even_odd_cases : forall k, exists j, k = 2 * j \/ k = 2 * j + 1.
Proof.
  intros k. exists (k / 2). pose proof (Nat.div_mod k 2). pose proof (Nat.mod_upper_bound k 2). lia.
Qed.

Lemma bval_bits : forall n k, bval (bits n k) = k mod 2 ^ n.
Proof.
  induction n as [|n IH]; intros k.
  - rewrite Nat.mod_1_r. reflexivity.
  - destruct (even_odd_cases k) as [j [-> | ->]].
    + rewrite bits_double. cbn [bval]. rewrite IH, pow2_S.
      rewrite Nat.mul_mod_distr_l by (pose proof (pow2_pos n); lia). lia.
    + rewrite bits_double1. cbn [bval]. rewrite IH, pow2_S.
      pose proof (pow2_pos n).
      rewrite (Nat.div_mod j (2 ^ n)) at 2 by lia.
      replace (2 * (2 ^ n * (j / 2 ^ n) + j mod 2 ^ n) + 1)
        with ((1 + 2 * (j mod 2 ^ n)) + (j / 2 ^ n) * (2 * 2 ^ n)) by lia.
      rewrite Nat.mod_add by lia. symmetry. apply Nat.mod_small.
      pose proof (Nat.mod_upper_bound j (2 ^ n)). lia.
Qed.

Lemma bval_bound : forall bs, bval bs < 2 ^ length bs.
Proof.
  induction bs as [|b bs IH]; simpl; [lia|]. destruct b; lia.
Qed.

Section S.
Context {p : positive}.
Add Ring Fr : (@F_ring p).
Implicit Types (f g : nat -> F p) (x y : list (F p)).

Lemma eqk_cons : forall b bs a0 x, eqk (p:=p) (b :: bs) (a0 :: x) = ((if b then a0 else F1 - a0) * eqk bs x)%F.
Proof. reflexivity. Qed.

Lemma eqf_cons : forall a0 c0 x y, eqf (a0 :: x) (c0 :: y) = ((a0 * c0 + (F1 - a0) * (F1 - c0)) * eqf x y)%F.
Proof. reflexivity. Qed.

Lemma eqf_sym : forall x y, eqf x y = eqf y x.
Proof.
  induction x as [|a x IH]; intros [|b y]; try reflexivity.
  rewrite !eqf_cons, (IH y). ring.
Qed.

Lemma eqk_eqf : forall bs x, eqk bs x = eqf (map b2f bs) x.
Proof.
  induction bs as [|b bs IH]; intros [|a x]; try reflexivity.
  simpl map. rewrite eqk_cons, eqf_cons, IH. destruct b; unfold b2f; ring.
Qed.

Lemma mle_ext_0 : forall f, mle_ext 0 f [] = f 0.
Proof.
  intros f. unfold mle_ext. change (2 ^ 0) with 1. rewrite sumN_S, sumN_0.
  unfold bits, eqk. simpl. ring.
Qed.

Lemma mle_ext_cons : forall n f a0 x,
  mle_ext (S n) f (a0 :: x) =
  ((F1 - a0) * mle_ext n (fun k => f (2 * k)%nat) x + a0 * mle_ext n (fun k => f (2 * k + 1)%nat) x)%F.
Proof.
  intros n f a0 x. unfold mle_ext. rewrite pow2_S, sumN_even_odd, sumN_add.
  rewrite <- !sumN_mul_l. f_equal; apply sumN_ext; intros k Hk.
  - rewrite bits_double, eqk_cons. ring.
  - rewrite bits_double1, eqk_cons. ring.
Qed.

Lemma mle_ext_cons' : forall n f a0 x,
  mle_ext (S n) f (a0 :: x) =
  mle_ext n (fun k => f (2 * k)%nat + (f (2 * k + 1)%nat - f (2 * k)%nat) * a0)%F x.
Proof.
  intros n f a0 x. rewrite mle_ext_cons. unfold mle_ext.
  rewrite <- !sumN_mul_l, <- sumN_add. apply sumN_ext. intros k Hk. ring.
Qed.

Lemma mle_ext_ext : forall n f g x, (forall k, k < 2 ^ n -> f k = g k) -> mle_ext n f x = mle_ext n g x.
Proof. intros n f g x H. unfold mle_ext. apply sumN_ext. intros k Hk. rewrite H by exact Hk. reflexivity. Qed.

Lemma mle_ext_add : forall n f g x, mle_ext n (fun k => f k + g k)%F x = (mle_ext n f x + mle_ext n g x)%F.
Proof. intros. unfold mle_ext. rewrite <- sumN_add. apply sumN_ext. intros. ring. Qed.
Lemma mle_ext_sub : forall n f g x, mle_ext n (fun k => f k - g k)%F x = (mle_ext n f x - mle_ext n g x)%F.
Proof. intros. unfold mle_ext. rewrite <- sumN_sub. apply sumN_ext. intros. ring. Qed.
Lemma mle_ext_scale : forall n c f x, mle_ext n (fun k => c * f k)%F x = (c * mle_ext n f x)%F.
Proof. intros. unfold mle_ext. rewrite <- sumN_mul_l. apply sumN_ext. intros. ring. Qed.
Lemma mle_ext_zero : forall n f x, (forall k, k < 2 ^ n -> f k = F0) -> mle_ext n f x = F0.
Proof. intros n f x H. unfold mle_ext. apply sumN_zero. intros k Hk. rewrite H by exact Hk. ring. Qed.
Lemma mle_ext_sumN : forall n m (f : nat -> nat -> F p) x,
  mle_ext n (fun k => sumN m (fun j => f j k)) x = sumN m (fun j => mle_ext n (f j) x).
Proof.
  intros n m f x. induction m as [|m IH].
  - apply mle_ext_zero. reflexivity.
  - rewrite sumN_S, <- IH, <- mle_ext_add. apply mle_ext_ext. intros k Hk. rewrite sumN_S. reflexivity.
Qed.

Lemma mle_ext_const : forall n c x, length x = n -> mle_ext n (fun _ => c) x = c.
Proof.
  induction n as [|n IH]; intros c x Hx.
  - destruct x; [|discriminate]. apply mle_ext_0.
  - destruct x as [|a0 x]; [discriminate|]. injection Hx as Hx.
    rewrite mle_ext_cons, !IH by exact Hx. ring.
Qed.

(** Splitting the variables in a first and a second block. *)
Lemma mle_ext_app : forall m n f x y, length x = m ->
  mle_ext (m + n) f (x ++ y) = mle_ext n (fun j => mle_ext m (fun i => f (i + 2 ^ m * j)%nat) x) y.
Proof.
  induction m as [|m IH]; intros n f x y Hx.
  - destruct x; [|discriminate]. apply mle_ext_ext. intros k Hk. rewrite mle_ext_0. f_equal. simpl. lia.
  - destruct x as [|a0 x]; [discriminate|]. injection Hx as Hx.
    simpl app. simpl plus. rewrite mle_ext_cons, !IH by exact Hx.
    rewrite <- !mle_ext_scale, <- mle_ext_add. apply mle_ext_ext. intros k Hk.
    rewrite mle_ext_cons. f_equal; f_equal; apply mle_ext_ext; intros i Hi; f_equal; rewrite ?pow2_S; lia.
Qed.

Lemma mle_ext_snoc : forall n f x a0, length x = n ->
  mle_ext (S n) f (x ++ [a0]) =
  mle_ext n (fun k => f k + (f (k + 2 ^ n)%nat - f k) * a0)%F x.
Proof.
  intros n f x a0 Hx. replace (S n) with (n + 1) by lia. rewrite mle_ext_app by exact Hx.
  rewrite mle_ext_cons', mle_ext_0. cbv beta.
  unfold mle_ext. rewrite <- sumN_sub, <- sumN_mul_r, <- sumN_add. apply sumN_ext. intros k Hk.
  replace (k + 2 ^ n * (2 * 0)) with k by lia.
  replace (k + 2 ^ n * (2 * 0 + 1)) with (k + 2 ^ n) by lia. ring.
Qed.

Lemma bpoint_length : forall n k, length (bpoint (p:=p) n k) = n.
Proof. intros. unfold bpoint. rewrite map_length. apply bits_length. Qed.

Lemma mle_ext_bpoint : forall n f k, k < 2 ^ n -> mle_ext n f (bpoint n k) = f k.
Proof.
  induction n as [|n IH]; intros f k Hk.
  - simpl in Hk. replace k with 0 by lia. apply mle_ext_0.
  - rewrite pow2_S in Hk. destruct (even_odd_cases k) as [j [-> | ->]].
    + unfold bpoint. rewrite bits_double. cbn [map]. fold (bpoint (p:=p) n j). unfold b2f.
      rewrite mle_ext_cons, !IH by lia. ring.
    + unfold bpoint. rewrite bits_double1. cbn [map]. fold (bpoint (p:=p) n j). unfold b2f.
      rewrite mle_ext_cons, !IH by lia. ring.
Qed.

Lemma cube_sum_mle_ext : forall n f, cube_sum n (mle_ext n f) = sumN (2 ^ n) f.
Proof. intros n f. unfold cube_sum. apply sumN_ext. intros k Hk. apply mle_ext_bpoint. exact Hk. Qed.

Lemma eqf_bpoint : forall n j k, j < 2 ^ n -> k < 2 ^ n ->
  eqf (p:=p) (bpoint n j) (bpoint n k) = if j =? k then F1 else F0.
Proof.
  induction n as [|n IH]; intros j k Hj Hk.
  - simpl in Hj, Hk. replace j with 0 by lia. replace k with 0 by lia. reflexivity.
  - rewrite pow2_S in Hj, Hk.
    destruct (even_odd_cases j) as [j' [-> | ->]]; destruct (even_odd_cases k) as [k' [-> | ->]];
      unfold bpoint; rewrite ?bits_double, ?bits_double1; cbn [map];
      fold (bpoint (p:=p) n j'); fold (bpoint (p:=p) n k'); rewrite eqf_cons, IH by lia; unfold b2f.
    + destruct (Nat.eqb_spec j' k'); destruct (Nat.eqb_spec (2 * j') (2 * k')); try lia; ring.
    + destruct (Nat.eqb_spec j' k'); destruct (Nat.eqb_spec (2 * j') (2 * k' + 1)); try lia; ring.
    + destruct (Nat.eqb_spec j' k'); destruct (Nat.eqb_spec (2 * j' + 1) (2 * k')); try lia; ring.
    + destruct (Nat.eqb_spec j' k'); destruct (Nat.eqb_spec (2 * j' + 1) (2 * k' + 1)); try lia; ring.
Qed.

(** The extension of the table of eq(., r) is eq(x, r). *)
Lemma mle_ext_eqk : forall n r x, length r = n -> length x = n ->
  mle_ext n (fun k => eqk (bits n k) r) x = eqf x r.
Proof.
  induction n as [|n IH]; intros r x Hr Hx.
  - destruct r; [|discriminate]. destruct x; [|discriminate]. apply mle_ext_0.
  - destruct r as [|r0 r]; [discriminate|]. destruct x as [|a0 x]; [discriminate|].
    injection Hr as Hr. injection Hx as Hx. rewrite mle_ext_cons.
    rewrite (mle_ext_ext n _ (fun k => (F1 - r0) * eqk (bits n k) r)%F).
    2:{ intros k Hk. rewrite bits_double. reflexivity. }
    rewrite (mle_ext_ext n (fun k => eqk (bits (S n) (2 * k + 1)) (r0 :: r)) (fun k => r0 * eqk (bits n k) r)%F).
    2:{ intros k Hk. rewrite bits_double1. reflexivity. }
    rewrite !mle_ext_scale, IH by assumption. rewrite eqf_cons. ring.
Qed.

Lemma mle_ext_as_sum : forall n f r, mle_ext n f r = sumN (2 ^ n) (fun k => f k * eqf (bpoint n k) r)%F.
Proof. intros n f r. unfold mle_ext. apply sumN_ext. intros k Hk. rewrite eqk_eqf. reflexivity. Qed.
End S.
