(** Finite sums and products of field elements. *)
From Coq Require Import ZArith Znumtheory List Arith Lia Bool Field Permutation.
Import ListNotations.
From Verif Require Import Fp.
Local Open Scope F_scope.
Local Open Scope nat_scope.

Definition Fsum {p} (l : list (F p)) : F p := fold_right Fadd F0 l.
Definition Fprod {p} (l : list (F p)) : F p := fold_right Fmul F1 l.
(** sum of [f 0 .. f (n-1)] *)
Definition sumN {p} (n : nat) (f : nat -> F p) : F p := Fsum (map f (seq 0 n)).
Definition prodN {p} (n : nat) (f : nat -> F p) : F p := Fprod (map f (seq 0 n)).

(** [iter().sum()] and [iter().product()]: left folds from 0 and 1. *)
Definition isum {p} (l : list (F p)) : F p := fold_left Fadd l F0.
Definition iprod {p} (l : list (F p)) : F p := fold_left Fmul l F1.

Section S.
Context {p : positive}.
Add Ring Fr : (@F_ring p).
Implicit Types (l : list (F p)) (c x y : F p).

Lemma fold_left_Fadd : forall l x, fold_left Fadd l x = (x + Fsum l)%F.
Proof.
  induction l as [|a l IH]; intros x; simpl; [ring|]. rewrite IH. ring.
Qed.
Lemma isum_Fsum : forall l, isum l = Fsum l.
Proof. intros l. unfold isum. rewrite fold_left_Fadd. ring. Qed.
Lemma fold_left_Fmul : forall l x, fold_left Fmul l x = (x * Fprod l)%F.
Proof.
  induction l as [|a l IH]; intros x; simpl; [ring|]. rewrite IH. ring.
Qed.
Lemma iprod_Fprod : forall l, iprod l = Fprod l.
Proof. intros l. unfold iprod. rewrite fold_left_Fmul. ring. Qed.

Lemma Fsum_cons : forall a l, Fsum (a :: l) = (a + Fsum l)%F.
Proof. reflexivity. Qed.
Lemma Fsum_nil : Fsum (@nil (F p)) = F0.
Proof. reflexivity. Qed.
Lemma Fprod_cons : forall a l, Fprod (a :: l) = (a * Fprod l)%F.
Proof. reflexivity. Qed.
Lemma Fprod_nil : Fprod (@nil (F p)) = F1.
Proof. reflexivity. Qed.

Lemma Fsum_app : forall l1 l2, Fsum (l1 ++ l2) = (Fsum l1 + Fsum l2)%F.
Proof. induction l1 as [|a l IH]; intros l2; simpl; [ring|]. rewrite IH. ring. Qed.
Lemma Fprod_app : forall l1 l2, Fprod (l1 ++ l2) = (Fprod l1 * Fprod l2)%F.
Proof. induction l1 as [|a l IH]; intros l2; simpl; [ring|]. rewrite IH. ring. Qed.

Lemma Fsum_perm : forall l1 l2, Permutation l1 l2 -> Fsum l1 = Fsum l2.
Proof.
  intros l1 l2 H. induction H; simpl; try congruence; ring.
Qed.
Lemma Fprod_perm : forall l1 l2, Permutation l1 l2 -> Fprod l1 = Fprod l2.
Proof.
  intros l1 l2 H. induction H; simpl; try congruence; ring.
Qed.

Lemma Fsum_map_ext : forall {A} (f g : A -> F p) (l : list A),
  (forall a, In a l -> f a = g a) -> Fsum (map f l) = Fsum (map g l).
Proof. intros A f g l H. f_equal. apply map_ext_in. exact H. Qed.

Lemma Fsum_map_add : forall {A} (f g : A -> F p) (l : list A),
  Fsum (map (fun a => f a + g a)%F l) = (Fsum (map f l) + Fsum (map g l))%F.
Proof. induction l as [|a l IH]; simpl; [ring|]. rewrite IH. ring. Qed.
Lemma Fsum_map_sub : forall {A} (f g : A -> F p) (l : list A),
  Fsum (map (fun a => f a - g a)%F l) = (Fsum (map f l) - Fsum (map g l))%F.
Proof. induction l as [|a l IH]; simpl; [ring|]. rewrite IH. ring. Qed.
Lemma Fsum_map_mul_l : forall {A} (f : A -> F p) c (l : list A),
  Fsum (map (fun a => c * f a)%F l) = (c * Fsum (map f l))%F.
Proof. induction l as [|a l IH]; simpl; [ring|]. rewrite IH. ring. Qed.
Lemma Fsum_map_mul_r : forall {A} (f : A -> F p) c (l : list A),
  Fsum (map (fun a => f a * c)%F l) = (Fsum (map f l) * c)%F.
Proof. induction l as [|a l IH]; simpl; [ring|]. rewrite IH. ring. Qed.
Lemma Fsum_map_0 : forall {A} (f : A -> F p) (l : list A),
  (forall a, In a l -> f a = F0) -> Fsum (map f l) = F0.
Proof.
  induction l as [|a l IH]; intros H; simpl; [reflexivity|].
  rewrite (H a (or_introl eq_refl)), IH; [ring|]. intros b Hb. apply H. right. exact Hb.
Qed.
Lemma Fsum_map_const : forall {A} c (l : list A), Fsum (map (fun _ => c) l) = (ofN (length l) * c)%F.
Proof.
  induction l as [|a l IH]; simpl; [rewrite ofN_0; ring|]. rewrite IH, ofN_S. ring.
Qed.
Lemma Fsum_repeat : forall c n, Fsum (repeat c n) = (ofN n * c)%F.
Proof.
  intros c n. induction n as [|n IH]; simpl; [rewrite ofN_0; ring|]. rewrite IH, ofN_S. ring.
Qed.
Lemma Fsum_swap : forall {A B} (f : A -> B -> F p) (la : list A) (lb : list B),
  Fsum (map (fun a => Fsum (map (f a) lb)) la) = Fsum (map (fun b => Fsum (map (fun a => f a b) la)) lb).
Proof.
  intros A B f la lb. induction la as [|a la IH]; simpl.
  - symmetry. apply Fsum_map_0. reflexivity.
  - rewrite IH. rewrite <- Fsum_map_add. reflexivity.
Qed.
Lemma Fsum_flat_map : forall {A} (f : A -> list (F p)) (l : list A),
  Fsum (flat_map f l) = Fsum (map (fun a => Fsum (f a)) l).
Proof. induction l as [|a l IH]; simpl; [reflexivity|]. rewrite Fsum_app, IH. reflexivity. Qed.
Lemma Fsum_concat : forall (l : list (list (F p))), Fsum (concat l) = Fsum (map Fsum l).
Proof. induction l as [|a l IH]; simpl; [reflexivity|]. rewrite Fsum_app, IH. reflexivity. Qed.

Lemma Fprod_map_mul : forall {A} (f g : A -> F p) (l : list A),
  Fprod (map (fun a => f a * g a)%F l) = (Fprod (map f l) * Fprod (map g l))%F.
Proof. induction l as [|a l IH]; simpl; [ring|]. rewrite IH. ring. Qed.
Lemma Fprod_map_ext : forall {A} (f g : A -> F p) (l : list A),
  (forall a, In a l -> f a = g a) -> Fprod (map f l) = Fprod (map g l).
Proof. intros A f g l H. f_equal. apply map_ext_in. exact H. Qed.
Lemma Fprod_in_0 : forall l, In F0 l -> Fprod l = F0.
Proof.
  induction l as [|a l IH]; intros H; simpl in *; [contradiction|].
  destruct H as [->|H]; [ring|]. rewrite IH by exact H. ring.
Qed.

Lemma sumN_0 : forall (f : nat -> F p), sumN 0 f = F0.
Proof. reflexivity. Qed.
Lemma sumN_S : forall n (f : nat -> F p), sumN (S n) f = (sumN n f + f n)%F.
Proof.
  intros n f. unfold sumN. rewrite seq_S, map_app, Fsum_app. simpl. ring.
Qed.
Lemma sumN_S_l : forall n (f : nat -> F p), sumN (S n) f = (f O + sumN n (fun k => f (S k)))%F.
Proof.
  intros n f. unfold sumN. simpl. rewrite <- seq_shift, map_map. reflexivity.
Qed.
Lemma sumN_ext : forall n (f g : nat -> F p), (forall k, k < n -> f k = g k) -> sumN n f = sumN n g.
Proof.
  intros n f g H. unfold sumN. apply Fsum_map_ext. intros a Ha. apply in_seq in Ha. apply H. lia.
Qed.
Lemma sumN_add : forall n (f g : nat -> F p), sumN n (fun k => f k + g k)%F = (sumN n f + sumN n g)%F.
Proof. intros. unfold sumN. apply Fsum_map_add. Qed.
Lemma sumN_sub : forall n (f g : nat -> F p), sumN n (fun k => f k - g k)%F = (sumN n f - sumN n g)%F.
Proof. intros. unfold sumN. apply Fsum_map_sub. Qed.
Lemma sumN_mul_l : forall n c (f : nat -> F p), sumN n (fun k => c * f k)%F = (c * sumN n f)%F.
Proof. intros. unfold sumN. apply Fsum_map_mul_l. Qed.
Lemma sumN_mul_r : forall n c (f : nat -> F p), sumN n (fun k => f k * c)%F = (sumN n f * c)%F.
Proof. intros. unfold sumN. apply Fsum_map_mul_r. Qed.
Lemma sumN_zero : forall n (f : nat -> F p), (forall k, k < n -> f k = F0) -> sumN n f = F0.
Proof.
  intros n f H. unfold sumN. apply Fsum_map_0. intros a Ha. apply in_seq in Ha. apply H. lia.
Qed.
Lemma sumN_plus : forall m n (f : nat -> F p), sumN (m + n) f = (sumN m f + sumN n (fun k => f (m + k)%nat))%F.
Proof.
  intros m n f. induction n as [|n IH].
  - rewrite Nat.add_0_r, sumN_0. ring.
  - rewrite Nat.add_succ_r, !sumN_S, IH. ring.
Qed.
Lemma sumN_even_odd : forall n (f : nat -> F p),
  sumN (2 * n) f = sumN n (fun k => f (2 * k)%nat + f (2 * k + 1)%nat)%F.
Proof.
  intros n f. induction n as [|n IH]; [reflexivity|].
  replace (2 * S n) with (S (S (2 * n))) by lia. rewrite !sumN_S, IH.
  replace (2 * n + 1) with (S (2 * n)) by lia. ring.
Qed.
Lemma sumN_swap : forall m n (f : nat -> nat -> F p),
  sumN m (fun i => sumN n (f i)) = sumN n (fun j => sumN m (fun i => f i j)).
Proof. intros. unfold sumN. apply Fsum_swap. Qed.
Lemma sumN_const : forall n c, sumN n (fun _ => c) = (ofN n * c)%F.
Proof. intros. unfold sumN. rewrite Fsum_map_const, seq_length. reflexivity. Qed.
Lemma sumN_Fsum : forall l, Fsum l = sumN (length l) (fun i => nth i l F0).
Proof.
  induction l as [|a l IH]; [reflexivity|].
  simpl length. rewrite sumN_S_l. simpl. rewrite IH. reflexivity.
Qed.
Lemma sumN_single : forall n i (f : nat -> F p), i < n -> (forall k, k < n -> k <> i -> f k = F0) -> sumN n f = f i.
Proof.
  intros n i f Hi H. induction n as [|n IH]; [lia|]. rewrite sumN_S.
  destruct (Nat.eq_dec i n) as [->|Hne].
  - rewrite sumN_zero; [ring|]. intros k Hk. apply H; lia.
  - rewrite IH; [|lia|intros k Hk Hk'; apply H; lia]. rewrite (H n); [ring|lia|lia].
Qed.

Lemma prodN_S : forall n (f : nat -> F p), prodN (S n) f = (prodN n f * f n)%F.
Proof.
  intros n f. unfold prodN. rewrite seq_S, map_app, Fprod_app. simpl. ring.
Qed.
Lemma prodN_S_l : forall n (f : nat -> F p), prodN (S n) f = (f O * prodN n (fun k => f (S k)))%F.
Proof.
  intros n f. unfold prodN. simpl. rewrite <- seq_shift, map_map. reflexivity.
Qed.
Lemma prodN_ext : forall n (f g : nat -> F p), (forall k, k < n -> f k = g k) -> prodN n f = prodN n g.
Proof.
  intros n f g H. unfold prodN. apply Fprod_map_ext. intros a Ha. apply in_seq in Ha. apply H. lia.
Qed.

Section Prime.
Hypothesis Hp : prime (Zpos p).
Add Field Ff : (F_field Hp).

Lemma Fprod_neq_0 : forall l, (forall x, In x l -> x <> F0) -> Fprod l <> F0.
Proof.
  induction l as [|a l IH]; intros H; simpl; [apply F1_neq_0; exact Hp|].
  intros E. apply Fmul_integral in E; [|exact Hp]. destruct E as [E|E].
  - apply (H a (or_introl eq_refl)). exact E.
  - apply IH in E; [exact E|]. intros x Hx. apply H. right. exact Hx.
Qed.
Lemma Fprod_0_in : forall l, Fprod l = F0 -> In F0 l.
Proof.
  induction l as [|a l IH]; intros H; simpl in *.
  - exfalso. apply (F1_neq_0 Hp). exact H.
  - apply Fmul_integral in H; [|exact Hp]. destruct H as [H|H]; [left; exact H | right; apply IH; exact H].
Qed.
Lemma prodN_neq_0 : forall n (f : nat -> F p), (forall k, k < n -> f k <> F0) -> prodN n f <> F0.
Proof.
  intros n f H. unfold prodN. apply Fprod_neq_0. intros x Hx. apply in_map_iff in Hx.
  destruct Hx as [k [<- Hk]]. apply in_seq in Hk. apply H. lia.
Qed.
End Prime.
End S.
