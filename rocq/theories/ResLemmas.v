(** Lemmas about results, vectors and loops. *)
From Coq Require Import List Arith Lia.
Import ListNotations.
From Verif Require Import Res.

Lemma rnth_ok : forall {A} (l : list A) i d, i < length l -> rnth l i = Ok (nth i l d).
Proof.
  intros A l i d H. unfold rnth. rewrite (nth_error_nth' l d H). reflexivity.
Qed.

Lemma rnth_panic : forall {A} (l : list A) i, length l <= i -> rnth l i = Panic.
Proof.
  intros A l i H. unfold rnth. apply nth_error_None in H. rewrite H. reflexivity.
Qed.

Lemma rnth_inv : forall {A} (l : list A) i x, rnth l i = Ok x -> nth_error l i = Some x.
Proof.
  intros A l i x H. unfold rnth in H. destruct (nth_error l i); simpl in H; congruence.
Qed.

Lemma mapM_ok : forall {A B} (f : A -> res B) (g : A -> B) l,
  (forall x, In x l -> f x = Ok (g x)) -> mapM f l = Ok (map g l).
Proof.
  intros A B f g l. induction l as [|a l IH]; intros H; simpl.
  - reflexivity.
  - rewrite (H a (or_introl eq_refl)). simpl. rewrite IH.
    + reflexivity.
    + intros x Hx. apply H. right. exact Hx.
Qed.

Lemma mapM_ext : forall {A B} (f g : A -> res B) l,
  (forall x, In x l -> f x = g x) -> mapM f l = mapM g l.
Proof.
  intros A B f g l. induction l as [|a l IH]; intros H; simpl.
  - reflexivity.
  - rewrite (H a (or_introl eq_refl)), IH; [reflexivity|].
    intros x Hx. apply H. right. exact Hx.
Qed.

Lemma mapM_length : forall {A B} (f : A -> res B) l r, mapM f l = Ok r -> length r = length l.
Proof.
  intros A B f l. induction l as [|a l IH]; intros r H; simpl in H.
  - inversion H. reflexivity.
  - destruct (f a); simpl in H; try discriminate.
    destruct (mapM f l); simpl in H; try discriminate.
    inversion H; subst. simpl. rewrite (IH a1 eq_refl). reflexivity.
Qed.

Lemma mapM_map : forall {A B C} (f : B -> res C) (g : A -> B) l,
  mapM f (map g l) = mapM (fun x => f (g x)) l.
Proof.
  intros A B C f g l. induction l as [|a l IH]; simpl; [reflexivity|]. rewrite IH. reflexivity.
Qed.

Lemma mapM_in_inv : forall {A B} (f : A -> res B) l r,
  mapM f l = Ok r -> forall x, In x l -> exists y, f x = Ok y /\ In y r.
Proof.
  intros A B f l. induction l as [|a l IH]; intros r H x Hx; [destruct Hx|].
  simpl in H. destruct (f a) as [b| |] eqn:E; simpl in H; try discriminate.
  destruct (mapM f l) as [bs| |]; simpl in H; try discriminate.
  inversion H; subst. destruct Hx as [<-|Hx].
  - exists b. split; [exact E | left; reflexivity].
  - destruct (IH bs eq_refl x Hx) as [y [Hy1 Hy2]]. exists y. split; [exact Hy1 | right; exact Hy2].
Qed.

Lemma foldM_app : forall {S A} (f : S -> A -> res S) l1 l2 s,
  foldM f s (l1 ++ l2) = (s' <- foldM f s l1 ;; foldM f s' l2).
Proof.
  intros S A f l1. induction l1 as [|a l IH]; intros l2 s; simpl; [reflexivity|].
  destruct (f s a); simpl; [apply IH | reflexivity | reflexivity].
Qed.

Lemma foldM_ok : forall {S A} (f : S -> A -> res S) (g : S -> A -> S) l s,
  (forall s x, In x l -> f s x = Ok (g s x)) -> foldM f s l = Ok (fold_left g l s).
Proof.
  intros S A f g l. induction l as [|a l IH]; intros s H; simpl; [reflexivity|].
  rewrite (H s a (or_introl eq_refl)). simpl. apply IH. intros s' x Hx. apply H. right. exact Hx.
Qed.

Lemma upd_length : forall {A} (l : list A) i x, length (upd l i x) = length l.
Proof.
  intros A l. induction l as [|a l IH]; intros [|i] x; simpl; auto.
Qed.

Lemma upd_nth_eq : forall {A} (l : list A) i x d, i < length l -> nth i (upd l i x) d = x.
Proof.
  intros A l. induction l as [|a l IH]; intros [|i] x d H; simpl in *; try lia; auto.
  apply IH. lia.
Qed.

Lemma upd_nth_neq : forall {A} (l : list A) i j x d, i <> j -> nth j (upd l i x) d = nth j l d.
Proof.
  intros A l. induction l as [|a l IH]; intros [|i] [|j] x d H; simpl; try lia; auto.
Qed.

Lemma slice_to_ok : forall {A} (l : list A) k, k <= length l -> slice_to l k = Ok (firstn k l).
Proof.
  intros A l k H. unfold slice_to. apply Nat.leb_le in H. rewrite H. reflexivity.
Qed.

Lemma slice_from_ok : forall {A} (l : list A) k, k <= length l -> slice_from l k = Ok (skipn k l).
Proof.
  intros A l k H. unfold slice_from. apply Nat.leb_le in H. rewrite H. reflexivity.
Qed.

Lemma nth_map_seq : forall {A} (f : nat -> A) n i d, i < n -> nth i (map f (seq 0 n)) d = f i.
Proof.
  intros A f n i d H.
  rewrite (nth_indep _ d (f 0)) by (rewrite map_length, seq_length; exact H).
  rewrite map_nth, seq_nth by exact H. reflexivity.
Qed.

Lemma list_eq_nth : forall {A} (d : A) (l1 l2 : list A),
  length l1 = length l2 -> (forall i, i < length l1 -> nth i l1 d = nth i l2 d) -> l1 = l2.
Proof.
  intros A d l1 l2 HL H. apply (nth_ext l1 l2 d d HL H).
Qed.

Lemma map_nth_seq : forall {A} (d : A) (l : list A), map (fun i => nth i l d) (seq 0 (length l)) = l.
Proof.
  intros A d l. apply (list_eq_nth d).
  - rewrite map_length, seq_length. reflexivity.
  - intros i Hi. rewrite map_length, seq_length in Hi.
    rewrite (nth_map_seq (fun i => nth i l d) _ _ _ Hi). reflexivity.
Qed.

Lemma bind_ok_inv : forall {A B} (r : res A) (f : A -> res B) b,
  bind r f = Ok b -> exists a, r = Ok a /\ f a = Ok b.
Proof.
  intros A B r f b H. destruct r; simpl in H; try discriminate. exists a. split; [reflexivity | exact H].
Qed.

Lemma firstn_seq_map : forall {A} (d : A) (l : list A) k, k <= length l ->
  firstn k l = map (fun i => nth i l d) (seq 0 k).
Proof.
  intros A d l k Hk. apply (list_eq_nth d).
  - rewrite firstn_length, map_length, seq_length. lia.
  - intros i Hi. rewrite firstn_length in Hi. rewrite nth_map_seq by lia.
    revert k Hk Hi. revert i. induction l as [|a l IH]; intros i k Hk Hi; simpl in *.
    + lia.
    + destruct k; [lia|]. destruct i; simpl; [reflexivity|]. apply IH; lia.
Qed.
