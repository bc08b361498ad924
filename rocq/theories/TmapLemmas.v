(** Lemmas about association-list maps and the sort on ids. *)
From Coq Require Import List Arith Lia Bool Permutation Sorted.
Import ListNotations.
From Verif Require Import ModelProver.

Section T.
Context {A : Type}.
Implicit Types m : tmap A.

Lemma mget_mdel_same : forall m k, mget (mdel m k) k = None.
Proof.
  induction m as [|[j a] m IH]; intros k; [reflexivity|]. unfold mdel in *. simpl.
  destruct (j =? k) eqn:Ej; simpl; [apply IH|]. rewrite Ej. apply IH.
Qed.
Lemma mget_mdel_other : forall m k k', k <> k' -> mget (mdel m k) k' = mget m k'.
Proof.
  induction m as [|[j a] m IH]; intros k k' Hk; [reflexivity|]. unfold mdel in *. simpl.
  destruct (j =? k) eqn:Ej; simpl.
  - apply Nat.eqb_eq in Ej. subst j. apply Nat.eqb_neq in Hk. rewrite Hk. apply IH. apply Nat.eqb_neq. exact Hk.
  - rewrite IH by exact Hk. reflexivity.
Qed.
Lemma mget_mput_same : forall m k a, mget (mput m k a) k = Some a.
Proof. intros. unfold mput. simpl. rewrite Nat.eqb_refl. reflexivity. Qed.
Lemma mget_mput_other : forall m k k' a, k <> k' -> mget (mput m k a) k' = mget m k'.
Proof. intros m k k' a Hk. unfold mput. simpl. rewrite (proj2 (Nat.eqb_neq _ _) Hk). apply mget_mdel_other; exact Hk. Qed.

Lemma mget_mput : forall m k k' a, mget (mput m k a) k' = if k =? k' then Some a else mget m k'.
Proof.
  intros m k k' a. destruct (Nat.eqb_spec k k') as [->|H]; [apply mget_mput_same|apply mget_mput_other; exact H].
Qed.
Lemma mget_mdel : forall m k k', mget (mdel m k) k' = if k =? k' then None else mget m k'.
Proof.
  intros m k k'. destruct (Nat.eqb_spec k k') as [->|H]; [apply mget_mdel_same|apply mget_mdel_other; exact H].
Qed.

Lemma mget_in : forall m k a, mget m k = Some a -> In (k, a) m.
Proof.
  induction m as [|[j b] m IH]; intros k a H; [discriminate|]. simpl in H.
  destruct (Nat.eqb_spec j k) as [->|Hj]; [inversion H; left; reflexivity|right; apply IH; exact H].
Qed.
Lemma in_mget : forall m k a, NoDup (map fst m) -> In (k, a) m -> mget m k = Some a.
Proof.
  induction m as [|[j b] m IH]; intros k a Hn H; [contradiction|]. inversion Hn; subst. simpl.
  destruct H as [H|H]; [inversion H; subst; rewrite Nat.eqb_refl; reflexivity|].
  destruct (Nat.eqb_spec j k) as [->|Hj]; [|apply IH; assumption].
  exfalso. apply H2. apply in_map_iff. exists (k, a). auto.
Qed.
Lemma mget_none : forall m k, mget m k = None <-> ~ In k (map fst m).
Proof.
  induction m as [|[j b] m IH]; intros k; simpl; [tauto|]. destruct (Nat.eqb_spec j k) as [->|Hj].
  - split; [discriminate|intros H; exfalso; apply H; auto].
  - rewrite IH. tauto.
Qed.
Lemma mget_key : forall m k, In k (map fst m) <-> exists a, mget m k = Some a.
Proof.
  intros m k. destruct (mget m k) as [a|] eqn:Ek.
  - split; [intros _; exists a; reflexivity|intros _]. apply in_map_iff. exists (k, a). split; [reflexivity|apply mget_in; exact Ek].
  - split; [intros H; exfalso; revert H; apply mget_none; exact Ek|intros [a Ha]; discriminate].
Qed.

Lemma mdel_nodup : forall m k, NoDup (map fst m) -> NoDup (map fst (mdel m k)).
Proof.
  induction m as [|[j a] m IH]; intros k H; [constructor|]. inversion H; subst. unfold mdel in *. simpl.
  destruct (j =? k); simpl; [apply IH; assumption|]. constructor; [|apply IH; assumption].
  intros Hin. apply H2. apply in_map_iff in Hin. destruct Hin as [e [He1 He2]]. apply filter_In in He2.
  apply in_map_iff. exists e. tauto.
Qed.
Lemma mput_nodup : forall m k a, NoDup (map fst m) -> NoDup (map fst (mput m k a)).
Proof.
  intros m k a H. unfold mput. simpl. constructor; [|apply mdel_nodup; exact H].
  apply mget_none. apply mget_mdel_same.
Qed.
End T.

Lemma insert_perm : forall k l, Permutation (insert_id k l) (k :: l).
Proof.
  induction l as [|j l IH]; [reflexivity|]. simpl. destruct (k <=? j); [reflexivity|].
  rewrite IH. apply perm_swap.
Qed.
Lemma sort_perm : forall l, Permutation (sort_ids l) l.
Proof. induction l as [|k l IH]; [reflexivity|]. simpl. rewrite insert_perm, IH. reflexivity. Qed.
Lemma sort_in : forall l k, In k (sort_ids l) <-> In k l.
Proof. intros l k. split; apply Permutation_in; [apply sort_perm|symmetry; apply sort_perm]. Qed.

Lemma insert_sorted : forall k l, StronglySorted le l -> StronglySorted le (insert_id k l).
Proof.
  induction l as [|j l IH]; intros H; [repeat constructor|]. simpl. inversion H; subst.
  destruct (Nat.leb_spec k j) as [Hk|Hk].
  - constructor; [exact H|]. constructor; [exact Hk|]. eapply Forall_impl; [|eassumption]. simpl. intros; lia.
  - constructor; [apply IH; assumption|]. apply Forall_forall. intros x Hx.
    apply (Permutation_in _ (insert_perm k l)) in Hx. destruct Hx as [<-|Hx]; [lia|].
    rewrite Forall_forall in H3. apply H3. exact Hx.
Qed.
Lemma sort_sorted : forall l, StronglySorted le (sort_ids l).
Proof. induction l; simpl; [constructor|]. apply insert_sorted. assumption. Qed.

Lemma sorted_perm_eq : forall l1 l2, StronglySorted le l1 -> StronglySorted le l2 -> Permutation l1 l2 -> l1 = l2.
Proof.
  induction l1 as [|a l1 IH]; intros l2 H1 H2 Hp.
  - apply Permutation_nil in Hp. subst. reflexivity.
  - destruct l2 as [|b l2]; [apply Permutation_sym, Permutation_nil in Hp; discriminate|].
    inversion H1; inversion H2; subst. rewrite Forall_forall in *.
    assert (a = b).
    { assert (Ha : In a (b :: l2)) by (eapply Permutation_in; [exact Hp|left; reflexivity]).
      assert (Hb : In b (a :: l1)) by (eapply Permutation_in; [symmetry; exact Hp|left; reflexivity]).
      destruct Ha as [->|Ha]; [reflexivity|]. destruct Hb as [->|Hb]; [reflexivity|].
      specialize (H4 _ Hb). specialize (H8 _ Ha). lia. }
    subst b. f_equal. apply IH; try assumption. eapply Permutation_cons_inv. exact Hp.
Qed.

(** The sorted key list depends only on the set of keys. *)
Lemma sort_keys_eq : forall {A B} (m1 : tmap A) (m2 : tmap B), NoDup (map fst m1) -> NoDup (map fst m2) ->
  (forall k, In k (map fst m1) <-> In k (map fst m2)) -> sort_ids (map fst m1) = sort_ids (map fst m2).
Proof.
  intros A B m1 m2 H1 H2 H. apply sorted_perm_eq; try apply sort_sorted.
  rewrite !sort_perm. apply NoDup_Permutation; assumption.
Qed.
Global Arguments mget {A} m k : simpl never.
Global Arguments mput {A} m k a : simpl never.
Global Arguments mdel {A} m k : simpl never.
