(** The recorded degree is that of the longest term. *)
From Coq Require Import List Arith Lia ZArith.
Import ListNotations.
Local Open Scope nat_scope.
From Verif Require Import Res ResLemmas Fp ModelMle ModelVp VpGrow.

Section D.
Context {p : positive}.
Implicit Types v w u : vp p.

Lemma add_loop_keeps : forall l v idx v' r, add_loop v l idx = (v', Ok r) -> max_degree v' = max_degree v /\ products v' = products v /\ length r = length idx + length l.
Proof.
  induction l as [|m l IH]; intros v idx v' r H; cbn [add_loop] in H.
  - injection H as <- <-. cbn. auto.
  - destruct (negb _); [discriminate H|]. destruct (ptr_get _ _) as [i|]; apply IH in H; destruct H as [H1 [H2 H3]]; rewrite app_length in H3; cbn in *; repeat split; [assumption|assumption|lia|assumption|assumption|lia].
Qed.
Lemma longest_snoc : forall v c idx d n f lk, longest (mkVp d n (products v ++ [(c, idx)]) f lk) = Nat.max (longest v) (length idx).
Proof. intros. unfold longest. cbn [products]. rewrite map_app, list_max_app. cbn. lia. Qed.
Lemma add_longest : forall v l c v', add_mle_list v l c = (v', Ok tt) -> max_degree v' = Nat.max (max_degree v) (length l) /\ longest v' = Nat.max (longest v) (length l).
Proof.
  intros v [|m l] c v' H; [discriminate H|]. unfold add_mle_list in H. destruct (add_loop _ _ _) as [v2 [idx| |]] eqn:A; try discriminate H. injection H as <-. apply add_loop_keeps in A. destruct A as [A1 [A2 A3]]. cbn [products max_degree] in *.
  split; [exact A1|]. rewrite A2, longest_snoc, A3. reflexivity.
Qed.
Lemma mul_longest : forall v m c v', products v <> [] -> mul_by_mle v m c = Ok v' -> max_degree v' = max_degree v + 1 /\ longest v' = longest v + 1.
Proof.
  intros v m c v' Hne H. unfold mul_by_mle in H. destruct (negb _); [discriminate H|]. destruct (match ptr_get _ _ with Some _ => _ | None => _ end) as [[i fl] lk]. injection H as <-. split; [reflexivity|].
  unfold longest. cbn [products]. induction (products v) as [|t [|t' r] IH]; [contradiction| |].
  - cbn. rewrite app_length. cbn. lia.
  - specialize (IH ltac:(discriminate)). cbn [map list_max fold_right] in *. rewrite IH. unfold list_max in *. cbn [snd]. rewrite app_length. cbn [length]. lia.
Qed.
Lemma mapM_len : forall {A B} (f : A -> res B) l r, mapM f l = Ok r -> length r = length l.
Proof. intros A B f. induction l as [|a l IH]; intros r H; cbn in H; [injection H as <-; reflexivity|]. destruct (f a); cbn in H; try discriminate. destruct (mapM f l); cbn in H; try discriminate. injection H as <-. cbn. f_equal. apply IH. reflexivity. Qed.
Lemma plus_longest : forall w v u, vp_add v w = Ok u -> max_degree v = longest v -> max_degree u = longest u.
Proof.
  intros w v u H. unfold vp_add in H. revert v H. generalize (products w) as l. induction l as [|t l IH]; intros v H E; cbn [foldM] in H; [injection H as <-; exact E|].
  destruct (mapM (rnth (flat w)) (snd t)) as [cur| |]; cbn [bind] in H; try discriminate H. destruct (add_mle_list v cur (fst t)) as [v1 [[]| |]] eqn:A; cbn [bind] in H; try discriminate H.
  apply (IH v1 H). apply add_longest in A. lia.
Qed.
Lemma grown_longest : forall v, grown v -> max_degree v = longest v.
Proof.
  intros v H. induction H as [n|m c|v l c v' _ IH H|v m c v' _ IH Hne H|v w u _ IH _ _ H|v r a u _ IH Hne H]; [reflexivity|reflexivity|apply add_longest in H; lia|apply (mul_longest _ _ _ _ Hne) in H; lia|exact (plus_longest w v u H IH)|].
  unfold build_f_hat in H. destruct (ensure _ _) as [[]| |]; cbn [bind] in H; try discriminate H. destruct (build_eq_x_r r) as [e| |]; cbn [bind] in H; try discriminate H. apply (mul_longest _ _ _ _ Hne) in H. lia.
Qed.
End D.
