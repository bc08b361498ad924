(** Names for the concrete runs: histories that commit to given tables, and the bags and tables made of them. *)
From Coq Require Import String List Arith Bool ZArith Lia.
Import ListNotations.
From Verif Require Import Res Fp FSum SpecMle SpecPoly SpecTracker SpecKzg SpecIop ModelMle ModelTranscript Pairing ModelKzg ModelProver ModelVerifier ModelAdvice ModelIop ProverHist VerifierHist CompileHist IopHist
  HistExtra CompileMain IopWorld IopFix.
Local Open Scope list_scope.
Local Open Scope nat_scope.

Definition th (hs : list tpoly) (n : nat) : tpoly := nth n hs (mkTp 0 0).
Definition vth (ids : list nat) (n : nat) : nat := nth n ids 0.
(** A history that commits to the given tables (number of variables, evaluations), and its counterpart. *)
Definition commits (ts : list (nat * list Z)) : list (pop 101) := map (fun t => OCommit (fst t) (map ofZ (snd t))) ts.
Definition nexts (ts : list (nat * list Z)) : list (vop E101) := map (fun _ => VONext) ts.
Definition columns (ts : list (nat * list Z)) : list (nat * nat * list (F 101)) := map (fun t => (fst t, fst (snd t), map ofZ (snd (snd t)))) (combine (seq 0 (length ts)) ts).
(** The bag made of the tables number [k] (values) and [k + 1] (selector). *)
Definition pbag (hs : list tpoly) (k : nat) : bag := mkBag (th hs k) (th hs (k + 1)).
Definition vbag (ids : list nat) (k n : nat) : bagc := mkBagc (vth ids k) (vth ids (k + 1)) n.
(** The table with the columns number [ks] and the selector number [k]. *)
Definition ptab (hs : list tpoly) (ks : list nat) (k : nat) : table := mkTable (map (th hs) ks) (th hs k).
Definition vtab (ids : list nat) (ks : list nat) (k n : nat) : tablec := mkTablec (map (vth ids) ks) (vth ids k) n.

(** Such histories are settings of the theorems on honest provers. *)
Definition ex_ok (k : nat) (ts : list (nat * list Z)) : bool :=
  match ix_keys k with
  | Ok (ck, _) => match prun ix_o ck (commits ts) with Ok (_, hs) => (0 <? max_nv hs) && (max_nv hs <=? k) && (length hs =? length ts) | _ => false end
  | _ => false
  end && (1 <=? k) && (2 <=? length ts) && forallb (fun t => length (snd t) =? 2 ^ fst t) ts.
Lemma commits_den : forall ts i t, nth_error ts i = Some t -> poly_at (commits ts) i = mle_den (fst t) (map ofZ (snd t)).
Proof.
  intros ts i t H. unfold poly_at, denote. assert (G : forall (ds : list den), fold_left den_step (commits ts) ds = ds ++ map (fun t : nat * list Z => mle_den (fst t) (map ofZ (snd t))) ts).
  { clear. induction ts as [|x ts IH]; intros ds; [rewrite app_nil_r; reflexivity|]. cbn [commits map fold_left]. fold (commits ts). rewrite IH. cbn [den_step]. rewrite <- app_assoc. reflexivity. }
  rewrite G. cbn [app]. apply nth_error_nth. rewrite nth_error_map, H. reflexivity.
Qed.
Lemma commits_deg : forall ts x, In x (degrees (commits ts)) -> x <= 1.
Proof.
  intros ts x. unfold degrees. assert (G : forall ds, fold_left (deg_step (p:=101)) (commits ts) ds = ds ++ map (fun _ => 1) ts).
  { clear. induction ts as [|y ts IH]; intros ds; [rewrite app_nil_r; reflexivity|]. cbn [commits map fold_left]. fold (commits ts). rewrite IH. cbn [deg_step]. rewrite <- app_assoc. reflexivity. }
  rewrite G. cbn [app]. intros H. apply in_map_iff in H. destruct H as [_ [<- _]]. lia.
Qed.
Lemma ex_setting : forall k ts, ex_ok k ts = true -> exists ck vk s hs, setting ix_o (fun n => n) k ck vk (commits ts) (nexts ts) s hs 1 30 /\
  forall i t, nth_error ts i = Some t -> stands (commits ts) hs (th hs i) (map ofZ (snd t)) /\ tp_nv (th hs i) = fst t.
Proof.
  intros k ts H. unfold ex_ok in H. apply andb_true_iff in H. destruct H as [H Hl]. apply andb_true_iff in H. destruct H as [H H2]. apply andb_true_iff in H. destruct H as [H H1]. apply Nat.leb_le in H1, H2.
  destruct (ix_keys k) as [[ck vk]| |] eqn:K; try discriminate. destruct (prun ix_o ck (commits ts)) as [[s hs]| |] eqn:R; try discriminate.
  apply andb_true_iff in H. destruct H as [H H5]. apply andb_true_iff in H. destruct H as [H3 H4]. apply Nat.ltb_lt in H3. apply Nat.leb_le in H4. apply Nat.eqb_eq in H5. rewrite forallb_forall in Hl.
  exists ck, vk, s, hs. split.
  - constructor.
    + unfold ix_keys in K. destruct (gen_srs E101 _ _ _ k) as [srs| |] eqn:G; try discriminate. cbn [bind] in K. eexists _, _, _, k, srs. split; [exact H1|]. split; [apply Nat.le_refl|]. split; [exact G|exact K].
    + intros a b X. exact X.
    + exact R.
    + clear. induction ts as [|t ts IH]; [constructor|]. cbn [commits nexts map]. constructor. exact IH.
    + clear. generalize (@nil (den (p:=101))). induction ts as [|t ts IH]; intros ds; [exact I|]. split; [exact I|apply IH].
    + intros a c X. unfold nexts in X. apply in_map_iff in X. destruct X as [y [X _]]. discriminate.
    + intros a Ha. exfalso. revert Ha. clear. induction ts as [|t ts IH]; [intros []|exact IH].
    + apply commits_deg.
    + auto.
    + replace (commit_calls (commits ts)) with (length ts); [exact H2|]. clear. induction ts as [|t ts IH]; [reflexivity|]. cbn [length]. rewrite IH. reflexivity.
    + vm_compute. lia.
    + vm_compute. lia.
  - intros i t Ht. assert (Hi : i < length hs) by (rewrite H5; apply nth_error_Some; congruence). destruct (nth_error hs i) as [h|] eqn:Hh; [|apply nth_error_None in Hh; lia].
    assert (Hth : th hs i = h) by (unfold th; apply nth_error_nth; exact Hh). rewrite Hth. destruct (hist_at ix_o ck _ _ _ i R Hi) as [_ [A2 _]]. rewrite (nth_error_nth _ _ dh Hh) in A2. rewrite (commits_den _ _ _ Ht) in A2. split; [|exact A2].
    exists i. split; [exact Hh|]. rewrite (commits_den _ _ _ Ht). apply mle_den_corners. rewrite map_length. apply Nat.eqb_eq. apply Hl. eapply nth_error_In. exact Ht.
Qed.
Lemma ex_bags : forall k ts, ex_ok k ts = true -> exists ck vk s hs, setting ix_o (fun n => n) k ck vk (commits ts) (nexts ts) s hs 1 30 /\
  forall i n x y, nth_error ts i = Some (n, x) -> nth_error ts (i + 1) = Some (n, y) -> bag_stands (commits ts) hs (pbag hs i) (map ofZ x) (map ofZ y) /\ b_nv (pbag hs i) = n.
Proof.
  intros k ts H. destruct (ex_setting k ts H) as [ck [vk [s [hs [H1 H2]]]]]. exists ck, vk, s, hs. split; [exact H1|]. intros i n x y Hx Hy. destruct (H2 _ _ Hx) as [A1 A2]. destruct (H2 _ _ Hy) as [B1 B2].
  split; [|exact A2]. split; [exact A1|]. split; [exact B1|]. unfold pbag. cbn [b_poly b_sel]. rewrite A2, B2. reflexivity.
Qed.
Lemma ex_tabs : forall k ts, ex_ok k ts = true -> exists ck vk s hs, setting ix_o (fun n => n) k ck vk (commits ts) (nexts ts) s hs 1 30 /\
  (forall i n x, nth_error ts i = Some (n, x) -> stands (commits ts) hs (th hs i) (map ofZ x) /\ tp_nv (th hs i) = n) /\
  (forall i n x y, nth_error ts i = Some (n, x) -> nth_error ts (i + 1) = Some (n, y) -> bag_stands (commits ts) hs (pbag hs i) (map ofZ x) (map ofZ y) /\ b_nv (pbag hs i) = n) /\
  (forall ks j n xs y, Forall2 (fun i x => nth_error ts i = Some (n, x)) ks xs -> nth_error ts j = Some (n, y) -> table_stands (commits ts) hs (ptab hs ks j) (map (map ofZ) xs) (map ofZ y) /\ t_nv (ptab hs ks j) = n).
Proof.
  intros k ts H. destruct (ex_setting k ts H) as [ck [vk [s [hs [H1 H2]]]]]. exists ck, vk, s, hs. split; [exact H1|]. split; [intros i n x Hx; exact (H2 i (n, x) Hx)|]. split.
  - intros i n x y Hx Hy. destruct (H2 _ _ Hx) as [A1 A2]. destruct (H2 _ _ Hy) as [B1 B2]. split; [|exact A2]. split; [exact A1|]. split; [exact B1|]. unfold pbag. cbn [b_poly b_sel]. rewrite A2, B2. reflexivity.
  - intros ks j n xs y Hk Hy. destruct (H2 _ _ Hy) as [B1 B2]. split; [|exact B2]. split; [|exact B1]. change (t_nv (ptab hs ks j)) with (tp_nv (th hs j)). rewrite B2. unfold ptab. cbn [t_cols fst]. clear -Hk H2. induction Hk as [|i x ks xs Hx Hk IH]; cbn [map]; constructor; [|exact IH]. exact (H2 _ _ Hx).
Qed.
(** The range 0 to 7. *)
Lemma to7_small : forall n, n <= 3 -> small_range (map (@ofZ 101) [0; 1; 2; 3; 4; 5; 6; 7]%Z) n.
Proof.
  intros n Hn. exists 7. split.
  - change (at_most (p:=101) 7 (map ofN (seq 0 8))). apply Forall_forall. intros x Hx. apply in_map_iff in Hx. destruct Hx as [k [<- Hk]]. apply in_seq in Hk. exists k. split; [lia|reflexivity].
  - assert (H : 2 ^ n <= 2 ^ 3) by (apply Nat.pow_le_mono_r; lia). change (2 ^ 3) with 8 in H. lia.
Qed.
