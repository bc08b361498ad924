(** Degrees of the virtual polynomials of the prover tracker. *)
From Coq Require Import String List Arith Lia Bool ZArith.
Import ListNotations.
From Verif Require Import Res ResLemmas Fp FSum SpecMle SpecKzg SpecTracker ModelMle MleLemmas ModelVp ModelTranscript Pairing ModelKzg ModelBatch
  ModelProver ProverHist TmapLemmas ProverProofs ProverExtra ProverStep.
Local Open Scope string_scope.
Local Open Scope list_scope.
Local Open Scope nat_scope.

Section S.
Context {p : positive} {E : pairing p}.
Local Notation st := (ptrk E).
Implicit Types s : ptrk E.
Local Arguments mput : simpl never.

Lemma Ok_inj : forall A (a b : A), Ok a = Ok b -> a = b. Proof. intros A a b H. inversion H. reflexivity. Qed.
Definition vdeg (v : list (F p * list nat)) (d : nat) : Prop := forall cp, In cp v -> length (snd cp) <= d.
Definition deg_le s (id d : nat) : Prop := 1 <= d /\ forall v, mget (pt_virt s) id = Some v -> vdeg v d.
(** Old virtual polynomials are unchanged or gone. *)
Definition vold s s' : Prop := pt_next s <= pt_next s' /\ forall id v, id < pt_next s -> mget (pt_virt s') id = Some v -> mget (pt_virt s) id = Some v.

Lemma vold_refl : forall s, vold s s. Proof. intros s. split; auto. Qed.
Lemma vold_trans : forall a b c, vold a b -> vold b c -> vold a c.
Proof. intros a b c [H1 H2] [G1 G2]. split; [lia|]. intros id v Hlt Hv. apply H2; [exact Hlt|]. apply G2; [lia|exact Hv]. Qed.
Lemma vold_deg : forall s s' id d, vold s s' -> id < pt_next s -> deg_le s id d -> deg_le s' id d.
Proof. intros s s' id d [_ H] Hlt [H1 H2]. split; [exact H1|]. intros v Hv. apply H2. apply H; assumption. Qed.

Lemma track_virt_deg : forall s v d id s', track_virt_poly s v = (id, s') -> 1 <= d -> vdeg v d -> vold s s' /\ deg_le s' id d.
Proof.
  intros s v d id s' H Hd Hv. unfold track_virt_poly in H. simpl in H. inversion H; subst. clear H. split; [|split; [exact Hd|]].
  - split; simpl; [lia|]. intros id w Hlt Hw. rewrite mget_mput_other in Hw by lia. exact Hw.
  - intros w Hw. simpl in Hw. rewrite mget_mput_same in Hw. inversion Hw; subst. exact Hv.
Qed.
Lemma track_arc_deg : forall s a id s', pinv s -> track_mat_arc_poly s a = (id, s') -> vold s s' /\ deg_le s' id 1.
Proof.
  intros s a id s' Hi H. unfold track_mat_arc_poly in H. simpl in H. inversion H; subst. clear H. split; [|split; [lia|]].
  - split; simpl; [lia|]. intros id w Hlt Hw. exact Hw.
  - intros w Hw. simpl in Hw. destruct (fresh_none s (pt_next s) Hi (le_n _)) as [_ Fv]. congruence.
Qed.
Lemma track_mat_deg : forall s m id s', pinv s -> track_mat_poly s m = (id, s') -> vold s s' /\ deg_le s' id 1.
Proof.
  intros s m id s' Hi H. unfold track_mat_poly in H. simpl in H.
  destruct (new_arc_inv s m Hi) as [Hi1 _]. destruct (track_arc_deg _ _ _ _ Hi1 H) as [A B]. split; [exact A|exact B].
Qed.

Lemma rep_deg : forall s id r d, get_rep s id = Ok r -> deg_le s id d ->
  match r with RMat => 1 <= d | RVirt v => 1 <= d /\ vdeg v d end.
Proof.
  intros s id r d H [D1 D2]. unfold get_rep in H. destruct (mget (pt_mat s) id); destruct (mget (pt_virt s) id) as [v|]; inversion H; subst; auto.
Qed.
Lemma vdeg_map : forall v d (f : F p * list nat -> F p), vdeg v d -> vdeg (map (fun cp => (f cp, snd cp)) v) d.
Proof. intros v d f H cp Hc. apply in_map_iff in Hc. destruct Hc as [q [<- Hq]]. simpl. apply H. exact Hq. Qed.
Lemma vdeg_le : forall v d e, d <= e -> vdeg v d -> vdeg v e.
Proof. intros v d e H Hv cp Hc. specialize (Hv cp Hc). lia. Qed.
Lemma vdeg_app : forall v w d, vdeg v d -> vdeg w d -> vdeg (v ++ w) d.
Proof. intros v w d H1 H2 cp Hc. apply in_app_or in Hc. destruct Hc; auto. Qed.
Lemma vdeg_one : forall c i d, 1 <= d -> vdeg [(c, [i])] d.
Proof. intros c i d H cp [<-|[]]. exact H. Qed.
Lemma vdeg_snoc : forall v d i, vdeg v d -> vdeg (map (fun cp => (fst cp, snd cp ++ [i])) v) (d + 1).
Proof. intros v d i H cp Hc. apply in_map_iff in Hc. destruct Hc as [q [<- Hq]]. simpl. rewrite app_length. simpl. specialize (H q Hq). lia. Qed.

Lemma add_sub_deg : forall s i j sub id s' d e, add_sub_polys s i j sub = Ok (id, s') -> deg_le s i d -> deg_le s j e ->
  vold s s' /\ deg_le s' id (Nat.max d e).
Proof.
  intros s i j sub id s' d e H Di Dj. unfold add_sub_polys in H.
  destruct (get_rep s i) as [ri| |] eqn:Ri; try discriminate. destruct (get_rep s j) as [rj| |] eqn:Rj; try discriminate. cbn [bind] in H.
  pose proof (rep_deg _ _ _ _ Ri Di) as Gi. pose proof (rep_deg _ _ _ _ Rj Dj) as Gj. destruct Di as [Di _]. destruct Dj as [Dj _].
  assert (Hm : 1 <= Nat.max d e) by lia.
  destruct ri as [|vi]; destruct rj as [|vj]; apply Ok_inj in H; (eapply track_virt_deg; [exact H|exact Hm|]).
  - intros cp [<-|[<-|[]]]; simpl; lia.
  - destruct Gj as [_ Gj]. apply (vdeg_app [(F1, [i])]); [apply vdeg_one; lia|]. apply (vdeg_map vj _ (fun cp => ((if sub then - F1 else F1) * fst cp)%F)). eapply vdeg_le; [|exact Gj]. lia.
  - destruct Gi as [_ Gi]. apply vdeg_app; [|apply vdeg_one; lia]. eapply vdeg_le; [|exact Gi]. lia.
  - destruct Gi as [_ Gi]. destruct Gj as [_ Gj]. apply vdeg_app; [eapply vdeg_le; [|exact Gi]; lia|].
    apply (vdeg_map vj _ (fun cp => ((if sub then - F1 else F1) * fst cp)%F)). eapply vdeg_le; [|exact Gj]. lia.
Qed.
Lemma mul_deg : forall s i j id s' d e, mul_polys s i j = Ok (id, s') -> deg_le s i d -> deg_le s j e -> vold s s' /\ deg_le s' id (d + e).
Proof.
  intros s i j id s' d e H Di Dj. unfold mul_polys in H.
  destruct (get_rep s i) as [ri| |] eqn:Ri; try discriminate. destruct (get_rep s j) as [rj| |] eqn:Rj; try discriminate. cbn [bind] in H.
  pose proof (rep_deg _ _ _ _ Ri Di) as Gi. pose proof (rep_deg _ _ _ _ Rj Dj) as Gj. destruct Di as [Di _]. destruct Dj as [Dj _].
  destruct ri as [|vi]; destruct rj as [|vj]; apply Ok_inj in H; (eapply track_virt_deg; [exact H|lia|]).
  - intros cp [<-|[]]; simpl; lia.
  - destruct Gj as [_ Gj]. eapply vdeg_le; [|apply vdeg_snoc; exact Gj]. lia.
  - destruct Gi as [_ Gi]. eapply vdeg_le; [|apply vdeg_snoc; exact Gi]. lia.
  - destruct Gi as [_ Gi]. destruct Gj as [_ Gj]. intros cp Hc. apply in_flat_map in Hc. destruct Hc as [q [Hq Hc]]. apply in_map_iff in Hc.
    destruct Hc as [r [<- Hr]]. simpl. rewrite app_length. specialize (Gi q Hq). specialize (Gj r Hr). lia.
Qed.
Lemma mul_scalar_deg : forall s i c id s' d, mul_scalar s i c = Ok (id, s') -> deg_le s i d -> vold s s' /\ deg_le s' id d.
Proof.
  intros s i c id s' d H [D1 D2]. unfold mul_scalar in H. destruct (mget (pt_mat s) i).
  - apply Ok_inj in H. eapply track_virt_deg; [exact H|exact D1|apply vdeg_one; exact D1].
  - destruct (mget (pt_virt s) i) as [v|]; [|discriminate]. cbn [ounwrap bind] in H. apply Ok_inj in H.
    eapply track_virt_deg; [exact H|exact D1|]. apply (vdeg_map v _ (fun cp => (fst cp * c)%F)). apply D2. reflexivity.
Qed.
Lemma add_scalar_deg : forall s i c id s' d, pinv s -> i < pt_next s -> add_scalar s i c = Ok (id, s') -> deg_le s i d -> vold s s' /\ deg_le s' id d.
Proof.
  intros s i c id s' d Hi Hlt H Hd. unfold add_scalar in H. destruct (get_poly_nv s i) as [n| |]; try discriminate. cbn [bind] in H.
  destruct (from_evaluations n (repeat c (2 ^ n))) as [m| |]; try discriminate. cbn [bind] in H.
  destruct (track_mat_poly s m) as [sid s1] eqn:T. destruct (track_mat_deg _ _ _ _ Hi T) as [A B].
  destruct (add_sub_deg s1 i sid false id s' d 1 H (vold_deg _ _ _ _ A Hlt Hd) B) as [A2 B2]. split; [eapply vold_trans; eassumption|].
  destruct Hd as [D1 _]. replace (Nat.max d 1) with d in B2 by lia. exact B2.
Qed.

(** Materializing only removes virtual polynomials. *)
Lemma mget_mdel_some : forall A (m : tmap A) k j a, mget (mdel m k) j = Some a -> mget m j = Some a /\ j <> k.
Proof.
  intros A m k j a H. destruct (Nat.eq_dec j k) as [->|Hne]; [rewrite mget_mdel_same in H; discriminate|].
  split; [|exact Hne]. rewrite mget_mdel_other in H by congruence. exact H.
Qed.
Definition vsub s s' : Prop := pt_next s' = pt_next s /\ forall id v, mget (pt_virt s') id = Some v -> mget (pt_virt s) id = Some v.
Lemma vsub_refl : forall s, vsub s s. Proof. intros s. split; auto. Qed.
Lemma vsub_trans : forall a b c, vsub a b -> vsub b c -> vsub a c.
Proof. intros a b c [H1 H2] [G1 G2]. split; [congruence|]. auto. Qed.
Lemma vsub_old : forall s s', vsub s s' -> vold s s'.
Proof. intros s s' [H1 H2]. split; [lia|]. intros id v _ Hv. apply H2. exact Hv. Qed.

Lemma foldM_inv : forall A B (R : A -> A -> Prop) (f : A -> B -> res A) l a b,
  (forall a, R a a) -> (forall a b c, R a b -> R b c -> R a c) -> (forall a x b, f a x = Ok b -> R a b) -> foldM f a l = Ok b -> R a b.
Proof.
  intros A B R f l. induction l as [|x l IH]; intros a b Hr Ht Hf H; simpl in H; [inversion H; subst; apply Hr|].
  destruct (f a x) as [a'| |] eqn:Ef; try discriminate. cbn [bind] in H. eapply Ht; [eapply Hf; exact Ef|]. eapply IH; eassumption.
Qed.

Lemma materialize_loop_sub : forall fuel s id s', materialize_loop fuel s id = Ok s' -> vsub s s' /\ mget (pt_virt s') id = (if mget (pt_mat s) id then mget (pt_virt s) id else None).
Proof.
  induction fuel as [|fuel IH]; intros s id s' H; cbn [materialize_loop] in H;
  (destruct (mget (pt_mat s) id) as [a|] eqn:Ea; [inversion H; subst; split; [apply vsub_refl|reflexivity]|]);
  (destruct (mget (pt_virt s) id) as [v|] eqn:Ev; [|discriminate]); cbn [ounwrap bind] in H;
  (destruct (virt_nv s v) as [n| |]; try discriminate); cbn [bind] in H.
  all: match type of H with bind ?x _ = _ => destruct x as [[prods s1]| |] eqn:Ef; try discriminate end; cbn [bind] in H.
  all: match type of H with bind ?x _ = _ => destruct x as [m| |]; try discriminate end; cbn [bind new_arc] in H; inversion H; subst; clear H.
  all: assert (Hs : vsub s s1).
  1,3: assert (Hs0 : vsub (snd (@nil (list (F p)), s)) (snd (prods, s1))); [|exact Hs0].
  1,2: eapply (foldM_inv _ _ (fun a b : list (list (F p)) * st => vsub (snd a) (snd b))); [intros; apply vsub_refl|intros a b c; apply vsub_trans| |exact Ef].
  1,2: intros [acc s2] cp [acc' s2'] Hc; cbn [fst snd] in Hc.
  1,2: match type of Hc with bind ?x _ = _ => destruct x as [[r s3]| |] eqn:Eg; try discriminate end; cbn [bind] in Hc; inversion Hc; subst; cbn [snd].
  1,2: assert (Hs1 : vsub (snd (repeat (fst cp) (2 ^ n), s2)) (snd (r, s2'))); [|exact Hs1].
  1,2: eapply (foldM_inv _ _ (fun a b : list (F p) * st => vsub (snd a) (snd b))); [intros; apply vsub_refl|intros a b c; apply vsub_trans| |exact Eg].
  - intros a x b Hab. discriminate.
  - intros a x b Hab. cbv beta in Hab. destruct (materialize_loop fuel (snd a) x) as [s4| |] eqn:Em; try (cbn [bind] in Hab; discriminate Hab). cbn [bind] in Hab.
    destruct (mget (pt_mat s4) x); [|discriminate Hab]. cbn [ounwrap bind] in Hab. inversion Hab; subst. cbn [snd]. apply (IH _ _ _ Em).
  - split; simpl; [|apply mget_mdel_same]. destruct Hs as [H1 H2]. split; simpl; [exact H1|]. intros j w Hw. apply mget_mdel_some in Hw. apply H2. apply Hw.
  - split; simpl; [|apply mget_mdel_same]. destruct Hs as [H1 H2]. split; simpl; [exact H1|]. intros j w Hw. apply mget_mdel_some in Hw. apply H2. apply Hw.
Qed.
Lemma evaluations_sub : forall s id l s', evaluations s id = Ok (l, s') -> vsub s s' /\ mget (pt_virt s') id = (if mget (pt_mat s) id then mget (pt_virt s) id else None).
Proof.
  intros s id l s' H. unfold evaluations, materialize_poly in H. destruct (materialize_loop _ s id) as [s1| |] eqn:Em; try discriminate. cbn [bind] in H.
  destruct (mget (pt_mat s1) id); try discriminate. cbn [ounwrap bind] in H. inversion H; subst. eapply materialize_loop_sub. exact Em.
Qed.
Lemma increase_deg : forall inc s id k id' s', pinv s -> (exists n, known s id n) -> increase_nv inc s id k = Ok (id', s') -> vold s s' /\ deg_le s' id' 1.
Proof.
  intros inc s id k id' s' Hi [n Hk] H. unfold increase_nv in H. destruct (materialize_spec s id n Hi Hk) as [s1 [a [H1 [H2 _]]]]. rewrite H1 in H. cbn [bind] in H.
  unfold materialize_poly in H1. apply materialize_loop_sub in H1. destruct H1 as [Hs _]. apply vsub_old in Hs.
  destruct (mget (pt_mat s1) id) as [b|]; try discriminate. cbn [ounwrap bind] in H. destruct (inc (snd b) _) as [m| |]; try discriminate. cbn [bind] in H.
  destruct (k =? 0).
  - apply Ok_inj in H. destruct (track_arc_deg _ _ _ _ H2 H) as [A B]. split; [eapply vold_trans; eassumption|exact B].
  - cbn [new_arc] in H. apply Ok_inj in H. destruct (new_arc_inv s1 m H2) as [Hi1 _].
    destruct (track_arc_deg _ _ _ _ Hi1 H) as [A B]. split; [|exact B]. eapply vold_trans; [exact Hs|]. exact A.
Qed.

Definition hdeg s (h : tpoly) (d : nat) : Prop := deg_le s (tp_id h) d.
Lemma hdegs_old : forall s s' hs ds, winv (s, hs) -> vold s s' -> Forall2 (hdeg s) hs ds -> Forall2 (hdeg s') hs ds.
Proof.
  intros s s' hs ds Hw Hv H.
  assert (Hlt : forall h, In h hs -> tp_id h < pt_next s) by (intros h Hh; apply (handle_lt _ h Hw Hh)). clear Hw.
  induction H as [|h d hs ds H1 H2 IH]; constructor.
  - eapply vold_deg; [exact Hv|apply Hlt; left; reflexivity|exact H1].
  - apply IH. intros h' Hh'. apply Hlt. right. exact Hh'.
Qed.
Lemma push_deg : forall s hs ds (r : res (tpoly * st)) s' hs' d, winv (s, hs) -> Forall2 (hdeg s) hs ds -> push hs r = Ok (s', hs') ->
  (forall h s1, r = Ok (h, s1) -> vold s s1 /\ deg_le s1 (tp_id h) d) -> vold s s' /\ Forall2 (hdeg s') hs' (ds ++ [d]).
Proof.
  intros s hs ds r s' hs' d Hw Hd H Hr. unfold push in H. destruct r as [[h s1]| |]; try discriminate. cbn [bind] in H. inversion H; subst.
  destruct (Hr h s' eq_refl) as [A B]. split; [exact A|]. apply Forall2_snoc; [|exact B]. eapply hdegs_old; eassumption.
Qed.

Lemma deg_step_ok : forall o s hs op s' hs' ds, winv (s, hs) -> pstep o (s, hs) op = Ok (s', hs') -> Forall2 (hdeg s) hs ds ->
  vold s s' /\ Forall2 (hdeg s') hs' (deg_step ds op).
Proof.
  intros o s hs op s' hs' ds Hw H Hd. pose proof (w_inv _ Hw) as Hi. simpl in Hi.
  assert (Hget : forall i a, rnth hs i = Ok a -> hdeg s a (nth i ds 1) /\ (exists n, known s (tp_id a) n) /\ tp_id a < pt_next s).
  { intros i a Ha. unfold rnth in Ha. destruct (nth_error hs i) as [b|] eqn:Eb; [|discriminate]. inversion Ha; subst b.
    split; [apply (proj2 (Forall2_nth _ _ _ _ _ i a 1 Hd Eb))|]. apply nth_error_In in Eb.
    split; [exists (tp_nv a); apply (w_handles _ Hw _ Eb)|apply (handle_lt _ _ Hw Eb)]. }
  destruct op as [n l|n l|i j|i j|i j|i c|i c|i k|i k|i|l|l bs|i c|i]; unfold pstep in H; cbn [deg_step].
  - destruct (from_evaluations n l) as [m| |]; try discriminate. cbn [bind] in H. eapply push_deg; [exact Hw|exact Hd|exact H|].
    intros h s1 Hh. apply Ok_inj in Hh. unfold tp_track in Hh. destruct (track_mat_poly s m) as [id s2] eqn:T. inversion Hh; subst. simpl.
    eapply track_mat_deg; eassumption.
  - destruct (from_evaluations n l) as [m| |]; try discriminate. cbn [bind] in H. eapply push_deg; [exact Hw|exact Hd|exact H|].
    intros h s1 Hh. unfold tp_commit, track_and_commit_mat_poly in Hh. destruct (kzg_commit (pt_pp s) m) as [c| |]; try discriminate. cbn [bind] in Hh.
    destruct (track_mat_poly s m) as [id s2] eqn:T. cbn [bind] in Hh. inversion Hh; subst. simpl.
    apply (track_mat_deg _ _ _ _ Hi T).
  - destruct (rnth hs i) as [a| |] eqn:Ea; try discriminate. destruct (rnth hs j) as [b| |] eqn:Eb; try discriminate. cbn [bind] in H.
    destruct (Hget _ _ Ea) as [Da _]. destruct (Hget _ _ Eb) as [Db _]. eapply push_deg; [exact Hw|exact Hd|exact H|].
    intros h s1 Hh. unfold tp_add, tp_bin in Hh. destruct (rassert _) as [u| |]; try discriminate. cbn [bind] in Hh. unfold add_polys in Hh.
    destruct (add_sub_polys s (tp_id a) (tp_id b) false) as [[id s2]| |] eqn:Ef; try discriminate. cbn [bind] in Hh. inversion Hh; subst. simpl.
    eapply add_sub_deg; eassumption.
  - destruct (rnth hs i) as [a| |] eqn:Ea; try discriminate. destruct (rnth hs j) as [b| |] eqn:Eb; try discriminate. cbn [bind] in H.
    destruct (Hget _ _ Ea) as [Da _]. destruct (Hget _ _ Eb) as [Db _]. eapply push_deg; [exact Hw|exact Hd|exact H|].
    intros h s1 Hh. unfold tp_sub, tp_bin in Hh. destruct (rassert _) as [u| |]; try discriminate. cbn [bind] in Hh. unfold sub_polys in Hh.
    destruct (add_sub_polys s (tp_id a) (tp_id b) true) as [[id s2]| |] eqn:Ef; try discriminate. cbn [bind] in Hh. inversion Hh; subst. simpl.
    eapply add_sub_deg; eassumption.
  - destruct (rnth hs i) as [a| |] eqn:Ea; try discriminate. destruct (rnth hs j) as [b| |] eqn:Eb; try discriminate. cbn [bind] in H.
    destruct (Hget _ _ Ea) as [Da _]. destruct (Hget _ _ Eb) as [Db _]. eapply push_deg; [exact Hw|exact Hd|exact H|].
    intros h s1 Hh. unfold tp_mul, tp_bin in Hh. destruct (rassert _) as [u| |]; try discriminate. cbn [bind] in Hh.
    destruct (mul_polys s (tp_id a) (tp_id b)) as [[id s2]| |] eqn:Ef; try discriminate. cbn [bind] in Hh. inversion Hh; subst. simpl.
    eapply mul_deg; eassumption.
  - destruct (rnth hs i) as [a| |] eqn:Ea; try discriminate. cbn [bind] in H.
    destruct (Hget _ _ Ea) as [Da [_ La]]. eapply push_deg; [exact Hw|exact Hd|exact H|].
    intros h s1 Hh. unfold tp_add_scalar in Hh. destruct (add_scalar s (tp_id a) c) as [[id s2]| |] eqn:Ef; try discriminate. cbn [bind] in Hh. inversion Hh; subst. simpl.
    eapply add_scalar_deg; eassumption.
  - destruct (rnth hs i) as [a| |] eqn:Ea; try discriminate. cbn [bind] in H.
    destruct (Hget _ _ Ea) as [Da [_ La]]. eapply push_deg; [exact Hw|exact Hd|exact H|].
    intros h s1 Hh. unfold tp_mul_scalar in Hh. destruct (mul_scalar s (tp_id a) c) as [[id s2]| |] eqn:Ef; try discriminate. cbn [bind] in Hh. inversion Hh; subst. simpl.
    eapply mul_scalar_deg; eassumption.
  - destruct (rnth hs i) as [a| |] eqn:Ea; try discriminate. cbn [bind] in H.
    destruct (Hget _ _ Ea) as [_ [Ka _]]. eapply push_deg; [exact Hw|exact Hd|exact H|].
    intros h s1 Hh. unfold tp_front, increase_nv_front in Hh. destruct (increase_nv _ s (tp_id a) k) as [[id s2]| |] eqn:Ef; try discriminate. cbn [bind] in Hh. inversion Hh; subst. simpl.
    eapply increase_deg; eassumption.
  - destruct (rnth hs i) as [a| |] eqn:Ea; try discriminate. cbn [bind] in H.
    destruct (Hget _ _ Ea) as [_ [Ka _]]. eapply push_deg; [exact Hw|exact Hd|exact H|].
    intros h s1 Hh. unfold tp_back, increase_nv_back in Hh. destruct (increase_nv _ s (tp_id a) k) as [[id s2]| |] eqn:Ef; try discriminate. cbn [bind] in Hh. inversion Hh; subst. simpl.
    eapply increase_deg; eassumption.
  - destruct (rnth hs i) as [a| |] eqn:Ea; try discriminate. cbn [bind] in H. unfold tp_evaluations in H.
    destruct (evaluations s (tp_id a)) as [[l s1]| |] eqn:Ee; try discriminate. cbn [bind] in H. inversion H; subst.
    assert (Hv : vold s s') by (apply vsub_old; apply (evaluations_sub _ _ _ _ Ee)). split; [exact Hv|]. eapply hdegs_old; eassumption.
  - unfold pt_challenge in H. destruct (drawT o l (pt_tr s)) as [[c t]| |]; try discriminate. cbn [bind] in H. inversion H; subst.
    assert (Hv : vold s (set_tr s t)) by (split; auto). split; [exact Hv|]. eapply hdegs_old; eassumption.
  - inversion H; subst. match goal with |- vold s ?x /\ _ => assert (Hv : vold s x) by (split; auto) end. split; [exact Hv|]. eapply hdegs_old; eassumption.
  - destruct (rnth hs i) as [a| |]; try discriminate. cbn [bind] in H. inversion H; subst.
    match goal with |- vold s ?x /\ _ => assert (Hv : vold s x) by (split; auto) end. split; [exact Hv|]. eapply hdegs_old; eassumption.
  - destruct (rnth hs i) as [a| |]; try discriminate. cbn [bind] in H. inversion H; subst.
    match goal with |- vold s ?x /\ _ => assert (Hv : vold s x) by (split; auto) end. split; [exact Hv|]. eapply hdegs_old; eassumption.
Qed.

Lemma deg_steps_ok : forall o ops s hs s' hs' ds, winv (s, hs) -> foldM (pstep o) (s, hs) ops = Ok (s', hs') -> Forall2 (hdeg s) hs ds ->
  Forall2 (hdeg s') hs' (fold_left deg_step ops ds).
Proof.
  intros o ops. induction ops as [|op ops IH]; intros s hs s' hs' ds Hw H Hd; cbn [foldM] in H; [inversion H; subst; exact Hd|].
  destruct (pstep o (s, hs) op) as [[s1 hs1]| |] eqn:E1; try discriminate. cbn [bind] in H.
  simpl. eapply IH; [|exact H|apply (deg_step_ok o s hs op s1 hs1 ds Hw E1 Hd)]. apply (pstep_inv o s hs op _ Hw E1).
Qed.
Lemma prun_degrees : forall o (pp : pparam E) ops s hs, prun o pp ops = Ok (s, hs) -> Forall2 (hdeg s) hs (degrees ops).
Proof. intros o pp ops s hs H. eapply (deg_steps_ok o ops _ _ s hs [] (winv_new pp) H). constructor. Qed.
End S.
