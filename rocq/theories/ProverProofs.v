(** Invariants and semantics of the prover tracker. *)
From Coq Require Import String List Arith Lia Bool ZArith.
Import ListNotations.
From Verif Require Import Res ResLemmas Fp FSum SpecMle SpecKzg ModelMle MleLemmas MleProofs MleExtra ModelVp ModelTranscript Pairing ModelKzg ModelBatch
  ModelProver ProverHist TmapLemmas.
Local Open Scope string_scope.
Local Open Scope list_scope.
Local Open Scope nat_scope.

Section S.
Context {p : positive} {E : pairing p}.
Add Ring Fr : (@F_ring p).
Local Notation st := (ptrk E).
Local Notation virt := (list (F p * list nat)).
Implicit Types s : ptrk E.

(** Every product of v is non-empty and made of materialized polynomials in n variables. *)
Definition vok (mat : tmap (arc p)) (n : nat) (v : virt) : Prop :=
  v <> [] /\ forall c pr, In (c, pr) v -> pr <> [] /\ forall i, In i pr -> exists a, mget mat i = Some a /\ nv (snd a) = n.

Record pinv (s : st) : Prop := {
  i_known : forall id, id < pt_next s <-> (mget (pt_mat s) id <> None \/ mget (pt_virt s) id <> None);
  i_disj : forall id a v, mget (pt_mat s) id = Some a -> mget (pt_virt s) id = Some v -> False;
  i_virt : forall id v, mget (pt_virt s) id = Some v -> exists n, vok (pt_mat s) n v;
  i_wf : forall id a, mget (pt_mat s) id = Some a -> wf_mle (snd a) /\ fst a < pt_addr s;
  i_coh : forall i j a b, mget (pt_mat s) i = Some a -> mget (pt_mat s) j = Some b -> fst a = fst b -> snd a = snd b;
  i_comm : forall id c, mget (pt_comm s) id = Some c ->
    exists a, mget (pt_mat s) id = Some a;
  i_nodup : NoDup (map fst (pt_mat s)) /\ NoDup (map fst (pt_virt s)) /\ NoDup (map fst (pt_comm s)) }.

Definition known (s : st) (id n : nat) : Prop :=
  (exists a, mget (pt_mat s) id = Some a /\ nv (snd a) = n) \/
  (exists v, mget (pt_virt s) id = Some v /\ vok (pt_mat s) n v).

Definition mval (mat : tmap (arc p)) (i : nat) (x : list (F p)) : F p :=
  match mget mat i with Some a => value (snd a) x | None => F0 end.
Definition vval (mat : tmap (arc p)) (v : virt) (x : list (F p)) : F p :=
  Fsum (map (fun cp => (fst cp * Fprod (map (fun i => mval mat i x) (snd cp)))%F) v).
Definition pval (s : st) (id : nat) (x : list (F p)) : F p :=
  match mget (pt_mat s) id with
  | Some a => value (snd a) x
  | None => match mget (pt_virt s) id with Some v => vval (pt_mat s) v x | None => F0 end
  end.

(** s' extends s: everything tracked keeps its size and its values, at every point or at hypercube points only. *)
Definition sext (s s' : st) : Prop :=
  pt_pp s' = pt_pp s /\ pt_next s <= pt_next s' /\
  (forall id n, known s id n -> known s' id n /\ forall x, pval s' id x = pval s id x) /\
  (forall id c, mget (pt_comm s) id = Some c -> mget (pt_comm s') id = Some c) /\
  (forall id a, mget (pt_mat s) id = Some a -> mget (pt_mat s') id = Some a).
Definition ext (s s' : st) : Prop :=
  pt_pp s' = pt_pp s /\ pt_next s <= pt_next s' /\
  (forall id n, known s id n -> known s' id n /\ forall k, k < 2 ^ n -> pval s' id (bpoint n k) = pval s id (bpoint n k)) /\
  (forall id c, mget (pt_comm s) id = Some c -> mget (pt_comm s') id = Some c) /\
  (forall id a, mget (pt_mat s) id = Some a -> mget (pt_mat s') id = Some a).

Lemma sext_ext : forall s s', sext s s' -> ext s s'.
Proof.
  intros s s' [H1 [H2 [H3 H4]]]. split; [exact H1|]. split; [exact H2|]. split; [|exact H4].
  intros id n Hk. destruct (H3 id n Hk) as [Hk' Hv]. split; [exact Hk'|]. intros; apply Hv.
Qed.
Lemma sext_refl : forall s, sext s s.
Proof. intros s. repeat split; auto. Qed.
Lemma ext_refl : forall s, ext s s.
Proof. intros s. apply sext_ext, sext_refl. Qed.
Lemma sext_trans : forall a b c, sext a b -> sext b c -> sext a c.
Proof.
  intros a b c [H1 [H2 [H3 [H4 H5]]]] [G1 [G2 [G3 [G4 G5]]]]. split; [congruence|]. split; [lia|]. split; [|auto].
  intros id n Hk. destruct (H3 id n Hk) as [Hb Hv]. destruct (G3 id n Hb) as [Hc Hw]. split; [exact Hc|].
  intros x. rewrite Hw. apply Hv.
Qed.
Lemma ext_trans : forall a b c, ext a b -> ext b c -> ext a c.
Proof.
  intros a b c [H1 [H2 [H3 [H4 H5]]]] [G1 [G2 [G3 [G4 G5]]]]. split; [congruence|]. split; [lia|]. split; [|auto].
  intros id n Hk. destruct (H3 id n Hk) as [Hb Hv]. destruct (G3 id n Hb) as [Hc Hw]. split; [exact Hc|].
  intros k Hlt. rewrite Hw by exact Hlt. apply Hv. exact Hlt.
Qed.

Lemma pinv_new : forall pp : pparam E, pinv (pt_new pp).
Proof.
  intros pp. constructor; simpl; try discriminate.
  - intros id. split; [lia|]. intros [H|H]; exfalso; apply H; reflexivity.
  - repeat split; constructor.
Qed.

Lemma known_lt : forall s id n, pinv s -> known s id n -> id < pt_next s.
Proof.
  intros s id n Hi Hk. apply (i_known s Hi). destruct Hk as [[a [Ha _]]|[v [Hv _]]]; [left|right]; congruence.
Qed.

Lemma vok_nv_unique : forall mat n m v, vok mat n v -> vok mat m v -> n = m.
Proof.
  intros mat n m v [Hne H] [_ G]. destruct v as [|[c pr] v]; [congruence|].
  destruct (H c pr (or_introl eq_refl)) as [Hp Ha]. destruct (G c pr (or_introl eq_refl)) as [_ Hb].
  destruct pr as [|i pr]; [congruence|].
  destruct (Ha i (or_introl eq_refl)) as [a [Ga Gn]]. destruct (Hb i (or_introl eq_refl)) as [b [Gb Gm]]. congruence.
Qed.
Lemma known_unique : forall s id n m, pinv s -> known s id n -> known s id m -> n = m.
Proof.
  intros s id n m Hi [[a [Ha Hn]]|[v [Hv Hn]]] [[b [Hb Hm]]|[w [Hw Hm]]].
  - congruence.
  - exfalso. eapply i_disj; eassumption.
  - exfalso. eapply i_disj; eassumption.
  - assert (v = w) by congruence. subst w. eapply vok_nv_unique; eassumption.
Qed.

Lemma virt_nv_ok : forall s v n, vok (pt_mat s) n v -> virt_nv s v = Ok n.
Proof.
  intros s v n [Hne H]. destruct v as [|[c pr] v]; [congruence|]. destruct (H c pr (or_introl eq_refl)) as [Hp Ha].
  destruct pr as [|i pr]; [congruence|]. destruct (Ha i (or_introl eq_refl)) as [a [Ga Gn]].
  unfold virt_nv. cbn. rewrite Ga. cbn. rewrite Gn. reflexivity.
Qed.
Lemma get_poly_nv_ok : forall s id n, pinv s -> known s id n -> get_poly_nv s id = Ok n.
Proof.
  intros s id n Hi [[a [Ha Hn]]|[v [Hv Hn]]]; unfold get_poly_nv.
  - rewrite Ha, Hn. reflexivity.
  - destruct (mget (pt_mat s) id) as [a|] eqn:Ea; [exfalso; eapply i_disj; eassumption|].
    rewrite Hv. apply virt_nv_ok. exact Hn.
Qed.

(** A polynomial known at all is known with some number of variables. *)
Lemma lt_known : forall s id, pinv s -> id < pt_next s -> exists n, known s id n.
Proof.
  intros s id Hi Hlt. apply (i_known s Hi) in Hlt.
  destruct (mget (pt_mat s) id) as [a|] eqn:Ea; [exists (nv (snd a)); left; exists a; auto|].
  destruct (mget (pt_virt s) id) as [v|] eqn:Ev; [|destruct Hlt; congruence].
  destruct (i_virt s Hi id v Ev) as [n Hn]. exists n. right. exists v. auto.
Qed.

(** *** The representation as a list of products *)
Definition as_virt (s : st) (id : nat) : virt :=
  match mget (pt_mat s) id with Some _ => [(F1, [id])] | None => match mget (pt_virt s) id with Some v => v | None => [] end end.

Lemma as_virt_vok : forall s id n, pinv s -> known s id n -> vok (pt_mat s) n (as_virt s id).
Proof.
  intros s id n Hi [[a [Ha Hn]]|[v [Hv Hn]]]; unfold as_virt.
  - rewrite Ha. split; [discriminate|]. intros c pr [H|[]]. inversion H; subst. split; [discriminate|].
    intros i [<-|[]]. exists a. auto.
  - destruct (mget (pt_mat s) id) as [a|] eqn:Ea; [exfalso; eapply i_disj; eassumption|]. rewrite Hv. exact Hn.
Qed.
Lemma as_virt_val : forall s id n x, known s id n -> vval (pt_mat s) (as_virt s id) x = pval s id x.
Proof.
  intros s id n x Hk. unfold as_virt, pval. destruct (mget (pt_mat s) id) as [a|] eqn:Ea.
  - unfold vval. simpl. unfold mval. rewrite Ea. ring.
  - destruct (mget (pt_virt s) id) as [v|] eqn:Ev; [reflexivity|]. destruct Hk as [[a [Ha _]]|[v [Hv _]]]; congruence.
Qed.
Lemma get_rep_ok : forall s id n, pinv s -> known s id n ->
  get_rep s id = Ok (match mget (pt_mat s) id with Some _ => RMat | None => RVirt (as_virt s id) end).
Proof.
  intros s id n Hi Hk. unfold get_rep, as_virt.
  destruct (mget (pt_mat s) id) as [a|] eqn:Ea; destruct (mget (pt_virt s) id) as [v|] eqn:Ev; try reflexivity.
  - exfalso. eapply i_disj; eassumption.
  - destruct Hk as [[a [Ha _]]|[v [Hv _]]]; congruence.
Qed.

Lemma vval_app : forall mat v w x, vval mat (v ++ w) x = (vval mat v x + vval mat w x)%F.
Proof. intros. unfold vval. rewrite map_app, Fsum_app. reflexivity. Qed.
Lemma vval_scale : forall mat c v x, vval mat (map (fun cp => ((c * fst cp)%F, snd cp)) v) x = (c * vval mat v x)%F.
Proof.
  intros. unfold vval. rewrite map_map. rewrite <- Fsum_map_mul_l. apply Fsum_map_ext. intros cp _. simpl. ring.
Qed.
Lemma vval_scale_r : forall mat c v x, vval mat (map (fun cp => ((fst cp * c)%F, snd cp)) v) x = (vval mat v x * c)%F.
Proof.
  intros. unfold vval. rewrite map_map. rewrite <- Fsum_map_mul_r. apply Fsum_map_ext. intros cp _. simpl. ring.
Qed.
Lemma vval_snoc : forall mat i v x, vval mat (map (fun cp => (fst cp, snd cp ++ [i])) v) x = (vval mat v x * mval mat i x)%F.
Proof.
  intros. unfold vval. rewrite map_map. rewrite <- Fsum_map_mul_r. apply Fsum_map_ext. intros cp _. simpl.
  rewrite map_app, Fprod_app. simpl. ring.
Qed.
Lemma vval_prod : forall mat v w x,
  vval mat (flat_map (fun c1 => map (fun c2 => ((fst c1 * fst c2)%F, snd c1 ++ snd c2)) w) v) x = (vval mat v x * vval mat w x)%F.
Proof.
  intros mat v w x. induction v as [|c1 v IH]; [unfold vval; simpl; ring|]. simpl flat_map. rewrite vval_app, IH.
  replace (vval mat (c1 :: v) x) with (fst c1 * Fprod (map (fun i => mval mat i x) (snd c1)) + vval mat v x)%F by reflexivity.
  replace (vval mat (map (fun c2 => ((fst c1 * fst c2)%F, snd c1 ++ snd c2)) w) x)
    with (fst c1 * Fprod (map (fun i => mval mat i x) (snd c1)) * vval mat w x)%F; [ring|].
  unfold vval. rewrite map_map. rewrite <- Fsum_map_mul_l. apply Fsum_map_ext. intros cp _. simpl.
  rewrite map_app, Fprod_app. ring.
Qed.

Lemma vok_app : forall mat n v w, vok mat n v -> vok mat n w -> vok mat n (v ++ w).
Proof.
  intros mat n v w [Hv Gv] [Hw Gw]. split; [destruct v; [congruence|discriminate]|].
  intros c pr H. apply in_app_or in H. destruct H; [eapply Gv|eapply Gw]; eassumption.
Qed.
Lemma vok_map : forall mat n v (f : F p * list nat -> F p), vok mat n v -> vok mat n (map (fun cp => (f cp, snd cp)) v).
Proof.
  intros mat n v f [Hv Gv]. split; [destruct v; [congruence|discriminate]|].
  intros c pr H. apply in_map_iff in H. destruct H as [[c0 pr0] [H1 H2]]. inversion H1; subst. eapply Gv; eassumption.
Qed.
Lemma vok_snoc : forall mat n v i a, vok mat n v -> mget mat i = Some a -> nv (snd a) = n ->
  vok mat n (map (fun cp => (fst cp, snd cp ++ [i])) v).
Proof.
  intros mat n v i a [Hv Gv] Ha Hn. split; [destruct v; [congruence|discriminate]|].
  intros c pr H. apply in_map_iff in H. destruct H as [[c0 pr0] [H1 H2]]. inversion H1; subst.
  destruct (Gv c pr0 H2) as [Hp Hi]. split; [destruct pr0; discriminate|].
  intros j Hj. apply in_app_or in Hj. destruct Hj as [Hj|[<-|[]]]; [apply Hi; exact Hj|exists a; auto].
Qed.
Lemma vok_prod : forall mat n v w, vok mat n v -> vok mat n w ->
  vok mat n (flat_map (fun c1 => map (fun c2 => ((fst c1 * fst c2)%F, snd c1 ++ snd c2)) w) v).
Proof.
  intros mat n v w [Hv Gv] [Hw Gw]. split.
  - destruct v as [|c1 v]; [congruence|]. destruct w as [|c2 w]; [congruence|]. discriminate.
  - intros c pr H. apply in_flat_map in H. destruct H as [[c1 p1] [H1 H2]]. apply in_map_iff in H2.
    destruct H2 as [[c2 p2] [H2 H3]]. simpl in H2. inversion H2; subst.
    destruct (Gv _ _ H1) as [Np1 I1]. destruct (Gw _ _ H3) as [Np2 I2].
    split; [destruct p1; [congruence|discriminate]|]. intros i Hi. apply in_app_or in Hi. destruct Hi; auto.
Qed.

(** *** Tracking a new polynomial *)
Lemma mval_ext : forall (mat mat' : tmap (arc p)) n v x, vok mat n v ->
  (forall i a, mget mat i = Some a -> mget mat' i = Some a) -> vok mat' n v /\ vval mat' v x = vval mat v x.
Proof.
  intros mat mat' n v x [Hv Gv] Hm. split.
  - split; [exact Hv|]. intros c pr H. destruct (Gv c pr H) as [Hp Hi]. split; [exact Hp|].
    intros i Hin. destruct (Hi i Hin) as [a [Ha Hn]]. exists a. auto.
  - unfold vval. apply Fsum_map_ext. intros [c pr] H. simpl. f_equal. apply Fprod_map_ext. intros i Hi.
    destruct (Gv c pr H) as [_ G]. destruct (G i Hi) as [a [Ha _]]. unfold mval. rewrite Ha, (Hm _ _ Ha). reflexivity.
Qed.

(** A state that only gained materialized and virtual entries at fresh ids. *)
Lemma grow_sext : forall s s', pinv s -> pt_pp s' = pt_pp s -> pt_next s <= pt_next s' ->
  (forall i a, mget (pt_mat s) i = Some a -> mget (pt_mat s') i = Some a) ->
  (forall i, i < pt_next s -> mget (pt_mat s) i = None -> mget (pt_mat s') i = None) ->
  (forall i v, mget (pt_virt s) i = Some v -> mget (pt_virt s') i = Some v) ->
  (forall id c, mget (pt_comm s) id = Some c -> mget (pt_comm s') id = Some c) -> sext s s'.
Proof.
  intros s s' Hi Hpp Hn Hm Hm0 Hv Hc. split; [exact Hpp|]. split; [exact Hn|]. split; [|split; assumption].
  intros id n Hk. pose proof (known_lt s id n Hi Hk) as Hlt.
  destruct Hk as [[a [Ha Hna]]|[v [Ev Hok]]].
  - split; [left; exists a; auto|]. intros x. unfold pval. rewrite Ha, (Hm _ _ Ha). reflexivity.
  - split.
    + right. exists v. split; [apply Hv; exact Ev|]. apply (mval_ext _ _ n v [] Hok Hm).
    + intros x. unfold pval. destruct (mget (pt_mat s) id) as [a|] eqn:Ea; [exfalso; eapply i_disj; eassumption|].
      rewrite (Hm0 _ Hlt Ea), Ev, (Hv _ _ Ev). apply (mval_ext _ _ n v x Hok Hm).
Qed.

Definition same_claims (s s' : st) : Prop := pt_sc s' = pt_sc s /\ pt_zc s' = pt_zc s.

Lemma fresh_none : forall s id, pinv s -> pt_next s <= id -> mget (pt_mat s) id = None /\ mget (pt_virt s) id = None.
Proof.
  intros s id Hi Hle. pose proof (i_known s Hi id) as [_ H].
  destruct (mget (pt_mat s) id) eqn:E1; [assert (id < pt_next s) by (apply H; left; discriminate); lia|].
  destruct (mget (pt_virt s) id) eqn:E2; [assert (id < pt_next s) by (apply H; right; discriminate); lia|]. auto.
Qed.

Lemma track_virt_spec : forall s v n, pinv s -> vok (pt_mat s) n v ->
  exists s', track_virt_poly s v = (pt_next s, s') /\ pinv s' /\ sext s s' /\ same_claims s s' /\ pt_tr s' = pt_tr s /\
    pt_next s' = S (pt_next s) /\ pt_comm s' = pt_comm s /\ pt_mat s' = pt_mat s /\
    mget (pt_virt s') (pt_next s) = Some v /\
    known s' (pt_next s) n /\ forall x, pval s' (pt_next s) x = vval (pt_mat s) v x.
Proof.
  intros s v n Hi Hok. exists (mkPtrk (pt_pp s) (pt_tr s) (S (pt_next s)) (pt_mat s) (mput (pt_virt s) (pt_next s) v) (pt_comm s) (pt_sc s) (pt_zc s) (pt_addr s)). split; [reflexivity|].
  destruct (fresh_none s (pt_next s) Hi (le_n _)) as [Fm Fv].
  set (s' := mkPtrk _ _ _ _ _ _ _ _ _).
  assert (Hv' : forall i w, mget (pt_virt s) i = Some w -> mget (pt_virt s') i = Some w).
  { intros i w Hw. unfold s'. simpl. rewrite mget_mput_other; [exact Hw|]. intros Hx. congruence. }
  assert (Hnew : mget (pt_virt s') (pt_next s) = Some v) by (unfold s'; simpl; apply mget_mput_same).
  assert (Hpi : pinv s').
  { destruct Hi. constructor; unfold s'; simpl; try assumption.
    - intros id. rewrite mget_mput. destruct (Nat.eqb_spec (pt_next s) id) as [<-|Hne].
      + split; [intros _; right; discriminate|lia].
      + rewrite <- i_known0. lia.
    - intros id a w Ha Hw. rewrite mget_mput in Hw. destruct (Nat.eqb_spec (pt_next s) id) as [<-|Hne]; [congruence|].
      eapply i_disj0; eassumption.
    - intros id w Hw. rewrite mget_mput in Hw. destruct (Nat.eqb_spec (pt_next s) id) as [<-|Hne].
      + inversion Hw; subst. exists n. exact Hok.
      + eapply i_virt0; eassumption.
    - destruct i_nodup0 as [N1 [N2 N3]]. split; [exact N1|]. split; [|exact N3]. exact (mput_nodup (pt_virt s) (pt_next s) v N2). }
  split; [exact Hpi|]. split.
  { apply grow_sext; unfold s'; simpl; auto. }
  split; [split; reflexivity|]. split; [reflexivity|]. split; [reflexivity|]. split; [reflexivity|]. split; [reflexivity|].
  split; [exact Hnew|]. split; [right; exists v; auto|].
  intros x. unfold pval. rewrite Hnew. unfold s'. simpl. rewrite Fm. reflexivity.
Qed.

(** Tracking a table under a fresh id, given an Arc that is fresh or already live. *)
Lemma track_arc_spec : forall s a, pinv s -> wf_mle (snd a) -> fst a < pt_addr s ->
  (forall j b, mget (pt_mat s) j = Some b -> fst b = fst a -> snd b = snd a) ->
  exists s', track_mat_arc_poly s a = (pt_next s, s') /\ pinv s' /\ sext s s' /\ same_claims s s' /\ pt_tr s' = pt_tr s /\
    pt_next s' = S (pt_next s) /\ pt_comm s' = pt_comm s /\ pt_addr s' = pt_addr s /\
    mget (pt_mat s') (pt_next s) = Some a /\
    known s' (pt_next s) (nv (snd a)) /\ forall x, pval s' (pt_next s) x = value (snd a) x.
Proof.
  intros s a Hi Hw Hlt Hcoh. exists (mkPtrk (pt_pp s) (pt_tr s) (S (pt_next s)) (mput (pt_mat s) (pt_next s) a) (pt_virt s) (pt_comm s) (pt_sc s) (pt_zc s) (pt_addr s)). split; [reflexivity|].
  destruct (fresh_none s (pt_next s) Hi (le_n _)) as [Fm Fv].
  set (s' := mkPtrk _ _ _ _ _ _ _ _ _).
  assert (Hm' : forall i b, mget (pt_mat s) i = Some b -> mget (pt_mat s') i = Some b).
  { intros i b Hb. unfold s'. simpl. rewrite mget_mput_other; [exact Hb|]. intros Hx. congruence. }
  assert (Hnew : mget (pt_mat s') (pt_next s) = Some a) by (unfold s'; simpl; apply mget_mput_same).
  assert (Hpi : pinv s').
  { destruct Hi. constructor; unfold s'; simpl.
    - intros id. rewrite mget_mput. destruct (Nat.eqb_spec (pt_next s) id) as [<-|Hne].
      + split; [intros _; left; discriminate|lia].
      + rewrite <- i_known0. lia.
    - intros id b w Hb Hv. rewrite mget_mput in Hb. destruct (Nat.eqb_spec (pt_next s) id) as [<-|Hne]; [congruence|].
      eapply i_disj0; eassumption.
    - intros id w Hv. destruct (i_virt0 id w Hv) as [n Hn]. exists n.
      apply (mval_ext (pt_mat s) (pt_mat s') n w [] Hn Hm').
    - intros id b Hb. rewrite mget_mput in Hb. destruct (Nat.eqb_spec (pt_next s) id) as [<-|Hne].
      + inversion Hb; subst. auto.
      + eapply i_wf0; eassumption.
    - intros i j b c Hb Hc Hf. rewrite mget_mput in Hb, Hc.
      destruct (Nat.eqb_spec (pt_next s) i) as [<-|Hne]; destruct (Nat.eqb_spec (pt_next s) j) as [Ej|Hne'].
      + congruence.
      + inversion Hb; subst. symmetry. eapply Hcoh; [eassumption|]. symmetry. exact Hf.
      + inversion Hc; subst. eapply Hcoh; eassumption.
      + eapply i_coh0; eassumption.
    - intros id c Hc. destruct (i_comm0 id c Hc) as [b Hb]. exists b. apply (Hm' id b Hb).
    - destruct i_nodup0 as [N1 [N2 N3]]. split; [|split; assumption]. exact (mput_nodup (pt_mat s) (pt_next s) a N1). }
  split; [exact Hpi|]. split.
  { apply grow_sext; unfold s'; simpl; auto.
    intros i Hi' Hn. rewrite mget_mput_other; [exact Hn|lia]. }
  split; [split; reflexivity|]. split; [reflexivity|]. split; [reflexivity|]. split; [reflexivity|]. split; [reflexivity|].
  split; [exact Hnew|]. split; [left; exists a; auto|].
  intros x. unfold pval. rewrite Hnew. reflexivity.
Qed.

Lemma new_arc_inv : forall s m, pinv s -> pinv (snd (new_arc s m)) /\ sext s (snd (new_arc s m)) /\
  (forall j b, mget (pt_mat s) j = Some b -> fst b <> pt_addr s).
Proof.
  intros s m Hi. split; [|split].
  - destruct Hi. constructor; simpl; try assumption. intros id a Ha. destruct (i_wf0 id a Ha). split; [assumption|lia].
  - apply grow_sext; simpl; auto.
  - intros j b Hb. destruct (i_wf s Hi j b Hb). lia.
Qed.

Lemma track_mat_spec : forall s m, pinv s -> wf_mle m ->
  exists s', track_mat_poly s m = (pt_next s, s') /\ pinv s' /\ sext s s' /\ same_claims s s' /\ pt_tr s' = pt_tr s /\
    pt_next s' = S (pt_next s) /\ pt_comm s' = pt_comm s /\
    mget (pt_mat s') (pt_next s) = Some (pt_addr s, m) /\
    known s' (pt_next s) (nv m) /\ forall x, pval s' (pt_next s) x = value m x.
Proof.
  intros s m Hi Hw. destruct (new_arc_inv s m Hi) as [Hi1 [Hs1 Hfr]].
  destruct (track_arc_spec (snd (new_arc s m)) (pt_addr s, m) Hi1 Hw) as [s' [H1 [H2 [H3 [H4 [H5 [H6 [H7 [H8 [H9 [H10 H11]]]]]]]]]]].
  { simpl. lia. }
  { intros j b Hb Hf. simpl in Hb, Hf. exfalso. eapply Hfr; eassumption. }
  exists s'. split; [exact H1|]. split; [exact H2|]. split; [eapply sext_trans; [exact Hs1|exact H3]|].
  split; [exact H4|]. split; [exact H5|]. split; [exact H6|]. split; [exact H7|]. split; [exact H9|]. split; [exact H10|exact H11].
Qed.

Lemma track_commit_spec : forall s m c, pinv s -> wf_mle m -> kzg_commit (pt_pp s) m = Ok c ->
  exists s', track_and_commit_mat_poly s m = Ok (pt_next s, s') /\ pinv s' /\ sext s s' /\ same_claims s s' /\
    pt_tr s' = append "comm" (PComm c) (pt_tr s) /\
    pt_next s' = S (pt_next s) /\ pt_comm s' = mput (pt_comm s) (pt_next s) c /\
    mget (pt_mat s') (pt_next s) = Some (pt_addr s, m) /\
    known s' (pt_next s) (nv m) /\ forall x, pval s' (pt_next s) x = value m x.
Proof.
  intros s m c Hi Hw Hc. unfold track_and_commit_mat_poly. rewrite Hc. cbn [bind].
  destruct (track_mat_spec s m Hi Hw) as [s1 [H1 [H2 [H3 [H4 [H5 [H6 [H7 [H8 [H9 H10]]]]]]]]]].
  rewrite H1. eexists. split; [reflexivity|].
  assert (Hpp : pt_pp s1 = pt_pp s) by apply H3.
  assert (Hnk : mget (pt_comm s) (pt_next s) = None).
  { destruct (mget (pt_comm s) (pt_next s)) as [c0|] eqn:Ec; [|reflexivity].
    destruct (i_comm s Hi _ _ Ec) as [a Ha]. destruct (fresh_none s (pt_next s) Hi (le_n _)). congruence. }
  split; [|split; [|split; [|split; [|split; [|split; [|split; [|split]]]]]]].
  - destruct H2. constructor; simpl; try assumption.
    + intros id c0 Hid. rewrite mget_mput in Hid. destruct (Nat.eqb_spec (pt_next s) id) as [<-|Hne].
      * eexists. eassumption.
      * eapply i_comm0; eassumption.
    + destruct i_nodup0 as [N1 [N2 N3]]. split; [exact N1|]. split; [exact N2|]. exact (mput_nodup (pt_comm s1) (pt_next s) c N3).
  - eapply sext_trans; [exact H3|]. apply grow_sext; simpl; auto. intros id c0 Hid. rewrite mget_mput.
    destruct (Nat.eqb_spec (pt_next s) id) as [<-|]; [|exact Hid]. rewrite H7, Hnk in Hid. discriminate.
  - exact H4.
  - simpl. rewrite H5. reflexivity.
  - exact H6.
  - simpl. rewrite H7. reflexivity.
  - exact H8.
  - exact H9.
  - exact H10.
Qed.

(** *** Arithmetic *)
Definition fresh_spec (s : st) (r : res (nat * st)) (n : nat) (f : list (F p) -> F p) : Prop :=
  exists s', r = Ok (pt_next s, s') /\ pinv s' /\ sext s s' /\ same_claims s s' /\ pt_tr s' = pt_tr s /\ pt_comm s' = pt_comm s /\
    pt_next s' = S (pt_next s) /\ known s' (pt_next s) n /\ (forall x, pval s' (pt_next s) x = f x).

Lemma track_virt_fresh : forall s v n f, pinv s -> vok (pt_mat s) n v -> (forall x, vval (pt_mat s) v x = f x) ->
  fresh_spec s (Ok (track_virt_poly s v)) n f.
Proof.
  intros s v n f Hi Hok Hf.
  destruct (track_virt_spec s v n Hi Hok) as [s' [H1 [H2 [H3 [H4 [H5 [H6 [H7 [H8 [H9 [H10 H11]]]]]]]]]]].
  exists s'. rewrite H1. split; [reflexivity|]. split; [exact H2|]. split; [exact H3|]. split; [exact H4|]. split; [exact H5|].
  split; [exact H7|]. split; [exact H6|]. split; [exact H10|]. intros x. rewrite H11. apply Hf.
Qed.

Lemma add_sub_spec : forall s i j n sub, pinv s -> known s i n -> known s j n ->
  fresh_spec s (add_sub_polys s i j sub) n (fun x => if sub : bool then pval s i x - pval s j x else pval s i x + pval s j x)%F.
Proof.
  intros s i j n sub Hi Ki Kj. unfold add_sub_polys. rewrite (get_rep_ok s i n Hi Ki), (get_rep_ok s j n Hi Kj). cbn [bind].
  pose proof (as_virt_vok s i n Hi Ki) as Vi. pose proof (as_virt_vok s j n Hi Kj) as Vj.
  assert (Hw : vok (pt_mat s) n (as_virt s i ++ map (fun cp => (((if sub then (- F1)%F else F1) * fst cp)%F, snd cp)) (as_virt s j))).
  { apply vok_app; [exact Vi|]. apply (vok_map _ _ _ (fun cp => ((if sub then (- F1)%F else F1) * fst cp)%F)). exact Vj. }
  set (f := fun x : list (F p) => _).
  assert (Hf : forall x, vval (pt_mat s) (as_virt s i ++ map (fun cp => (((if sub then (- F1)%F else F1) * fst cp)%F, snd cp)) (as_virt s j)) x = f x).
  { intros x. rewrite vval_app, vval_scale, (as_virt_val s i n x Ki), (as_virt_val s j n x Kj). unfold f. destruct sub; ring. }
  pose proof (track_virt_fresh s _ n f Hi Hw Hf) as G.
  unfold as_virt in G |- *. destruct (mget (pt_mat s) i); destruct (mget (pt_mat s) j); cbn [map fst snd app] in G |- *; try exact G;
  replace ((if sub then (- F1)%F else F1) * F1)%F with (if sub then (- F1)%F else F1 : F p) in G by (destruct sub; ring); exact G.
Qed.

Lemma mul_spec : forall s i j n, pinv s -> known s i n -> known s j n ->
  fresh_spec s (mul_polys s i j) n (fun x => pval s i x * pval s j x)%F.
Proof.
  intros s i j n Hi Ki Kj. unfold mul_polys. rewrite (get_rep_ok s i n Hi Ki), (get_rep_ok s j n Hi Kj). cbn [bind].
  pose proof (as_virt_vok s i n Hi Ki) as Vi. pose proof (as_virt_vok s j n Hi Kj) as Vj.
  pose proof (fun x => as_virt_val s i n x Ki) as Ei. pose proof (fun x => as_virt_val s j n x Kj) as Ej.
  assert (Mi : forall a, mget (pt_mat s) i = Some a -> nv (snd a) = n).
  { intros a Ha. apply (known_unique s i); [exact Hi|left; exists a; auto|exact Ki]. }
  assert (Mj : forall a, mget (pt_mat s) j = Some a -> nv (snd a) = n).
  { intros a Ha. apply (known_unique s j); [exact Hi|left; exists a; auto|exact Kj]. }
  destruct (mget (pt_mat s) i) as [a|] eqn:Ea; destruct (mget (pt_mat s) j) as [b|] eqn:Eb; apply track_virt_fresh; try exact Hi.
  - split; [discriminate|]. intros c pr [H|[]]. inversion H; subst. split; [discriminate|].
    intros k [<-|[<-|[]]]; [exists a|exists b]; auto.
  - intros x. unfold vval, mval, pval. simpl. rewrite Ea, Eb. ring.
  - apply (vok_snoc _ _ _ _ a); auto.
  - intros x. rewrite vval_snoc, Ej. unfold mval, pval. rewrite Ea. ring.
  - apply (vok_snoc _ _ _ _ b); auto.
  - intros x. rewrite vval_snoc, Ei. unfold mval, pval. rewrite Eb. ring.
  - apply vok_prod; assumption.
  - intros x. rewrite vval_prod, Ei, Ej. reflexivity.
Qed.

Lemma mul_scalar_spec : forall s i n c, pinv s -> known s i n ->
  fresh_spec s (mul_scalar s i c) n (fun x => pval s i x * c)%F.
Proof.
  intros s i n c Hi Ki. unfold mul_scalar.
  pose proof (as_virt_vok s i n Hi Ki) as Vi. pose proof (fun x => as_virt_val s i n x Ki) as Ei.
  unfold as_virt in Vi, Ei. destruct (mget (pt_mat s) i) as [a|] eqn:Ea.
  - apply track_virt_fresh; [exact Hi| |].
    + apply (vok_map _ _ _ (fun _ => c)) in Vi. exact Vi.
    + intros x. rewrite <- Ei. unfold vval. simpl. ring.
  - destruct (mget (pt_virt s) i) as [v|] eqn:Ev; [|destruct Vi; congruence]. cbn [ounwrap bind].
    apply track_virt_fresh; [exact Hi| |].
    + apply (vok_map _ _ _ (fun cp => (fst cp * c)%F)). exact Vi.
    + intros x. rewrite vval_scale_r, Ei. reflexivity.
Qed.

Lemma tab_repeat : forall (c : F p) n k, k < n -> tab (repeat c n) k = c.
Proof. intros c n k H. unfold tab. revert k H. induction n as [|n IH]; intros [|k] H; simpl; try lia; [reflexivity|]. apply IH. lia. Qed.

Lemma const_value : forall n (c : F p) x, length x = n -> value (mkMle n (repeat c (2 ^ n))) x = c.
Proof.
  intros n c x Hx. unfold value. simpl. etransitivity; [|apply (mle_ext_const n c x Hx)]. apply mle_ext_ext.
  intros k Hk. apply tab_repeat. exact Hk.
Qed.

Lemma add_scalar_spec : forall s i n c, pinv s -> known s i n ->
  exists s', add_scalar s i c = Ok (S (pt_next s), s') /\ pinv s' /\ sext s s' /\ same_claims s s' /\ pt_tr s' = pt_tr s /\
    pt_comm s' = pt_comm s /\ pt_next s' = S (S (pt_next s)) /\ known s' (S (pt_next s)) n /\
    (forall x, length x = n -> pval s' (S (pt_next s)) x = pval s i x + c)%F.
Proof.
  intros s i n c Hi Ki. unfold add_scalar. rewrite (get_poly_nv_ok s i n Hi Ki). cbn [bind].
  rewrite from_evaluations_ok by apply repeat_length. cbn [bind].
  destruct (track_mat_spec s (mkMle n (repeat c (2 ^ n))) Hi) as [s1 [H1 [H2 [H3 [H4 [H5 [H6 [H7 [H8 [H9 H10]]]]]]]]]].
  { unfold wf_mle. simpl. apply repeat_length. }
  rewrite H1. pose proof H3 as H3'. destruct H3' as [G1 [G2 [G3 G4]]]. destruct (G3 i n Ki) as [Ki1 Vi1].
  destruct (add_sub_spec s1 i (pt_next s) n false H2 Ki1 H9) as [s2 [L1 [L2 [L3 [L4 [L5 [L6 [L7 [L8 L9]]]]]]]]].
  unfold add_polys. rewrite H6 in L1, L7, L8, L9. exists s2. split; [exact L1|]. split; [exact L2|].
  split; [eapply sext_trans; eassumption|]. split; [destruct H4, L4; split; congruence|]. split; [congruence|].
  split; [congruence|]. split; [exact L7|]. split; [exact L8|].
  intros x Hx. rewrite L9, Vi1, H10, const_value by exact Hx. reflexivity.
Qed.

(** *** Materialisation *)
Lemma zipw_length : forall f (a b : list (F p)), length (zipw f a b) = Nat.min (length a) (length b).
Proof. intros. unfold zipw. rewrite map_length, combine_length. reflexivity. Qed.
Lemma zipw_nth : forall f (a b : list (F p)) k, k < length a -> k < length b -> tab (zipw f a b) k = f (tab a k) (tab b k).
Proof.
  intros f a. unfold zipw, tab. induction a as [|x a IH]; intros [|y b] [|k] Ha Hb; simpl in *; try lia; [reflexivity|].
  apply IH; lia.
Qed.

Lemma prod_loop_ok : forall (fuel : nat) s n pr (r0 : list (F p)), pinv s -> length r0 = 2 ^ n ->
  (forall i, In i pr -> exists a, mget (pt_mat s) i = Some a /\ nv (snd a) = n) ->
  exists r, foldM (fun (rs : list (F p) * st) (i : nat) =>
              s3 <- materialize_loop fuel (snd rs) i ;;
              a <- ounwrap (mget (pt_mat s3) i) ;;
              Ok (zipw Fmul (fst rs) (evs (snd a)), s3)) (r0, s) pr = Ok (r, s) /\
    length r = 2 ^ n /\ forall k, k < 2 ^ n -> tab r k = (tab r0 k * Fprod (map (fun i => mval (pt_mat s) i (bpoint n k)) pr))%F.
Proof.
  intros fuel s n pr. induction pr as [|i pr IH]; intros r0 Hi Hl Hin.
  - exists r0. split; [reflexivity|]. split; [exact Hl|]. intros k Hk. simpl. ring.
  - destruct (Hin i (or_introl eq_refl)) as [a [Ha Hn]].
    assert (La : length (evs (snd a)) = 2 ^ n) by (rewrite <- Hn; apply (i_wf s Hi _ _ Ha)).
    assert (Em : materialize_loop fuel s i = Ok s) by (destruct fuel; simpl; rewrite Ha; reflexivity).
    cbn [foldM fst snd]. rewrite Em. cbn [bind]. rewrite Ha. cbn [ounwrap bind].
    destruct (IH (zipw Fmul r0 (evs (snd a))) Hi) as [r [H1 [H2 H3]]].
    { rewrite zipw_length, Hl, La. apply Nat.min_id. }
    { intros j Hj. apply Hin. right. exact Hj. }
    exists r. split; [exact H1|]. split; [exact H2|]. intros k Hk. rewrite H3 by exact Hk.
    rewrite zipw_nth by lia. simpl. unfold mval at 2. rewrite Ha. unfold value. rewrite Hn, mle_ext_bpoint by exact Hk. ring.
Qed.

Lemma prods_loop_ok : forall (fuel : nat) s n v acc, pinv s ->
  (forall c pr, In (c, pr) v -> forall i, In i pr -> exists a, mget (pt_mat s) i = Some a /\ nv (snd a) = n) ->
  exists ps, foldM (fun (acc : list (list (F p)) * st) (cp : F p * list nat) =>
            ' (r, s2) <- foldM (fun (rs : list (F p) * st) (i : nat) =>
              s3 <- materialize_loop fuel (snd rs) i ;;
              a <- ounwrap (mget (pt_mat s3) i) ;;
              Ok (zipw Fmul (fst rs) (evs (snd a)), s3)) (repeat (fst cp) (2 ^ n), snd acc) (snd cp) ;;
            Ok (fst acc ++ [r], s2)) (acc, s) v = Ok (acc ++ ps, s) /\
    length ps = length v /\
    (forall q, In q ps -> length q = 2 ^ n) /\
    forall k, k < 2 ^ n -> Fsum (map (fun q => tab q k) ps) = vval (pt_mat s) v (bpoint n k).
Proof.
  intros fuel s n v. induction v as [|[c pr] v IH]; intros acc Hi Hin.
  - exists []. rewrite app_nil_r. split; [reflexivity|]. split; [reflexivity|]. split; [intros q []|]. intros k Hk. reflexivity.
  - cbn [foldM fst snd].
    destruct (prod_loop_ok fuel s n pr (repeat c (2 ^ n)) Hi (repeat_length _ _)) as [r [H1 [H2 H3]]].
    { intros i Hi'. eapply Hin; [left; reflexivity|exact Hi']. }
    rewrite H1. cbn [bind].
    destruct (IH (acc ++ [r]) Hi) as [ps [G1 [G2 [G3 G4]]]].
    { intros c' pr' Hc i Hi'. eapply Hin; [right; exact Hc|exact Hi']. }
    exists (r :: ps). rewrite G1, <- app_assoc. split; [reflexivity|]. split; [simpl; congruence|].
    split; [intros q [<-|Hq]; [exact H2|apply G3; exact Hq]|].
    intros k Hk. cbn [map]. rewrite Fsum_cons, (G4 k Hk), H3, tab_repeat by exact Hk. reflexivity.
Qed.

Lemma sum_loop_ok : forall ps (e : list (F p)) N, length e = N -> (forall q, In q ps -> length q = N) ->
  length (fold_left (fun e q => zipw Fadd e q) ps e) = N /\
  forall k, k < N -> tab (fold_left (fun e q => zipw Fadd e q) ps e) k = (tab e k + Fsum (map (fun q => tab q k) ps))%F.
Proof.
  induction ps as [|q ps IH]; intros e N He Hq.
  - split; [exact He|]. intros k Hk. simpl. ring.
  - cbn [fold_left]. destruct (IH (zipw Fadd e q) N) as [H1 H2].
    { rewrite zipw_length, He, (Hq q) by (left; reflexivity). apply Nat.min_id. }
    { intros q' Hq'. apply Hq. right. exact Hq'. }
    split; [exact H1|]. intros k Hk. rewrite H2 by exact Hk. rewrite zipw_nth; [cbn [map]; rewrite Fsum_cons; ring|lia|].
    rewrite (Hq q) by (left; reflexivity). exact Hk.
Qed.

(** The hypercube values of a tracked polynomial, as a vector. *)
Definition ptab (s : st) (id n : nat) : list (F p) := map (fun k => pval s id (bpoint n k)) (seq 0 (2 ^ n)).
Lemma ptab_length : forall s id n, length (ptab s id n) = 2 ^ n.
Proof. intros. unfold ptab. rewrite map_length, seq_length. reflexivity. Qed.
Lemma ptab_tab : forall s id n k, k < 2 ^ n -> tab (ptab s id n) k = pval s id (bpoint n k).
Proof. intros s id n k Hk. unfold tab, ptab. rewrite (nth_map_seq (fun k => pval s id (bpoint n k))) by exact Hk. reflexivity. Qed.
Lemma ptab_ext : forall s s' id n, known s id n -> ext s s' -> ptab s' id n = ptab s id n.
Proof.
  intros s s' id n Hk [_ [_ [H _]]]. unfold ptab. apply map_ext_in. intros k Hin. apply in_seq in Hin.
  apply (H id n Hk). lia.
Qed.
Lemma ptab_mat : forall s id a, pinv s -> mget (pt_mat s) id = Some a -> ptab s id (nv (snd a)) = evs (snd a).
Proof.
  intros s id a Hi Ha. destruct (i_wf s Hi _ _ Ha) as [Hw _]. apply (list_eq_nth F0).
  - rewrite ptab_length. symmetry. exact Hw.
  - intros k Hk. rewrite ptab_length in Hk. change (nth k (ptab s id (nv (snd a))) F0) with (tab (ptab s id (nv (snd a))) k).
    rewrite ptab_tab by exact Hk. unfold pval. rewrite Ha. unfold value. exact (mle_ext_bpoint _ (tab (evs (snd a))) k Hk).
Qed.

(** What stays the same under materialisation. *)
Definition quiet (s s' : st) : Prop :=
  pt_pp s' = pt_pp s /\ pt_tr s' = pt_tr s /\ pt_next s' = pt_next s /\ pt_comm s' = pt_comm s /\ same_claims s s'.

Lemma materialize_spec : forall s id n, pinv s -> known s id n ->
  exists s' a, materialize_poly s id = Ok s' /\ pinv s' /\ ext s s' /\ quiet s s' /\
    mget (pt_mat s') id = Some a /\ nv (snd a) = n /\ evs (snd a) = ptab s id n /\
    (forall j m, j <> id -> known s j m -> known s' j m /\ forall x, pval s' j x = pval s j x) /\
    ((exists b, mget (pt_mat s) id = Some b) -> s' = s).
Proof.
  intros s id n Hi Hk. unfold materialize_poly. cbn [materialize_loop].
  destruct (mget (pt_mat s) id) as [a|] eqn:Ea.
  - assert (Hn : nv (snd a) = n) by (apply (known_unique s id); [exact Hi|left; exists a; auto|exact Hk]).
    exists s, a. split; [reflexivity|]. split; [exact Hi|]. split; [apply ext_refl|]. split; [repeat split; reflexivity|].
    split; [exact Ea|]. split; [exact Hn|]. split; [symmetry; rewrite <- Hn; apply ptab_mat; assumption|].
    split; [intros; split; auto|]. auto.
  - destruct Hk as [[a [Ha _]]|[v [Ev Hok]]]; [congruence|]. rewrite Ev. cbn [ounwrap bind].
    rewrite (virt_nv_ok s v n Hok). cbn [bind]. destruct Hok as [Hne Hok].
    destruct (prods_loop_ok (length (pt_virt s)) s n v [] Hi) as [ps [H1 [H2 [H3 H4]]]].
    { intros c pr Hc. apply (Hok c pr Hc). }
    rewrite H1. cbn [bind app].
    destruct (sum_loop_ok ps (repeat F0 (2 ^ n)) (2 ^ n) (repeat_length _ _) H3) as [G1 G2].
    set (ev := fold_left (fun e q => zipw Fadd e q) ps (repeat F0 (2 ^ n))) in *.
    rewrite from_evaluations_ok by exact G1. cbn [bind].
    assert (Hev : ev = ptab s id n).
    { apply (list_eq_nth F0); [rewrite ptab_length; exact G1|]. intros k Hk. rewrite G1 in Hk.
      change (tab ev k = tab (ptab s id n) k). rewrite G2, ptab_tab, tab_repeat, H4 by exact Hk. unfold pval. rewrite Ea, Ev. ring. }
    unfold new_arc, put_mat. cbn.
    set (s' := mkPtrk _ _ _ _ _ _ _ _ _).
    exists s', (pt_addr s, mkMle n ev). split; [reflexivity|].
    assert (Hwf : forall j b, mget (pt_mat s) j = Some b -> fst b <> pt_addr s) by (intros j b Hb; destruct (i_wf s Hi j b Hb); lia).
    assert (Hm : forall i b, mget (pt_mat s) i = Some b -> mget (pt_mat s') i = Some b).
    { intros i b Hb. unfold s'. simpl. rewrite mget_mput_other; [exact Hb|]. intros Hx. congruence. }
    assert (Hnew : mget (pt_mat s') id = Some (pt_addr s, mkMle n ev)) by (unfold s'; simpl; apply mget_mput_same).
    assert (Hoth : forall j m, j <> id -> known s j m -> known s' j m /\ forall x, pval s' j x = pval s j x).
    { intros j m Hj Kj. destruct Kj as [[b [Hb Hnb]]|[w [Ew Hw]]].
      - split; [left; exists b; auto|]. intros x. unfold pval. rewrite Hb, (Hm _ _ Hb). reflexivity.
      - assert (Ew' : mget (pt_virt s') j = Some w) by (unfold s'; simpl; rewrite mget_mdel_other by congruence; exact Ew).
        split.
        + right. exists w. split; [exact Ew'|]. apply (mval_ext _ _ m w [] Hw Hm).
        + intros x. unfold pval. rewrite Ew', Ew.
          replace (mget (pt_mat s') j) with (mget (pt_mat s) j) by (unfold s'; simpl; rewrite mget_mput_other by congruence; reflexivity).
          destruct (mget (pt_mat s) j) eqn:Ej; [exfalso; eapply i_disj; eassumption|]. apply (mval_ext _ _ m w x Hw Hm). }
    split; [|split; [|split; [|split; [|split; [|split; [|split]]]]]].
    + pose proof Hi as Hi0. destruct Hi0. constructor; unfold s'; simpl.
      * intros j. rewrite mget_mput, mget_mdel, i_known0. destruct (Nat.eqb_spec id j) as [->|Hj]; [|reflexivity].
        split; [intros _; left; discriminate|intros _; right; congruence].
      * intros j b w Hb Hw. rewrite mget_mput in Hb. rewrite mget_mdel in Hw.
        destruct (Nat.eqb_spec id j) as [->|Hj]; [discriminate|]. eapply i_disj0; eassumption.
      * intros j w Hw. rewrite mget_mdel in Hw. destruct (Nat.eqb_spec id j) as [->|Hj]; [discriminate|].
        destruct (i_virt0 j w Hw) as [m Hm']. exists m. apply (mval_ext (pt_mat s) (pt_mat s') m w [] Hm' Hm).
      * intros j b Hb. rewrite mget_mput in Hb. destruct (Nat.eqb_spec id j) as [->|Hj].
        -- inversion Hb; subst. simpl. split; [exact G1|lia].
        -- destruct (i_wf0 j b Hb). split; [assumption|lia].
      * intros i j b c Hb Hc Hf. rewrite mget_mput in Hb, Hc.
        destruct (Nat.eqb_spec id i) as [Ei|Ei]; destruct (Nat.eqb_spec id j) as [Ej|Ej].
        -- congruence.
        -- inversion Hb; subst b. exfalso. apply (Hwf _ _ Hc). symmetry. exact Hf.
        -- inversion Hc; subst c. exfalso. apply (Hwf _ _ Hb). exact Hf.
        -- eapply i_coh0; eassumption.
      * intros j c Hc. destruct (i_comm0 j c Hc) as [b Hb]. exists b. apply (Hm j b Hb).
      * destruct i_nodup0 as [N1 [N2 N3]]. split; [exact (mput_nodup (pt_mat s) id (pt_addr s, mkMle n ev) N1)|]. split; [apply mdel_nodup; exact N2|exact N3].
    + split; [reflexivity|]. split; [unfold s'; simpl; lia|]. split; [|split; [unfold s'; simpl; auto|exact Hm]].
      intros j m Kj. destruct (Nat.eq_dec j id) as [->|Hj].
      * assert (m = n) by (apply (known_unique s id); [exact Hi|exact Kj|right; exists v; split; [exact Ev|split; assumption]]). subst m.
        split; [left; exists (pt_addr s, mkMle n ev); auto|]. intros k Hk. unfold pval at 1. rewrite Hnew. unfold value. simpl.
        rewrite mle_ext_bpoint by exact Hk. rewrite Hev. apply ptab_tab. exact Hk.
      * destruct (Hoth j m Hj Kj) as [K' V']. split; [exact K'|]. intros; apply V'.
    + repeat split; reflexivity.
    + exact Hnew.
    + reflexivity.
    + exact Hev.
    + exact Hoth.
    + intros [b Hb]. discriminate.
Qed.

Lemma evaluations_spec : forall s id n, pinv s -> known s id n ->
  exists s', evaluations s id = Ok (ptab s id n, s') /\ pinv s' /\ ext s s' /\ quiet s s' /\
    (exists a, mget (pt_mat s') id = Some a /\ nv (snd a) = n /\ evs (snd a) = ptab s id n) /\
    (forall j m, j <> id -> known s j m -> known s' j m /\ forall x, pval s' j x = pval s j x) /\
    ((exists b, mget (pt_mat s) id = Some b) -> s' = s).
Proof.
  intros s id n Hi Hk. destruct (materialize_spec s id n Hi Hk) as [s' [a [H1 [H2 [H3 [H4 [H5 [H6 [H7 [H8 H9]]]]]]]]]].
  exists s'. unfold evaluations. rewrite H1. cbn [bind]. rewrite H5. cbn [ounwrap bind]. rewrite H7.
  split; [reflexivity|]. split; [exact H2|]. split; [exact H3|]. split; [exact H4|].
  split; [exists a; auto|]. split; [exact H8|exact H9].
Qed.

Lemma quiet_ext_trans : forall a b c, quiet a b -> quiet b c -> quiet a c.
Proof.
  intros a b c [H1 [H2 [H3 [H4 [H5 H6]]]]] [G1 [G2 [G3 [G4 [G5 G6]]]]]. repeat split; congruence.
Qed.

(** *** Evaluation *)
Lemma evaluate_loop_mat : forall fuel s i a x, mget (pt_mat s) i = Some a -> wf_mle (snd a) ->
  evaluate_loop fuel s i x = Ok (if nv (snd a) =? length x then Some (value (snd a) x) else None).
Proof.
  intros fuel s i a x Ha Hw. destruct fuel; cbn [evaluate_loop]; rewrite Ha; apply ark_evaluate_spec; exact Hw.
Qed.

Lemma evaluate_spec : forall s id n x, pinv s -> known s id n -> length x = n -> evaluate s id x = Ok (Some (pval s id x)).
Proof.
  intros s id n x Hi Hk Hx. unfold evaluate. destruct (mget (pt_mat s) id) as [a|] eqn:Ea.
  - destruct (i_wf s Hi _ _ Ea) as [Hw _]. rewrite (evaluate_loop_mat _ s id a x Ea Hw).
    assert (Hn : nv (snd a) = n) by (apply (known_unique s id); [exact Hi|left; exists a; auto|exact Hk]).
    rewrite Hn, Hx, Nat.eqb_refl. unfold pval. rewrite Ea. reflexivity.
  - cbn [evaluate_loop]. rewrite Ea. destruct Hk as [[a [Ha _]]|[v [Ev Hok]]]; [congruence|]. rewrite Ev. cbn [ounwrap bind].
    rewrite (mapM_ok _ (fun cp => (fst cp * Fprod (map (fun i => mval (pt_mat s) i x) (snd cp)))%F)).
    + cbn [bind]. rewrite fold_left_Fadd. unfold pval. rewrite Ea, Ev. unfold vval. do 2 f_equal. ring.
    + intros [c pr] Hc. destruct Hok as [_ Hok]. destruct (Hok c pr Hc) as [_ Hin]. cbn [fst snd]. clear Hc. revert c.
      induction pr as [|i pr IH]; intros c; [simpl; f_equal; ring|].
      destruct (Hin i (or_introl eq_refl)) as [a [Ha Hn]]. destruct (i_wf s Hi _ _ Ha) as [Hw _].
      cbn [foldM]. rewrite (evaluate_loop_mat _ s i a x Ha Hw). rewrite Hn, Hx, Nat.eqb_refl. cbn [bind ounwrap].
      rewrite IH by (intros j Hj; apply Hin; right; exact Hj). cbn [map]. rewrite Fprod_cons. unfold mval at 2. rewrite Ha. f_equal. ring.
Qed.

(** *** More variables *)
Lemma value_mat_bool : forall (m : mle p) k, k < 2 ^ nv m -> value m (bpoint (nv m) k) = tab (evs m) k.
Proof. intros. unfold value. apply mle_ext_bpoint. assumption. Qed.

(** The multilinear extension of the hypercube values. *)
Definition mlx (s : st) (id n : nat) (x : list (F p)) : F p := mle_ext n (fun k => pval s id (bpoint n k)) x.
Lemma mlx_tab : forall s id n x, mlx s id n x = mle_ext n (tab (ptab s id n)) x.
Proof. intros. unfold mlx. apply mle_ext_ext. intros k Hk. symmetry. apply ptab_tab. exact Hk. Qed.
Lemma mlx_bool : forall s id n k, k < 2 ^ n -> mlx s id n (bpoint n k) = pval s id (bpoint n k).
Proof. intros. unfold mlx. rewrite mle_ext_bpoint by assumption. reflexivity. Qed.
Lemma mlx_mat : forall s id a x, pinv s -> mget (pt_mat s) id = Some a -> mlx s id (nv (snd a)) x = pval s id x.
Proof.
  intros s id a x Hi Ha. rewrite mlx_tab, (ptab_mat s id a Hi Ha). unfold pval. rewrite Ha. reflexivity.
Qed.

Lemma increase_spec : forall (front : bool) s id n k, pinv s -> known s id n ->
  exists s', (if front then increase_nv_front s id k else increase_nv_back s id k) = Ok (pt_next s, s') /\
    pinv s' /\ ext s s' /\ same_claims s s' /\ pt_tr s' = pt_tr s /\ pt_comm s' = pt_comm s /\
    pt_next s' = S (pt_next s) /\ known s' (pt_next s) (n + k) /\
    (forall x y, length x = n -> length y = k -> pval s' (pt_next s) (if front then y ++ x else x ++ y) = mlx s id n x) /\
    (exists a, mget (pt_mat s') (pt_next s) = Some a) /\
    (exists b, mget (pt_mat s') id = Some b) /\
    (forall j m x, j <> id -> known s j m -> pval s' j x = pval s j x).
Proof.
  intros front s id n k Hi Hk.
  destruct (materialize_spec s id n Hi Hk) as [s1 [a [H1 [H2 [H3 [H4 [H5 [H6 [H7 [H8 H9]]]]]]]]]].
  destruct (i_wf s1 H2 _ _ H5) as [Hw Hlt].
  assert (Hinc : exists q, (if front then dmle_increase_nv_front (snd a) (nv (snd a) + k) else dmle_increase_nv_back (snd a) (nv (snd a) + k)) = Ok q /\
     wf_mle q /\ nv q = n + k /\ (k = 0 -> q = snd a) /\
     (forall x y, length x = n -> length y = k -> value q (if front then y ++ x else x ++ y) = mlx s id n x)).
  { assert (Hval : forall x, mle_ext (nv (snd a)) (tab (evs (snd a))) x = mlx s id n x).
    { intros x. rewrite H6, H7, mlx_tab. reflexivity. }
    destruct front.
    - destruct (increase_front_all (snd a) (nv (snd a) + k) Hw) as [q [Q1 [Q2 [Q3 [Q4 _]]]]]; [lia|].
      exists q. split; [exact Q1|]. split; [exact Q2|]. split; [lia|]. split.
      + intros ->. rewrite Nat.add_0_r in Q1. rewrite (proj1 (proj2 (increase_edges (snd a) (nv (snd a))) eq_refl)) in Q1. congruence.
      + intros x y Hx Hy. unfold value. rewrite Q3, Q4 by lia. apply Hval.
    - destruct (increase_back_all (snd a) (nv (snd a) + k) Hw) as [q [Q1 [Q2 [Q3 [Q4 _]]]]]; [lia|].
      exists q. split; [exact Q1|]. split; [exact Q2|]. split; [lia|]. split.
      + intros ->. rewrite Nat.add_0_r in Q1. rewrite (proj2 (proj2 (increase_edges (snd a) (nv (snd a))) eq_refl)) in Q1. congruence.
      + intros x y Hx Hy. unfold value. rewrite Q3, Q4 by lia. apply Hval. }
  destruct Hinc as [q [Q1 [Q2 [Q3 [Q4 Q5]]]]].
  assert (Hgoal : exists s', (if k =? 0 then Ok (track_mat_arc_poly s1 a) else let '(b, s2) := new_arc s1 q in Ok (track_mat_arc_poly s2 b)) = Ok (pt_next s, s') /\
    pinv s' /\ sext s1 s' /\ same_claims s1 s' /\ pt_tr s' = pt_tr s1 /\ pt_comm s' = pt_comm s1 /\
    pt_next s' = S (pt_next s1) /\ known s' (pt_next s) (n + k) /\ (forall z, pval s' (pt_next s) z = value q z) /\
    (exists c, mget (pt_mat s') (pt_next s) = Some c) /\ (exists b, mget (pt_mat s') id = Some b)).
  { destruct H4 as [P1 [P2 [P3 [P4 P5]]]]. rewrite <- P3.
    assert (Hne : pt_next s1 =? id = false).
    { apply Nat.eqb_neq. assert (id < pt_next s1) by (rewrite P3; eapply known_lt; eassumption). lia. }
    destruct (Nat.eqb_spec k 0) as [Hk0|Hk0].
    - destruct (track_arc_spec s1 a H2 Hw Hlt) as [s' [L1 [L2 [L3 [L4 [L5 [L6 [L7 [L8 [L9 [L10 L11]]]]]]]]]]].
      { intros j b Hb Hf. eapply (i_coh s1 H2); eassumption. }
      exists s'. rewrite L1. split; [reflexivity|]. split; [exact L2|]. split; [exact L3|]. split; [exact L4|]. split; [exact L5|].
      split; [exact L7|]. split; [exact L6|]. split; [subst k; rewrite Nat.add_0_r, <- H6; exact L10|].
      split; [intros z; rewrite L11, Q4 by exact Hk0; reflexivity|]. split; [exists a; exact L9|]. exists a.
      inversion L1; subst s'. simpl. rewrite mget_mput, Hne. exact H5.
    - unfold new_arc. destruct (track_mat_spec s1 q H2 Q2) as [s' [L1 [L2 [L3 [L4 [L5 [L6 [L7 [L8 [L9 L10]]]]]]]]]].
      unfold track_mat_poly, new_arc in L1.
      exists s'. rewrite L1. split; [reflexivity|]. split; [exact L2|]. split; [exact L3|]. split; [exact L4|]. split; [exact L5|].
      split; [exact L7|]. split; [exact L6|]. split; [rewrite <- Q3; exact L9|]. split; [exact L10|].
      split; [eexists; exact L8|]. exists a. inversion L1; subst s'. simpl. rewrite mget_mput, Hne. exact H5. }
  destruct Hgoal as [s' [G1 [G2 [G3 [G4 [G5 [G6 [G7 [G8 [G9 [G10 G11]]]]]]]]]]].
  exists s'. split.
  - unfold increase_nv_front, increase_nv_back, increase_nv. rewrite H1. destruct front; cbn [bind]; rewrite H5; cbn [ounwrap bind]; rewrite Q1; exact G1.
  - destruct H4 as [P1 [P2 [P3 [P4 [P5 P6]]]]]. split; [exact G2|]. split; [eapply ext_trans; [exact H3|apply sext_ext; exact G3]|].
    split; [destruct G4; split; congruence|]. split; [congruence|]. split; [congruence|]. split; [congruence|]. split; [exact G8|].
    split; [intros x y Hx Hy; rewrite G9; apply Q5; assumption|]. split; [exact G10|]. split; [exact G11|].
    intros j m x Hj Kj. destruct (H8 j m Hj Kj) as [K' V']. rewrite (proj2 (proj1 (proj2 (proj2 G3)) j m K')). apply V'.
Qed.
End S.
