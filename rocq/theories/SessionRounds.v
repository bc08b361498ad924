(** Sessions of several rounds. *)
From Coq Require Import String List Arith Lia Bool ZArith Znumtheory.
Import ListNotations.
From Verif Require Import Res ResLemmas Fp FSum SpecMle SpecVp SpecKzg SpecPoly SpecSumcheck SpecBatch SpecTracker ModelMle MleLemmas MleProofs MleExtra ModelVp VpHist VpProofs VpExtra
  ModelTranscript ModelSumcheck SumcheckVerify ZerocheckProofs TranscriptProofs Pairing ModelKzg KzgProofs KzgExtra ModelBatch BatchProofs BatchExtra
  ModelProver ModelVerifier ProverHist VerifierHist CompileHist SessionHist TmapLemmas ProverProofs ProverExtra ProverStep DegreeProofs EqualizeProofs CompileProofs CompileExtra NodeProofs HistExtra
  CompileMain CompileSound LockProofs SessionProofs.
Local Open Scope string_scope.
Local Open Scope list_scope.
Local Open Scope nat_scope.

Section S.
Context {p : positive} {E : pairing p}.
Hypothesis HE : pairing_laws E.
Hypothesis Hp : prime (Zpos p).
Add Ring Fr : (@F_ring p).
Implicit Types (s : ptrk E) (v : vtrk E).
Local Notation comm := (gcar (PG1 E)).
Local Arguments mput : simpl never.

(** What verifying leaves alone on the verifier's side. *)
Definition vgrow v v' : Prop :=
  vt_vk v' = vt_vk v /\ vt_mat v' = vt_mat v /\ vt_proof v' = vt_proof v /\
  ((forall id e, mget (vt_virt v) id = Some e -> id < vt_next v) -> (forall id e, mget (vt_virt v') id = Some e -> id < vt_next v') /\ length (vt_virt v) <= length (vt_virt v')).
Lemma vgrow_refl : forall v, vgrow v v.
Proof. clear HE Hp. intros v. repeat split; auto. Qed.
Lemma vgrow_trans : forall a b c, vgrow a b -> vgrow b c -> vgrow a c.
Proof.
  clear HE Hp. intros a b c [A1 [A2 [A3 A4]]] [B1 [B2 [B3 B4]]]. split; [congruence|]. split; [congruence|]. split; [congruence|]. intros H. destruct (A4 H) as [C1 C2]. destruct (B4 C1) as [D1 D2]. split; [exact D1|lia].
Qed.
Lemma vgrow_virtual : forall v e, vgrow v (snd (track_virtual v e)).
Proof.
  clear HE Hp. intros v e. change (snd (track_virtual v e)) with (put_virt (snd (v_gen_id v)) (vt_next v) e). split; [reflexivity|]. split; [reflexivity|]. split; [reflexivity|]. intros H.
  change (vt_virt (put_virt (snd (v_gen_id v)) (vt_next v) e)) with (mput (vt_virt v) (vt_next v) e). change (vt_next (put_virt (snd (v_gen_id v)) (vt_next v) e)) with (S (vt_next v)). split.
  - intros id e' H1. rewrite mget_mput in H1. destruct (Nat.eqb_spec (vt_next v) id); [lia|]. pose proof (H id e' H1). lia.
  - rewrite HistExtra.mput_length; [lia|]. destruct (mget (vt_virt v) (vt_next v)) as [e'|] eqn:Em; [|reflexivity]. pose proof (H _ _ Em). lia.
Qed.
Lemma vgrow_tr : forall v t, vgrow v (set_vtr v t).
Proof. clear HE Hp. intros v t. repeat split; auto. Qed.
Lemma vgrow_sc : forall v id c, vgrow v (v_add_sumcheck_claim v id c).
Proof. clear HE Hp. intros v id c. repeat split; auto. Qed.

Lemma verify_grow : forall (o : oracle p comm) v v', verify_claims o v = Ok v' -> vgrow v v'.
Proof.
  clear HE Hp. intros o v v' H. unfold verify_claims in H. apply bind_ok_inv in H. destruct H as [v1 [H1 H]].
  assert (G1 : vgrow v v1).
  { unfold v_convert_zerocheck_claims, track_virtual_comm, v_mul_scalar, add_comms, mul_comms in H1.
    destruct (track_virtual v _) as [agg0 v0] eqn:T0. assert (V0 : vgrow v v0) by (pose proof (vgrow_virtual v (VFun (fun _ => Ok F0))) as X; rewrite T0 in X; exact X).
    apply bind_ok_inv in H1. destruct H1 as [[agg va] [L H1]].
    assert (VL : vgrow v0 va).
    { revert L. generalize (vt_zc v0) as ids. clear. intros ids. revert agg0 v0. induction ids as [|i ids IH]; intros agg0 v0 L; cbn [foldM] in L; [inversion L; subst; apply vgrow_refl|].
      apply bind_ok_inv in L. destruct L as [[a vb] [L1 L2]]. cbn [fst snd] in L1. unfold vt_challenge in L1. destruct (drawT o _ (vt_tr v0)) as [[c t]| |]; try discriminate. cbn [bind unwrap] in L1.
      apply IH in L2. eapply vgrow_trans; [|exact L2]. destruct (track_virtual (set_vtr v0 t) (VMulS i c)) as [j vc] eqn:T1. 
      eapply vgrow_trans; [apply (vgrow_tr v0 t)|]. pose proof (vgrow_virtual (set_vtr v0 t) (VMulS i c)) as X. rewrite T1 in X. cbn [snd] in X. eapply vgrow_trans; [exact X|].
      pose proof (vgrow_virtual vc (VAdd agg0 j)) as Y. inversion L1; subst. exact Y. }
    apply bind_ok_inv in H1. destruct H1 as [[r t] [_ H1]]. eapply vgrow_trans; [exact V0|]. eapply vgrow_trans; [exact VL|]. eapply vgrow_trans; [apply (vgrow_tr va t)|].
    destruct (track_virtual (set_vtr va t) _) as [eqid v3] eqn:T3. match type of T3 with track_virtual ?a ?e = _ => pose proof (vgrow_virtual a e) as X end. rewrite T3 in X. cbn [snd] in X.
    eapply vgrow_trans; [exact X|]. destruct (track_virtual v3 _) as [id v4] eqn:T4. match type of T4 with track_virtual ?a ?e = _ => pose proof (vgrow_virtual a e) as Y end. rewrite T4 in Y. cbn [snd] in Y.
    eapply vgrow_trans; [exact Y|]. inversion H1; subst. apply vgrow_sc. }
  apply bind_ok_inv in H. destruct H as [[[agg sum] v2] [H2 H]].
  assert (G2 : vgrow v1 v2).
  { unfold v_aggregate_sumcheck_claims, track_virtual_comm, v_mul_scalar, add_comms in H2.
    destruct (track_virtual v1 _) as [agg0 v0] eqn:T0. assert (V0 : vgrow v1 v0) by (pose proof (vgrow_virtual v1 (VFun (fun _ => Ok F0))) as X; rewrite T0 in X; exact X).
    eapply vgrow_trans; [exact V0|]. clear - H2. revert H2. generalize (vt_sc v0) as cls. intros cls. generalize (@F0 p). revert agg0 v0. induction cls as [|cl cls IH]; intros agg0 v0 f L; cbn [foldM] in L; [inversion L; subst; apply vgrow_refl|].
    apply bind_ok_inv in L. destruct L as [[[a f'] vb] [L1 L2]]. unfold vt_challenge in L1. destruct (drawT o _ (vt_tr v0)) as [[c t]| |]; try discriminate. cbn [bind unwrap] in L1.
    apply IH in L2. eapply vgrow_trans; [|exact L2]. destruct (track_virtual (set_vtr v0 t) (VMulS (fst cl) c)) as [j vc] eqn:T1.
    eapply vgrow_trans; [apply (vgrow_tr v0 t)|]. pose proof (vgrow_virtual (set_vtr v0 t) (VMulS (fst cl) c)) as X. rewrite T1 in X. cbn [snd] in X. eapply vgrow_trans; [exact X|].
    pose proof (vgrow_virtual vc (VAdd agg0 j)) as Y. destruct (track_virtual vc (VAdd agg0 j)) as [x y] eqn:T2. cbn [snd] in Y. inversion L1; subst. exact Y. }
  apply bind_ok_inv in H. destruct H as [[sub t] [_ H]]. apply bind_ok_inv in H. destruct H as [comms [_ H]]. apply bind_ok_inv in H. destruct H as [bp [_ H]].
  apply bind_ok_inv in H. destruct H as [[b t'] [_ H]]. inversion H; subst. eapply vgrow_trans; [exact G1|]. eapply vgrow_trans; [exact G2|]. eapply vgrow_trans; [apply (vgrow_tr v2 t)|apply vgrow_tr].
Qed.

(** Calls only add polynomials. *)
Lemma den_more : forall (ops : list (pop p)) ds, exists suf, fold_left den_step ops ds = ds ++ suf.
Proof.
  clear HE Hp. induction ops as [|op ops IH]; intros ds; [exists []; rewrite app_nil_r; reflexivity|]. cbn [fold_left]. destruct (IH (den_step ds op)) as [suf H]. rewrite H.
  destruct op; cbn [den_step]; try (eexists; rewrite <- app_assoc; reflexivity); exists suf; reflexivity.
Qed.
Lemma poly_more : forall (a b : list (pop p)) i, i < length (denote a) -> poly_at (a ++ b) i = poly_at a i.
Proof.
  clear HE Hp. intros a b i Hi. unfold poly_at, denote in *. rewrite fold_left_app. destruct (den_more b (fold_left den_step a [])) as [suf H]. rewrite H. apply app_nth1. exact Hi.
Qed.
Lemma deg_more : forall (ops : list (pop p)) ds, exists suf, fold_left deg_step ops ds = ds ++ suf.
Proof.
  clear HE Hp. induction ops as [|op ops IH]; intros ds; [exists []; rewrite app_nil_r; reflexivity|]. cbn [fold_left]. destruct (IH (deg_step ds op)) as [suf H]. rewrite H.
  destruct op; cbn [deg_step]; try (eexists; rewrite <- app_assoc; reflexivity); exists suf; reflexivity.
Qed.
Lemma degrees_more : forall (a b : list (pop p)) d, In d (degrees a) -> In d (degrees (a ++ b)).
Proof. clear HE Hp. intros a b d H. unfold degrees in *. rewrite fold_left_app. destruct (deg_more b (fold_left deg_step a [])) as [suf E1]. rewrite E1. apply in_or_app. auto. Qed.

Lemma steps_nonempty : forall (o : oracle p comm) ops s hs s' hs', winv (s, hs) -> foldM (pstep o) (s, hs) ops = Ok (s', hs') -> is_empty (pt_tr s) = false \/ 0 < commit_calls ops -> is_empty (pt_tr s') = false.
Proof.
  clear. intros o. induction ops as [|op ops IH]; intros s hs s' hs' Hw H Hc; [inversion H; subst; destruct Hc as [Hc|Hc]; [exact Hc|cbn in Hc; lia]|].
  cbn [foldM] in H. apply bind_ok_inv in H. destruct H as [[s1 hs1] [H1 H2]]. destruct (pstep_inv o s hs op _ Hw H1) as [Hw1 _].
  eapply IH; [exact Hw1|exact H2|]. pose proof (pstep_shape o s hs op s1 hs1 Hw H1) as P.
  destruct op; cbn [step_post] in P; try (repeat match type of P with exists _, _ => destruct P as [? P] | _ /\ _ => destruct P as [? P] end;
       repeat match goal with X : pushed _ _ _ _ _ _ _ _ |- _ => destruct X as [? [? [? [-> [? [[? ?] ?]]]]]] end; exact Hc).
  - left. destruct P as [_ [_ [_ [_ [_ [[c [_ [-> _]]] _]]]]]]. reflexivity.
  - destruct P as [a [_ [-> [[_ [-> _]] _]]]]. exact Hc.
  - left. destruct P as [c [t [P [-> _]]]]. unfold drawT, draw in P. destruct (is_empty (pt_tr s)); [discriminate|]. inversion P; subst. reflexivity.
  - left. destruct P as [-> _]. reflexivity.
  - destruct P as [a [_ [-> _]]]. exact Hc.
  - destruct P as [a [_ [-> _]]]. exact Hc.
Qed.

(** What holds between two rounds; [ops] are all calls so far and [n] the number of variables of every handle. *)
Record sinv (g : gcar (PG1 E)) (h : gcar (PG2 E)) (tau : list (F p)) (n : nat) (ops : list (pop p)) s (hs : list tpoly) v (cs : list nat) : Prop := {
  si_w : winv (s, hs);
  si_cov : covered s hs;
  si_ag : Forall2 (agrees s (points false)) hs (denote ops);
  si_deg : Forall2 (hdeg s) hs (degrees ops);
  si_pp : pt_pp s = srs_pp (srs_of g h tau);
  si_vk : vt_vk v = vk_of g h tau;
  si_ne : 0 < commit_calls ops -> is_empty (pt_tr s) = false;
  si_zc : pt_zc s = map (fun i => tp_id (nth i hs dh)) (zero_calls ops);
  si_lt : forall i, In i (zero_calls ops) \/ In i (sum_calls ops) -> i < length hs;
  si_scl : forall i, In i (sum_calls ops) -> In (tp_id (nth i hs dh)) (map fst (pt_sc s));
  si_cm : length (pt_comm s) = commit_calls ops;
  si_lock : lsim (vt_proof v) s hs v cs;
  si_sum : forall cl, In cl (vt_sc v) -> snd cl = Fsum (ptab s (fst cl) n) }.

Lemma sinv_new : forall g h tau n, sinv g h tau n [] (pt_new (srs_pp (srs_of g h tau))) [] (vt_new (vk_of g h tau)) [].
Proof.
  clear HE Hp. intros. constructor; try reflexivity; try (constructor; fail).
  - apply winv_new.
  - intros id m [[a [A _]]|[v [A _]]]; discriminate A.
  - cbn. lia.
  - intros i [[]|[]].
  - intros i [].
  - constructor; simpl; try reflexivity. intros id e H. discriminate.
  - intros cl [].
Qed.

Lemma commit_app : forall a b : list (pop p), commit_calls (a ++ b) = commit_calls a + commit_calls b.
Proof. clear HE Hp. intros. unfold commit_calls. rewrite flat_map_app, app_length. reflexivity. Qed.

Lemma round_step : forall (o : oracle p comm) vdebug g h (tau : list (F p)) n D ops s hs v cs (r : rnd E) s1 hs1,
  sinv g h tau n ops s hs v cs -> distinct_addresses (r_addr r) -> mirror false (srs_pp (srs_of g h tau)) (r_ops r) (r_vops r) ->
  foldM (pstep o) (s, hs) (r_ops r) = Ok (s1, hs1) -> (forall h, In h hs1 -> tp_nv h = n) -> 0 < n <= length tau ->
  let ops1 := ops ++ r_ops r in
  (forall d, In d (degrees ops1) -> d <= D) -> 1 <= D -> D + 1 < fsize p -> 2 < fsize p -> 2 <= commit_calls ops1 -> zeros_hold ops1 ->
  (forall i c, In (VOSum i c) (r_vops r) -> c = Fsum (corners (poly_at ops1 i))) ->
  exists cp s2 v1, compile_round o r s1 = Ok (cp, s2) /\ cp_comms cp = pt_comm s1 /\
    foldM (vstep o vdebug) (set_compiled_proof v cp, cs) (r_vops r) = Ok (v1, map tp_id hs1) /\
    (forall i, In i (sum_calls ops1) -> get_prover_claimed_sum v1 (tp_id (nth i hs1 dh)) = Ok (Fsum (corners (poly_at ops1 i)))) /\
    (off_nodes cp -> exists v2, verify_claims o v1 = Ok v2) /\ (~ off_nodes cp -> verify_claims o v1 = Panic) /\
    (forall v2, verify_claims o v1 = Ok v2 -> sinv g h tau n ops1 s2 hs1 v2 (map tp_id hs1)).
Proof.
  intros o vdebug g h tau n D ops s hs v cs r s1 hs1 I Hadr Hm H Hnv Hn ops1 Hdeg HD HDf H2f H2 Hz Hgiven.
  destruct (steps_inv o _ _ _ (si_w _ _ _ _ _ _ _ _ _ I) H) as [Hw1 [X1 [suf Hsuf]]]. cbn [fst snd] in X1, Hsuf.
  pose proof (covered_steps o _ _ _ _ _ (si_w _ _ _ _ _ _ _ _ _ I) H (si_cov _ _ _ _ _ _ _ _ _ I)) as Cov1.
  pose proof (den_steps_ok o _ _ _ _ _ _ false (si_w _ _ _ _ _ _ _ _ _ I) H ltac:(discriminate) (si_ag _ _ _ _ _ _ _ _ _ I)) as Ag1.
  pose proof (deg_steps_ok o _ _ _ _ _ _ (si_w _ _ _ _ _ _ _ _ _ I) H (si_deg _ _ _ _ _ _ _ _ _ I)) as Dg1.
  unfold denote in Ag1. rewrite <- fold_left_app in Ag1. change (fold_left den_step (ops ++ r_ops r) []) with (denote ops1) in Ag1.
  unfold degrees in Dg1. rewrite <- fold_left_app in Dg1. change (fold_left deg_step (ops ++ r_ops r) []) with (degrees ops1) in Dg1.
  destruct (claims_steps o _ _ _ _ _ (si_w _ _ _ _ _ _ _ _ _ I) H) as [Zc [Sc [Cc Lc]]].
  pose proof (w_inv _ Hw1) as Hi1. cbn [fst] in Hi1.
  assert (Hpp1 : pt_pp s1 = srs_pp (srs_of g h tau)) by (rewrite (proj1 X1); apply (si_pp _ _ _ _ _ _ _ _ _ I)).
  assert (Cm1 : length (pt_comm s1) = commit_calls ops1) by (rewrite Cc, (si_cm _ _ _ _ _ _ _ _ _ I); unfold ops1; rewrite commit_app; reflexivity).
  assert (He1 : is_empty (pt_tr s1) = false).
  { eapply steps_nonempty; [exact (si_w _ _ _ _ _ _ _ _ _ I)|exact H|]. unfold ops1 in H2. rewrite commit_app in H2.
    destruct (Nat.eq_dec (commit_calls ops) 0); [right; lia|left; apply (si_ne _ _ _ _ _ _ _ _ _ I); lia]. }
  assert (Old : forall i, i < length hs -> nth i hs1 dh = nth i hs dh) by (intros i Hi; rewrite Hsuf; apply app_nth1; exact Hi).
  assert (Llt : forall i, In i (zero_calls ops1) \/ In i (sum_calls ops1) -> i < length hs1).
  { intros i Hi. unfold ops1, zero_calls, sum_calls in Hi. rewrite !flat_map_app, !in_app_iff in Hi.
    assert (Ho : i < length hs -> i < length hs1) by (rewrite Hsuf, app_length; lia).
    pose proof (si_lt _ _ _ _ _ _ _ _ _ I i) as Y. unfold zero_calls, sum_calls in Y, Lc. specialize (Lc i). tauto. }
  assert (Zc1 : pt_zc s1 = map (fun i => tp_id (nth i hs1 dh)) (zero_calls ops1)).
  { rewrite Zc, (si_zc _ _ _ _ _ _ _ _ _ I). unfold ops1, zero_calls. rewrite flat_map_app, map_app. f_equal. apply map_ext_in. intros i Hi. rewrite Old; [reflexivity|].
    apply (si_lt _ _ _ _ _ _ _ _ _ I). left. exact Hi. }
  assert (Scl1 : forall i, In i (sum_calls ops1) -> In (tp_id (nth i hs1 dh)) (map fst (pt_sc s1))).
  { intros i Hi. rewrite Sc. apply in_or_app. unfold ops1, sum_calls in Hi. rewrite flat_map_app in Hi. apply in_app_or in Hi. destruct Hi as [Hi|Hi].
    - left. rewrite Old by (apply (si_lt _ _ _ _ _ _ _ _ _ I); right; exact Hi). apply (si_scl _ _ _ _ _ _ _ _ _ I). exact Hi.
    - right. apply (in_map (fun i => tp_id (nth i hs1 dh))). exact Hi. }
  assert (At : forall i, i < length hs1 -> let d := poly_at ops1 i in In (nth i hs1 dh) hs1 /\ fst d = n /\ known s1 (tp_id (nth i hs1 dh)) n /\ deg_le s1 (tp_id (nth i hs1 dh)) D /\
     ptab s1 (tp_id (nth i hs1 dh)) n = corners d /\ forall k, k < 2 ^ n -> pval s1 (tp_id (nth i hs1 dh)) (bpoint n k) = nth k (corners d) F0).
  { intros i Hlt d. assert (Hne : nth_error hs1 i = Some (nth i hs1 dh)) by (apply nth_error_nth'; exact Hlt).
    assert (Hin : In (nth i hs1 dh) hs1) by (apply nth_In; exact Hlt). split; [exact Hin|].
    destruct (Forall2_nth _ _ _ _ _ i _ (0, fun _ => F0) Ag1 Hne) as [_ [D2 D3]]. change (nth i (denote ops1) (0, fun _ => F0)) with d in D2, D3.
    assert (Hd : fst d = n) by (rewrite <- D2; apply Hnv; exact Hin). split; [exact Hd|].
    pose proof (w_handles _ Hw1 _ Hin) as K. unfold hknown in K. cbn [fst] in K. rewrite (Hnv _ Hin) in K. split; [exact K|].
    destruct (Forall2_nth _ _ _ _ _ i _ 1 Dg1 Hne) as [G1 G2]. split; [eapply deg_le_mono; [|exact G2]; apply Hdeg; eapply nth_error_In; exact G1|].
    assert (V : forall k, k < 2 ^ n -> pval s1 (tp_id (nth i hs1 dh)) (bpoint n k) = snd d (bpoint n k)).
    { intros k Hk. apply D3. unfold points, cube_points. rewrite (Hnv _ Hin). exists k. auto. }
    split.
    - unfold ptab, corners. rewrite Hd. apply map_ext_in. intros k Hk. apply in_seq in Hk. apply V. lia.
    - intros k Hk. rewrite V by exact Hk. unfold corners. rewrite Hd, (nth_map_seq (fun k => snd d (bpoint n k))) by exact Hk. reflexivity. }
  assert (Flat : matflat s1 n).
  { intros id a Ha. destruct (Cov1 id (nv (snd a)) ltac:(left; exists a; auto)) as [hd [A B]]. rewrite <- B. apply Hnv. exact A. }
  assert (Hmat : pt_mat s1 <> []).
  { intros E0. destruct (pt_comm s1) as [|[j c] l] eqn:Ec; [rewrite <- Cm1 in H2; cbn in H2; lia|].
    destruct (proj1 (mget_key (pt_comm s1) j)) as [c' Hc']; [rewrite Ec; left; reflexivity|]. destruct (i_comm s1 Hi1 j c' Hc') as [a Ha]. rewrite E0 in Ha. discriminate. }
  destruct (round_compile HE Hp o (r_sc r) (r_sc' r) (r_addr r) (r_debug r) g h tau s1 n D Hi1 Hmat Flat He1 Hpp1 Hadr (w_sc _ Hw1)) as [cp [s2 [R1 [R2 [R3 [R4 [R5 [R6 [R7 [R8 [R9 [R10 [R11 [R12 [R13 [R14 [R15 R16]]]]]]]]]]]]]]]]]; try assumption.
  { intros i Hin. split; [apply (w_zc _ Hw1 i Hin)|]. rewrite Zc1 in Hin. apply in_map_iff in Hin. destruct Hin as [j [<- Hj]]. destruct (At j (Llt j (or_introl Hj))) as [_ [A1 [A2 [A3 [_ A5]]]]].
    split; [exact A3|]. intros k Hk. rewrite A5 by exact Hk. pose proof (Hz j Hj) as Fz. rewrite Forall_forall in Fz. apply Fz. apply nth_In. unfold corners. rewrite map_length, seq_length, A1. exact Hk. }
  { rewrite Cm1. exact H2. }
  assert (Cov : proof_covers cp s1).
  { split; [intros id c Hc; rewrite R12; exact Hc|]. intros id c Hc. rewrite R15 by (apply (in_map fst) in Hc; exact Hc). discriminate. }
  pose proof (si_lock _ _ _ _ _ _ _ _ _ I) as L0.
  assert (L0' : lsim cp s hs (set_compiled_proof v cp) cs) by (destruct L0; constructor; simpl; auto).
  destruct (lock_steps o vdebug false cp (r_ops r) (r_vops r) s hs _ cs s1 hs1 ltac:(rewrite (si_pp _ _ _ _ _ _ _ _ _ I); exact Hm) (si_w _ _ _ _ _ _ _ _ _ I) L0' H Cov) as [v1 [L1 [L2 _]]].
  destruct (vrun_sc _ _ _ _ _ _ _ L1) as [V1 [V2 [_ V3]]]. cbn [set_compiled_proof vt_proof vt_vk vt_sc] in V1, V2, V3.
  exists cp, s2, v1. split; [exact R1|]. split; [exact R12|]. split; [exact L1|].
  assert (Csum : forall i, In i (sum_calls ops1) -> Fsum (ptab s1 (tp_id (nth i hs1 dh)) n) = Fsum (corners (poly_at ops1 i))).
  { intros i Hi. destruct (At i (Llt i (or_intror Hi))) as [_ [_ [_ [_ [A4 _]]]]]. rewrite A4. reflexivity. }
  split.
  { intros i Hi. unfold get_prover_claimed_sum. rewrite V1, (R15 _ (Scl1 i Hi)), (Csum i Hi). reflexivity. }
  assert (Sum1 : forall cl, In cl (vt_sc v1) -> snd cl = Fsum (ptab s1 (fst cl) n)).
  { intros [id c] Hin. cbn [fst snd]. assert (Hid : In id (map fst (pt_sc s1))) by (rewrite <- (l_sc _ _ _ _ _ L2); apply (in_map fst) in Hin; exact Hin).
    destruct (V3 id c Hin) as [A|[A|[i [A1 A2]]]].
    - pose proof (si_sum _ _ _ _ _ _ _ _ _ I _ A) as B. cbn [fst snd] in B. rewrite B. 
      assert (Ho : In id (map fst (pt_sc s))) by (rewrite <- (l_sc _ _ _ _ _ L0); apply (in_map fst) in A; exact A).
      apply in_map_iff in Ho. destruct Ho as [cl [<- Ho]]. pose proof (w_sc _ (si_w _ _ _ _ _ _ _ _ _ I) cl Ho) as Hlt. cbn [fst] in Hlt.
      pose proof (w_inv _ (si_w _ _ _ _ _ _ _ _ _ I)) as Hi. cbn [fst] in Hi. destruct (lt_known s _ Hi Hlt) as [m Hk].
      destruct (si_cov _ _ _ _ _ _ _ _ _ I _ _ Hk) as [hd [C1 C2]]. assert (m = n) by (rewrite <- C2; apply Hnv; rewrite Hsuf; apply in_or_app; auto). clear C2. subst m.
      rewrite (ptab_ext s s1 _ n Hk X1). reflexivity.
    - unfold get_prover_claimed_sum in A. cbn in A. rewrite (R15 id Hid) in A. cbn in A. congruence.
    - pose proof (mirror_sums _ _ _ _ Hm _ _ A1) as Hi. assert (Hi' : In i (sum_calls ops1)) by (unfold ops1, sum_calls; rewrite flat_map_app; apply in_or_app; right; exact Hi).
      rewrite (Hgiven i c A1), <- (Csum i Hi'). rewrite nth_error_map, (nth_error_nth' hs1 dh (Llt i (or_intror Hi'))) in A2. cbn in A2. inversion A2. reflexivity. }
  pose proof (R16 v1 V1 ltac:(rewrite V2; apply (si_vk _ _ _ _ _ _ _ _ _ I)) (l_tr _ _ _ _ _ L2) (l_comm _ _ _ _ _ L2) ltac:(rewrite (l_zc _ _ _ _ _ L2); reflexivity)) as R.
  destruct R as [Ra Rp].
  { rewrite (map_ext_in _ (fun cl => Fsum (ptab s1 (fst cl) n)) (vt_sc v1) Sum1). rewrite <- (map_map fst (fun id => Fsum (ptab s1 id n))), (l_sc _ _ _ _ _ L2), map_map. reflexivity. }
  split; [intros Hoff; destruct (Ra Hoff) as [v2 [A _]]; exists v2; exact A|]. split; [exact Rp|].
  intros v2 Hv2.
  assert (Htr : vt_tr v2 = pt_tr s2).
  { destruct (off_nodes_dec cp) as [N|N]; [|rewrite (Rp N) in Hv2; discriminate]. destruct (Ra N) as [v2' [A B]]. rewrite Hv2 in A. inversion A; subst. exact B. }
  destruct (verify_ids o v1 v2 Hv2) as [U1 [U2 U3]]. destruct (verify_grow o v1 v2 Hv2) as [W1 [W2 [W3 W4]]].
  destruct (W4 (l_keys _ _ _ _ _ L2)) as [W5 W6].
  assert (Lid : 2 + 2 * length (vt_zc v1) + vt_next v1 = 2 + 2 * length (pt_zc s1) + pt_next s1) by (rewrite (l_zc _ _ _ _ _ L2), (l_next _ _ _ _ _ L2); reflexivity).
  rewrite Lid in U1, U3.
  assert (Kl : forall id, id < pt_next s1 -> known s1 id n).
  { intros id Hlt. destruct (lt_known s1 id Hi1 Hlt) as [m Hk]. rewrite (matflat_known s1 n id m Flat Hk) in Hk. exact Hk. }
  assert (Nx : pt_next s1 <= pt_next s2) by (rewrite R11; lia).
  constructor.
  - constructor; cbn [fst snd].
    + exact R2.
    + intros hd Hh. unfold hknown. pose proof (w_handles _ Hw1 hd Hh) as K. unfold hknown in K. cbn [fst] in K. apply (proj1 (proj2 (proj2 R3)) _ _ K).
    + apply (w_fresh _ Hw1).
    + intros cl Hin. rewrite R9 in Hin. apply in_app_or in Hin. destruct Hin as [Hin|[<-|[]]].
      * apply in_map_iff in Hin. destruct Hin as [cl' [<- Hin]]. cbn [fst]. pose proof (w_sc _ Hw1 cl' Hin) as Y. cbn [fst] in Y. lia.
      * cbn [fst]. rewrite R11. lia.
    + intros i Hin. rewrite R7 in Hin. pose proof (w_zc _ Hw1 i Hin) as Y. cbn [fst] in Y. lia.
  - intros id m Hk. rewrite (matflat_known s2 n id m R5 Hk). destruct hs1 as [|hd hs1'] eqn:Eh.
    + exfalso. destruct (pt_comm s1) as [|[j c] l] eqn:Ec; [rewrite <- Cm1 in H2; cbn in H2; lia|].
      destruct (proj1 (mget_key (pt_comm s1) j)) as [c' Hc']; [rewrite Ec; left; reflexivity|]. destruct (i_comm s1 Hi1 j c' Hc') as [a Ha]. destruct (Cov1 j (nv (snd a)) ltac:(left; exists a; auto)) as [hd [[] _]].
    + exists hd. split; [left; reflexivity|]. apply Hnv. left. reflexivity.
  - clear - Ag1 R3 Hw1. assert (G : forall hs ds, (forall h, In h hs -> known s1 (tp_id h) (tp_nv h)) -> Forall2 (agrees s1 (points false)) hs ds -> Forall2 (agrees s2 (points false)) hs ds).
    { intros hs ds Hk F. induction F as [|hd d hs ds [A B] F IH]; constructor; [|apply IH; intros; apply Hk; right; assumption]. split; [exact A|]. intros x Hx. rewrite <- B by exact Hx.
      destruct Hx as [k [Hlt ->]]. apply (proj1 (proj2 (proj2 R3)) _ _ (Hk hd (or_introl eq_refl)) ); exact Hlt. }
    apply G; [|exact Ag1]. intros hd Hh. apply (w_handles _ Hw1 hd Hh).
  - clear - Dg1 R4 Hw1. assert (G : forall hs ds, (forall h, In h hs -> tp_id h < pt_next s1) -> Forall2 (hdeg s1) hs ds -> Forall2 (hdeg s2) hs ds).
    { intros hs ds Hk F. induction F as [|hd d hs ds A F IH]; constructor; [|apply IH; intros; apply Hk; right; assumption]. unfold hdeg in *. eapply vold_deg; [exact R4|apply Hk; left; reflexivity|exact A]. }
    apply G; [|exact Dg1]. intros hd Hh. apply (handle_lt _ hd Hw1 Hh).
  - rewrite (proj1 R3). exact Hpp1.
  - rewrite W1, V2. apply (si_vk _ _ _ _ _ _ _ _ _ I).
  - intros _. exact R8.
  - rewrite R7. exact Zc1.
  - exact Llt.
  - intros i Hi. rewrite R9, map_app, map_map. cbn [fst]. apply in_or_app. left. apply Scl1. exact Hi.
  - rewrite R6. exact Cm1.
  - constructor.
    + reflexivity.
    + rewrite U1, R11. rewrite <- (map_length fst (vt_sc v1)), (l_sc _ _ _ _ _ L2), map_length. reflexivity.
    + exact Htr.
    + rewrite W2, R6. apply (l_comm _ _ _ _ _ L2).
    + rewrite U2, R7. apply (l_zc _ _ _ _ _ L2).
    + rewrite U3, R9, !map_app, map_map. cbn [fst map]. rewrite (l_sc _ _ _ _ _ L2). reflexivity.
    + reflexivity.
    + pose proof (l_len _ _ _ _ _ L2). lia.
    + exact W5.
  - intros cl Hin. rewrite U3 in Hin. apply in_app_or in Hin. destruct Hin as [Hin|[<-|[]]].
    + rewrite (Sum1 cl Hin). assert (Hlt : fst cl < pt_next s1).
      { assert (Hid : In (fst cl) (map fst (pt_sc s1))) by (rewrite <- (l_sc _ _ _ _ _ L2); apply in_map; exact Hin). apply in_map_iff in Hid. destruct Hid as [cl' [<- Hid]]. apply (w_sc _ Hw1 cl' Hid). }
      rewrite (ptab_ext s1 s2 _ n (Kl _ Hlt) R3). reflexivity.
    + cbn [fst snd]. symmetry. exact R10.
Qed.

Lemma pstep_len : forall (o : oracle p comm) s hs op s' hs' (ds : list (den (p:=p))), pstep o (s, hs) op = Ok (s', hs') -> length hs = length ds ->
  (exists suf, hs' = hs ++ suf) /\ length hs' = length (den_step ds op) /\ (forall i, In i (zero_calls [op]) \/ In i (sum_calls [op]) -> i < length hs').
Proof.
  clear HE Hp. intros o s hs op s' hs' ds H Hl.
  assert (P : forall (r : res (tpoly * ptrk E)), push hs r = Ok (s', hs') -> exists hd, hs' = hs ++ [hd]).
  { intros r Hr. unfold push in Hr. apply bind_ok_inv in Hr. destruct Hr as [[hd s2] [_ Hr]]. inversion Hr; subst. eauto. }
  destruct op; cbn [pstep] in H; repeat (lazymatch type of H with bind _ _ = _ => idtac end; apply bind_ok_inv in H; let a := fresh "a" in let Ha := fresh "Ha" in destruct H as [a [Ha H]]);
    try (apply P in H; destruct H as [hd ->]; split; [eauto|]; split; [cbn [den_step]; rewrite !app_length; cbn; lia|]; intros i0 [[]|[]]);
    try (match type of H with (let (_, _) := ?x in _) = _ => destruct x end);
    inversion H; subst; (split; [exists []; rewrite app_nil_r; reflexivity|]); (split; [exact Hl|]); try (intros i0 [[]|[]]; fail).
  - intros i0 [[]|[<-|[]]]. apply rnth_inv in Ha. apply nth_error_Some. congruence.
  - intros i0 [[<-|[]]|[]]. apply rnth_inv in Ha. apply nth_error_Some. congruence.
Qed.
Lemma steps_len : forall (o : oracle p comm) ops s hs s' hs' (ds : list (den (p:=p))), foldM (pstep o) (s, hs) ops = Ok (s', hs') -> length hs = length ds ->
  (exists suf, hs' = hs ++ suf) /\ length hs' = length (fold_left den_step ops ds) /\ (forall i, In i (zero_calls ops) \/ In i (sum_calls ops) -> i < length hs').
Proof.
  clear HE Hp. intros o. induction ops as [|op ops IH]; intros s hs s' hs' ds H Hl.
  - inversion H; subst. split; [exists []; rewrite app_nil_r; reflexivity|]. split; [exact Hl|]. intros i [[]|[]].
  - cbn [foldM] in H. apply bind_ok_inv in H. destruct H as [[s1 hs1] [H1 H2]]. destruct (pstep_len o s hs op s1 hs1 ds H1 Hl) as [[suf1 A1] [A2 A3]].
    destruct (IH _ _ _ _ _ H2 A2) as [[suf2 B1] [B2 B3]]. split; [exists (suf1 ++ suf2); rewrite B1, A1, app_assoc; reflexivity|]. split; [exact B2|].
    intros i Hi. change (op :: ops) with ([op] ++ ops) in Hi. unfold zero_calls, sum_calls in Hi. rewrite !flat_map_app, !in_app_iff in Hi. unfold zero_calls, sum_calls in A3, B3.
    assert (L : length hs1 <= length hs') by (rewrite B1, app_length; lia). specialize (A3 i). specialize (B3 i). assert (i < length hs1 -> i < length hs') by lia. tauto.
Qed.

Lemma calls_snoc : forall (rs : list (rnd E)) r, calls (rs ++ [r]) = calls rs ++ r_ops r.
Proof. clear HE Hp. intros. unfold calls. rewrite flat_map_app. cbn. rewrite app_nil_r. reflexivity. Qed.
Lemma vcalls_snoc : forall (rs : list (rnd E)) r, vcalls (rs ++ [r]) = vcalls rs ++ r_vops r.
Proof. clear HE Hp. intros. unfold vcalls. rewrite flat_map_app. cbn. rewrite app_nil_r. reflexivity. Qed.
Lemma session_snoc : forall (o : oracle p comm) vdebug ck vk rs r, session (E:=E) o vdebug ck vk (rs ++ [r]) = bind (session o vdebug ck vk rs) (fun w => round o vdebug w r).
Proof. clear HE Hp. intros. unfold session. rewrite foldM_app. destruct (foldM _ _ rs) as [w| |]; cbn [bind foldM]; [|reflexivity|reflexivity]. destruct (round o vdebug w r); reflexivity. Qed.

Lemma session_len : forall (o : oracle p comm) vdebug ck vk rs s hs v cs, session (E:=E) o vdebug ck vk rs = Ok ((s, hs), (v, cs)) ->
  length hs = length (denote (calls rs)) /\ (forall i, In i (zero_calls (calls rs)) \/ In i (sum_calls (calls rs)) -> i < length hs).
Proof.
  clear HE Hp. intros o vdebug ck vk rs. induction rs as [|r rs IH] using rev_ind; intros s hs v cs H.
  - inversion H; subst. split; [reflexivity|]. intros i [[]|[]].
  - rewrite session_snoc in H. apply bind_ok_inv in H. destruct H as [[[s0 hs0] [v0 cs0]] [H0 H]]. destruct (IH _ _ _ _ H0) as [A1 A2].
    unfold round in H. apply bind_ok_inv in H. destruct H as [[s1 hs1] [H1 H]]. apply bind_ok_inv in H. destruct H as [[cp s2] [_ H]]. apply bind_ok_inv in H. destruct H as [[v1 cs1] [_ H]].
    apply bind_ok_inv in H. destruct H as [v2 [_ H]]. inversion H; subst. destruct (steps_len o _ _ _ _ _ _ H1 A1) as [[suf B1] [B2 B3]].
    rewrite calls_snoc. split; [unfold denote; rewrite fold_left_app; exact B2|]. intros i Hi. unfold zero_calls, sum_calls in *. rewrite !flat_map_app, !in_app_iff in Hi.
    assert (L : length hs0 <= length hs) by (rewrite B1, app_length; lia). specialize (A2 i). specialize (B3 i). assert (i < length hs0 -> i < length hs) by lia. tauto.
Qed.

Definition good (pp : pparam E) (r : rnd E) : Prop := distinct_addresses (r_addr r) /\ mirror false pp (r_ops r) (r_vops r).

Lemma vcalls_sums : forall pp (rs : list (rnd E)) i c, Forall (good pp) rs -> In (VOSum i c) (vcalls rs) -> In i (sum_calls (calls rs)).
Proof.
  clear HE Hp. intros pp rs i c F. induction F as [|r rs [_ Hm] F IH]; intros Hin; [contradiction|]. unfold vcalls, calls, sum_calls in *. cbn [flat_map] in *. rewrite flat_map_app. apply in_or_app.
  apply in_app_or in Hin. destruct Hin as [Hin|Hin]; [left; apply (mirror_sums _ _ _ _ Hm _ _ Hin)|right; apply IH; exact Hin].
Qed.

Lemma session_inv : forall (o : oracle p comm) vdebug g h (tau : list (F p)) n D rs s hs v cs,
  Forall (good (srs_pp (srs_of g h tau))) rs -> session o vdebug (srs_pp (srs_of g h tau)) (vk_of g h tau) rs = Ok ((s, hs), (v, cs)) ->
  (forall hd, In hd hs -> tp_nv hd = n) -> 0 < n <= length tau -> (forall d, In d (degrees (calls rs)) -> d <= D) -> 1 <= D -> D + 1 < fsize p -> 2 < fsize p ->
  (forall r rs', rs = r :: rs' -> 2 <= commit_calls (r_ops r)) -> zeros_hold (calls rs) ->
  (forall i c, In (VOSum i c) (vcalls rs) -> c = Fsum (corners (poly_at (calls rs) i))) ->
  sinv g h tau n (calls rs) s hs v cs.
Proof.
  intros o vdebug g h tau n D rs. induction rs as [|r rs IH] using rev_ind; intros s hs v cs G H Hnv Hn Hdeg HD HDf H2f H2 Hz Hg.
  - inversion H; subst. apply sinv_new.
  - rewrite session_snoc in H. apply bind_ok_inv in H. destruct H as [[[s0 hs0] [v0 cs0]] [H0 H]].
    unfold round in H. apply bind_ok_inv in H. destruct H as [[s1 hs1] [H1 H]]. apply bind_ok_inv in H. destruct H as [[cp s2] [Hc H]]. apply bind_ok_inv in H. destruct H as [[v1 cs1] [Hv H]].
    apply bind_ok_inv in H. destruct H as [v2 [Hvc H]]. inversion H; subst s2 hs1 v2 cs1. clear H.
    destruct (session_len _ _ _ _ _ _ _ _ _ H0) as [L1 L2]. destruct (steps_len o _ _ _ _ _ _ H1 L1) as [[suf L3] _].
    apply Forall_app in G. destruct G as [G1 G2]. inversion G2 as [|? ? [G3 G4] _]; subst. rewrite calls_snoc in *. rewrite vcalls_snoc in Hg.
    assert (I : sinv g h tau n (calls rs) s0 hs0 v0 cs0).
    { apply IH; try assumption.
      - intros hd Hh. apply Hnv. apply in_or_app. auto.
      - intros d Hd. apply Hdeg. apply degrees_more. exact Hd.
      - intros r0 rs' ->. apply (H2 r0 (rs' ++ [r])). reflexivity.
      - intros i Hi. rewrite <- (poly_more (calls rs) (r_ops r) i) by (rewrite <- L1; apply L2; auto). apply Hz. unfold zero_calls. rewrite flat_map_app. apply in_or_app. left. exact Hi.
      - intros i c Hin. rewrite <- (poly_more (calls rs) (r_ops r) i); [apply Hg; apply in_or_app; auto|]. rewrite <- L1. apply L2. right. eapply vcalls_sums; eassumption. }
    assert (C2 : 2 <= commit_calls (calls rs ++ r_ops r)).
    { rewrite commit_app. destruct rs as [|r0 rs']; [specialize (H2 r [] eq_refl); lia|]. specialize (H2 r0 (rs' ++ [r]) eq_refl). unfold calls. cbn [flat_map]. rewrite commit_app. lia. }
    destruct (round_step o vdebug g h tau n D (calls rs) s0 hs0 v0 cs0 r s1 _ I G3 G4 H1 Hnv Hn Hdeg HD HDf H2f C2 Hz) as [cp' [s2' [v1' [A1 [_ [A3 [_ [_ [_ A7]]]]]]]]].
    { intros i c Hin. apply Hg. apply in_or_app. auto. }
    rewrite Hc in A1. inversion A1; subst cp' s2'. rewrite Hv in A3. inversion A3; subst. apply A7. exact Hvc.
Qed.

Lemma session_complete : forall (o : oracle p comm) vdebug g h rd N k srs ck vk rs r s hs v cs s1 hs1 n D,
  1 <= N -> k <= N -> gen_srs E g h rd N = Ok srs -> kzg_trim srs None (Some k) = Ok (ck, vk) ->
  Forall (fun r => distinct_addresses (r_addr r) /\ mirror false ck (r_ops r) (r_vops r)) (rs ++ [r]) ->
  session o vdebug ck vk rs = Ok ((s, hs), (v, cs)) -> foldM (pstep o) (s, hs) (r_ops r) = Ok (s1, hs1) ->
  (forall hd, In hd hs1 -> tp_nv hd = n) -> 0 < n <= k ->
  let ops := calls (rs ++ [r]) in
  (forall d, In d (degrees ops) -> d <= D) -> 1 <= D -> D + 1 < fsize p -> 2 < fsize p ->
  2 <= commit_calls (r_ops (hd r rs)) -> zeros_hold ops ->
  (forall i c, In (VOSum i c) (vcalls (rs ++ [r])) -> c = Fsum (corners (poly_at ops i))) ->
  cs = map tp_id hs /\ Forall2 (fun hd d => tp_nv hd = fst d /\ exists s', tp_evaluations s hd = Ok (corners d, s')) hs (denote (calls rs)) /\
  exists cp s2 v1, compile_round o r s1 = Ok (cp, s2) /\ cp_comms cp = pt_comm s1 /\
    foldM (vstep o vdebug) (set_compiled_proof v cp, cs) (r_vops r) = Ok (v1, map tp_id hs1) /\
    (forall i, In i (sum_calls ops) -> get_prover_claimed_sum v1 (tp_id (nth i hs1 dh)) = Ok (Fsum (corners (poly_at ops i)))) /\
    (off_nodes cp -> exists v2, verify_claims o v1 = Ok v2) /\ (~ off_nodes cp -> verify_claims o v1 = Panic).
Proof.
  intros o vdebug g h rd N k srs ck vk rs r s hs v cs s1 hs1 n D HN Hk Hg Ht G H H1 Hnv Hn ops Hdeg HD HDf H2f H2 Hz Hgiven.
  destruct (kzg_trim_srs HE g h rd N k HN Hk) as [srs' [ck' [vk' [G1 [G2 [G3 G4]]]]]]. rewrite Hg in G1. inversion G1; subst srs'. rewrite Ht in G2. inversion G2; subst ck' vk'. clear G1 G2.
  set (tau := suffix k (trapdoor rd N)) in *. subst ck vk.
  assert (Lt : length tau = k) by (unfold tau; apply suffix_length; rewrite trapdoor_length; exact Hk).
  destruct (session_len _ _ _ _ _ _ _ _ _ H) as [L1 L2]. destruct (steps_len o _ _ _ _ _ _ H1 L1) as [[suf L3] _].
  apply Forall_app in G. destruct G as [Ga Gb]. apply Forall_inv in Gb. destruct Gb as [Gc Gd]. subst hs1. unfold ops in *. rewrite calls_snoc in *. rewrite vcalls_snoc in Hgiven.
  assert (I : sinv g h tau n (calls rs) s hs v cs).
  { apply (session_inv o vdebug g h tau n D); try assumption; try lia.
    - intros hd Hh. apply Hnv. apply in_or_app. auto.
    - intros d Hd. apply Hdeg. apply degrees_more. exact Hd.
    - intros r0 rs' ->. exact H2.
    - intros i Hi. rewrite <- (poly_more (calls rs) (r_ops r) i) by (rewrite <- L1; apply L2; auto). apply Hz. unfold zero_calls. rewrite flat_map_app. apply in_or_app. left. exact Hi.
    - intros i c Hin. rewrite <- (poly_more (calls rs) (r_ops r) i); [apply Hgiven; apply in_or_app; auto|]. rewrite <- L1. apply L2. right. eapply vcalls_sums; [exact Ga|exact Hin]. }
  split; [apply (l_ids _ _ _ _ _ (si_lock _ _ _ _ _ _ _ _ _ I))|]. split.
  { pose proof (si_ag _ _ _ _ _ _ _ _ _ I) as F2. pose proof (si_w _ _ _ _ _ _ _ _ _ I) as Hw. clear - F2 Hw.
    assert (K : forall hd, In hd hs -> known s (tp_id hd) (tp_nv hd)) by (intros hd Hh; apply (w_handles _ Hw hd Hh)).
    pose proof (w_inv _ Hw) as Hi. cbn [fst] in Hi. clear Hw. induction F2 as [|hd d hs ds [A B] F2 IH]; constructor; [|apply IH; intros; apply K; right; assumption].
    split; [exact A|]. destruct (evaluations_spec s (tp_id hd) (tp_nv hd) Hi (K hd (or_introl eq_refl))) as [s' [E1 _]]. exists s'. unfold tp_evaluations. rewrite E1. f_equal. f_equal.
    unfold ptab, corners. rewrite <- A. apply map_ext_in. intros j Hj. apply in_seq in Hj. apply B. exists j. split; [lia|reflexivity]. }
  assert (C2 : 2 <= commit_calls (calls rs ++ r_ops r)).
  { rewrite commit_app. destruct rs as [|r0 rs']; cbn [hd] in H2; [lia|]. unfold calls. cbn [flat_map]. rewrite commit_app. lia. }
  destruct (round_step o vdebug g h tau n D (calls rs) s hs v cs r s1 _ I Gc Gd H1 Hnv ltac:(lia) Hdeg HD HDf H2f C2 Hz) as [cp [s2 [v1 [A1 [A2 [A3 [A4 [A5 [A6 _]]]]]]]]].
  { intros i c Hin. apply Hgiven. apply in_or_app. auto. }
  exists cp, s2, v1. repeat (split; [assumption|]). exact A6.
Qed.
End S.
