(** Compiling a proof and verifying it. *)
From Coq Require Import String List Arith Lia Bool ZArith Znumtheory.
Import ListNotations.
From Verif Require Import Res ResLemmas Fp FSum SpecMle SpecVp SpecKzg SpecPoly SpecBatch SpecTracker ModelMle MleLemmas MleProofs MleExtra ModelVp VpHist VpProofs VpExtra
  ModelTranscript ModelSumcheck SumcheckVerify ZerocheckProofs TranscriptProofs Pairing ModelKzg KzgProofs KzgExtra ModelBatch BatchProofs BatchExtra
  ModelProver ProverHist TmapLemmas ProverProofs ProverExtra ProverStep DegreeProofs EqualizeProofs CompileProofs ModelVerifier VerifierHist CompileHist NodeProofs.
Local Open Scope string_scope.
Local Open Scope list_scope.
Local Open Scope nat_scope.

(** ** Challenges in proofs come from the oracle *)
Section O.
Context {p : positive} {C : Type}.
Definition drawn (o : oracle p C) (c : F p) : Prop := exists h l, c = o h l.

Lemma drawT_drawn : forall (o : oracle p C) l t c t', drawT o l t = Ok (c, t') -> drawn o c.
Proof.
  intros o l t c t' H. unfold drawT, draw in H. destruct (is_empty t); [discriminate|]. inversion H; subst. eexists. eexists. reflexivity.
Qed.
Lemma prove_round_chals : forall (o : oracle p C) sc st chal st' m, Forall (drawn o) (ps_chals st) -> (forall c, chal = Some c -> drawn o c) ->
  prove_round sc st chal = Ok (st', m) -> Forall (drawn o) (ps_chals st').
Proof.
  intros o sc st chal st' m H1 H2 H. unfold prove_round in H. destruct (num_variables (ps_poly st) <=? ps_round st); [discriminate|].
  destruct chal as [c|].
  - destruct (ps_round st =? 0); [discriminate|]. destruct (rnth (ps_chals st ++ [c]) _); try discriminate. cbn [bind] in H.
    destruct (mapM _ _); try discriminate. cbn [bind] in H. destruct (round_products _ _ _ _ _ _ _ _); try discriminate. cbn [bind] in H.
    inversion H; subst. cbn [ps_chals]. apply Forall_app. split; [exact H1|]. constructor; [apply H2; reflexivity|constructor].
  - destruct (negb _); [discriminate|]. cbn [bind] in H. destruct (round_products _ _ _ _ _ _ _ _); try discriminate. cbn [bind] in H.
    inversion H; subst. exact H1.
Qed.
Lemma prove_loop_chals : forall (o : oracle p C) sc k i st chal ms t st' chal' ms' t', Forall (drawn o) (ps_chals st) -> (forall c, chal = Some c -> drawn o c) ->
  prove_loop o sc k i st chal ms t = Ok (st', chal', ms', t') -> Forall (drawn o) (ps_chals st') /\ (forall c, chal' = Some c -> drawn o c).
Proof.
  intros o sc k. induction k as [|k IH]; intros i st chal ms t st' chal' ms' t' H1 H2 H.
  - cbn [prove_loop] in H. inversion H; subst. auto.
  - cbn [prove_loop] in H. destruct (prove_round (sc i) st chal) as [[st1 m]| |] eqn:E1; try discriminate. cbn [bind] in H.
    destruct (drawT o _ _) as [[c t1]| |] eqn:E2; try discriminate. cbn [bind] in H.
    apply (IH _ _ _ _ _ _ _ _ _) in H; [exact H| |].
    + eapply prove_round_chals; [exact H1|exact H2|exact E1].
    + intros c' Hc. inversion Hc; subst. eapply drawT_drawn. exact E2.
Qed.
Lemma sc_prove_drawn : forall (o : oracle p C) sc v t pf t', sc_prove o sc v t = Ok (pf, t') -> forall c, In c (pf_point pf) -> drawn o c.
Proof.
  intros o sc v t pf t' H. unfold sc_prove in H. destruct (prover_init v) as [st| |] eqn:E0; try discriminate. cbn [bind] in H.
  destruct (prove_loop _ _ _ _ _ _ _ _) as [[[[st' chal] ms] t2]| |] eqn:E1; try discriminate. cbn [bind] in H. inversion H; subst. clear H.
  apply (prove_loop_chals o) in E1.
  - destruct E1 as [F1 F2]. cbn [pf_point]. apply Forall_forall. destruct chal as [c|]; [|exact F1]. apply Forall_app. split; [exact F1|].
    constructor; [apply F2; reflexivity|constructor].
  - unfold prover_init in E0. destruct (num_variables v =? 0); [discriminate|]. 
    repeat match type of E0 with bind ?x _ = _ => destruct x; try discriminate; cbn [bind] in E0 end. inversion E0; subst. constructor.
  - discriminate.
Qed.
Lemma multi_open_drawn : forall {E : pairing p} (o : oracle p C) sc addr (pp : pparam E) polys points vs t bp t',
  multi_open o sc addr pp polys points vs t = Ok (bp, t') -> forall c, In c (pf_point (bp_sc bp)) -> drawn o c.
Proof.
  intros E o sc addr pp polys points vs t bp t' H. unfold multi_open in H.
  destruct (rnth polys 0) as [f0| |]; try discriminate. cbn [bind] in H.
  destruct (draw_vecT o _ _ _) as [[ts t1]| |]; try discriminate. cbn [bind] in H.
  repeat match type of H with bind ?x (fun v => bind (map_err _ _) _) = _ => fail 1 | bind ?x _ = _ => destruct x; try discriminate; cbn [bind] in H end.
  match type of H with bind ?x _ = _ => destruct x as [v| |]; try discriminate; cbn [bind] in H end.
  destruct (sc_prove o sc v t1) as [[pf t2]| |] eqn:E1; try discriminate. cbn [map_err bind] in H.
  repeat match type of H with bind ?x _ = _ => destruct x; try discriminate; cbn [bind] in H end.
  match type of H with (let (_, _) := ?x in _) = _ => destruct x end. inversion H; subst. cbn [bp_sc]. eapply sc_prove_drawn. exact E1.
Qed.
End O.

(** ** The batch verifier does not fail on other commitments *)
Section B.
Context {p : positive} {C : Type} {E : pairing p}.
Lemma batch_terms_other : forall a2 eq_t (c1 c2 : list (gcar (PG1 E))) points l, length c1 = length c2 ->
  batch_terms a2 eq_t c1 points = Ok l -> exists l', batch_terms a2 eq_t c2 points = Ok l'.
Proof.
  intros a2 eq_t c1 c2 points l Hl. unfold batch_terms. generalize (combine (seq 0 (length points)) points). intros ips. revert l.
  induction ips as [|ip ips IH]; intros l H; [eexists; reflexivity|]. cbn [mapM] in *.
  destruct (kzg_eq_eval a2 (snd ip)); try discriminate. cbn [bind] in *. destruct (rnth eq_t (fst ip)); try discriminate. cbn [bind] in *.
  assert (Hr : exists c, rnth c2 (fst ip) = Ok c).
  { destruct (rnth c1 (fst ip)) eqn:E1; try discriminate. unfold rnth in *. destruct (nth_error c1 (fst ip)) eqn:E2; [|discriminate].
    assert (fst ip < length c2) by (rewrite <- Hl; apply nth_error_Some; congruence).
    destruct (nth_error c2 (fst ip)) eqn:E3; [eexists; reflexivity|]. apply nth_error_None in E3. lia. }
  destruct Hr as [c Hc]. rewrite Hc. destruct (rnth c1 (fst ip)); try discriminate. cbn [bind] in *.
  match type of H with bind ?x _ = _ => destruct x as [l0| |] eqn:E0; try discriminate end. destruct (IH _ eq_refl) as [l' ->]. eexists. reflexivity.
Qed.
Lemma kzg_verify_other : forall (vk : vparam E) c1 c2 pt v prf b, kzg_verify vk c1 pt v prf = Ok b -> exists b', kzg_verify vk c2 pt v prf = Ok b'.
Proof.
  intros vk c1 c2 pt v prf b H. unfold kzg_verify in *. destruct (vk_nv vk <? length pt); [discriminate|].
  destruct (mapM _ _); try discriminate. eexists. reflexivity.
Qed.
Lemma batch_verify_other : forall (o : oracle p C) vk (c1 c2 : list (gcar (PG1 E))) points bp t b t', length c1 = length c2 ->
  batch_verify o vk c1 points bp t = Ok (b, t') -> exists b', batch_verify o vk c2 points bp t = Ok (b', t').
Proof.
  intros o vk c1 c2 points bp t b t' Hl H. unfold batch_verify in *. rewrite <- Hl.
  destruct (draw_vecT o _ _ t) as [[ts t1]| |]; try discriminate. cbn [bind] in *.
  destruct (build_eq_x_r_vec ts) as [eq_t| |]; try discriminate. cbn [bind] in *.
  destruct (batch_terms _ eq_t c1 points) as [l| |] eqn:E1; try discriminate. destruct (batch_terms_other _ _ c1 c2 _ _ Hl E1) as [l' ->]. cbn [bind] in *.
  destruct (batch_sum _ _ _); try discriminate. cbn [bind] in *. destruct (sc_verify _ _ _ _ _ _) as [[sub t2]| |]; try discriminate. cbn [map_err bind] in *.
  match type of H with bind ?x _ = _ => destruct x as [b0| |] eqn:E0; try discriminate end. cbn [bind] in H. inversion H; subst.
  destruct (kzg_verify_other _ _ (msm (map fst l') (map snd l')) _ _ _ _ E0) as [b' ->]. eexists. reflexivity.
Qed.
End B.

(** ** Sums of combinations *)
Section W.
Context {p : positive}.
Add Ring Fr : (@F_ring p).
Lemma cube_sum_weighted : forall {A} n (f : A -> list (F p) -> F p) (cs : list (F p)) (l : list A),
  cube_sum n (fun x => weighted cs (map (fun a => f a x) l)) = weighted cs (map (fun a => cube_sum n (f a)) l).
Proof.
  intros A n f cs l. revert cs. induction l as [|a l IH]; intros [|c cs]; unfold weighted; cbn [combine map]; try (unfold cube_sum; apply sumN_zero; reflexivity).
  cbn [map fst snd]. rewrite Fsum_cons. specialize (IH cs). unfold weighted in IH. rewrite <- IH. rewrite <- cube_sum_scale. unfold cube_sum. rewrite <- sumN_add.
  apply sumN_ext. intros k _. apply Fsum_cons.
Qed.
Lemma cube_sum_ext' : forall n (f g : list (F p) -> F p), (forall x, length x = n -> f x = g x) -> cube_sum n f = cube_sum n g.
Proof. intros n f g H. unfold cube_sum. apply sumN_ext. intros k _. apply H. apply bpoint_length. Qed.
End W.

Section T.
Context {p : positive} {E : pairing p}.
Hypothesis HE : pairing_laws E.
Hypothesis Hp : prime (Zpos p).
Add Ring Fr2 : (@F_ring p).
Implicit Types s : ptrk E.
Local Notation comm := (gcar (PG1 E)).

Lemma ptab_sum : forall s id n, Fsum (ptab s id n) = cube_sum n (pval s id).
Proof. reflexivity. Qed.

Lemma evaluations_deg : forall s id n l s', pinv s -> known s id n -> evaluations s id = Ok (l, s') -> deg_le s' id 1.
Proof.
  intros s id n l s' Hi Hk H. destruct (evaluations_spec s id n Hi Hk) as [s1 [H1 [H2 [_ [_ [[a [H3 _]] _]]]]]].
  rewrite H1 in H. inversion H; subst. split; [lia|]. intros v Hv. exfalso. eapply (i_disj s'); eassumption.
Qed.

(** The end of compile_proof, from the sum check on. *)
Definition tail (o : oracle p comm) (sc sc' : nat -> nat -> sched) (addr : nat -> nat) s4 (agg : nat) : res (cproof E * ptrk E) :=
  v <- to_arithmatic_virtual_poly s4 agg ;;
  ' (pf, t) <- unwrap (sc_prove o sc v (pt_tr s4)) ;;
  let s5 := set_tr s4 t in
  let ids := sort_ids (map fst (pt_comm s5)) in
  polys <- mapM (fun id => a <- ounwrap (mget (pt_mat s5) id) ;; Ok (snd a)) ids ;;
  evals <- mapM (fun m => x <- ark_evaluate m (pf_point pf) ;; ounwrap x) polys ;;
  let points := map (fun _ => pf_point pf) ids in
  ' (bp, t') <- map_err (multi_open o sc' addr (pt_pp s5) polys points evals (pt_tr s5)) IOPInvalidProver ;;
  let s6 := set_tr s5 t' in
  Ok (mkCproof (pt_comm s6) (fold_left (fun m (cl : nat * F p) => mput m (fst cl) (snd cl)) (pt_sc s6) [])
        pf (max_degree v) (num_variables v) (map (fun id => ((id, pf_point pf), F0)) ids) [bp], s6).

Lemma open_values_same : forall (polys : list (mle p)) (ids : list nat) pt, length ids = length polys ->
  open_values polys (map (fun _ => pt) ids) = map (fun m => value m pt) polys.
Proof.
  intros polys ids pt. revert ids. induction polys as [|m polys IH]; intros [|i ids] H; try discriminate; [reflexivity|].
  unfold open_values in *. cbn [map combine fst snd]. f_equal. apply IH. simpl in H. lia.
Qed.

Lemma run_msgs_nonempty : forall (o : oracle p comm) ms t, is_empty t = false -> is_empty (snd (run_msgs o ms t)) = false.
Proof.
  intros o ms. induction ms as [|m ms IH]; intros t Ht; [exact Ht|]. cbn [run_msgs].
  specialize (IH (tdraw "Internal round" (o (hist (append "prover msg" (PMsg m) t)) "Internal round") (append "prover msg" (PMsg m) t)) eq_refl).
  destruct (run_msgs o ms _) as [cs t']. exact IH.
Qed.

Lemma nonnode_mono : forall a b (c : F p), a <= b -> nonnode b c -> nonnode a c.
Proof. intros a b c H Hb i Hi. apply Hb. lia. Qed.

Lemma off_nodes_dec : forall cp : cproof E, off_nodes cp \/ ~ off_nodes cp.
Proof.
  intros cp. destruct (all_nonnode_dec (cp_deg cp + 1) (pf_point (cp_sc cp))) as [A|[c [i [A1 [A2 A3]]]]]; [|right; intros [H _]; exact (H c A1 i A2 A3)].
  assert (B : forall l : list (batch_proof E), (forall b c, In b l -> In c (pf_point (bp_sc b)) -> nonnode 3 c) \/ ~ (forall b c, In b l -> In c (pf_point (bp_sc b)) -> nonnode 3 c)).
  { induction l as [|b l [IH|IH]]; [left; intros b c []| |right; intros H; apply IH; intros b' c Hb; apply H; right; exact Hb].
    destruct (all_nonnode_dec 3 (pf_point (bp_sc b))) as [B|[c [i [B1 [B2 B3]]]]]; [left; intros b' c [<-|Hb]; [apply B|exact (IH b' c Hb)]|right; intros H; exact (H b c (or_introl eq_refl) B1 i B2 B3)]. }
  destruct (B (cp_pcs cp)) as [B1|B1]; [left; split; assumption|right; intros [_ H]; exact (B1 H)].
Qed.

(** Where the challenges recorded in the proof come from: [t] is the transcript handed to the sum check. *)
Definition runs_on (o : oracle p comm) (t : tr p comm) (n m : nat) (cp : cproof E) : Prop :=
  exists ms t1 ts t2 bp ms2 t3, run_msgs o ms (append "aux info" (PAux (cp_deg cp) n) t) = (pf_point (cp_sc cp), t1) /\ length ms = n /\
    run_draws o "t" (Nat.log2_up m) t1 = (ts, t2) /\ cp_pcs cp = [bp] /\
    run_msgs o ms2 (append "aux info" (PAux 2 n) t2) = (pf_point (bp_sc bp), t3) /\ length ms2 = n.

Lemma tail_spec : forall (o : oracle p comm) sc sc' addr g h (tau : list (F p)) s agg n d,
  pinv s -> is_empty (pt_tr s) = false -> pt_pp s = srs_pp (srs_of g h tau) -> known s agg n -> deg_le s agg d -> d < fsize p -> 2 < fsize p ->
  0 < n -> n <= length tau -> distinct_addresses addr -> 2 <= length (pt_comm s) ->
  (forall id c, mget (pt_comm s) id = Some c -> exists a, mget (pt_mat s) id = Some a /\ nv (snd a) = n) ->
  exists cp s' bp, tail o sc sc' addr s agg = Ok (cp, s') /\ cp_comms cp = pt_comm s /\
    cp_sums cp = fold_left (fun m (cl : nat * F p) => mput m (fst cl) (snd cl)) (pt_sc s) [] /\
    cp_nv cp = n /\ 1 <= cp_deg cp <= d /\ extract_sum (cp_sc cp) = Ok (cube_sum n (pval s agg)) /\ length (pf_point (cp_sc cp)) = n /\
    cp_query cp = map (fun id => ((id, pf_point (cp_sc cp)), F0)) (sort_ids (map fst (pt_comm s))) /\ cp_pcs cp = [bp] /\
    ((forall c, In c (pf_point (cp_sc cp)) -> nonnode (cp_deg cp + 1) c) -> exists sub t',
       sc_verify o (cube_sum n (pval s agg)) (cp_sc cp) (cp_deg cp) n (pt_tr s) = Ok (sub, t') /\
       forall comms, length comms = length (pt_comm s) ->
         ((forall c, In c (pf_point (bp_sc bp)) -> nonnode 3 c) -> exists b,
           batch_verify o (vk_of g h tau) comms (map (fun _ => sub_point sub) (sort_ids (map fst (pt_comm s)))) bp t' = Ok (b, pt_tr s')) /\
         ((exists x i, In x (pf_point (bp_sc bp)) /\ i < 3 /\ x = ofN i) ->
           batch_verify o (vk_of g h tau) comms (map (fun _ => sub_point sub) (sort_ids (map fst (pt_comm s)))) bp t' = Panic)) /\
    ((exists x i, In x (pf_point (cp_sc cp)) /\ i < cp_deg cp + 1 /\ x = ofN i) -> forall c, sc_verify o c (cp_sc cp) (cp_deg cp) n (pt_tr s) = Panic) /\
    runs_on o (pt_tr s) n (length (pt_comm s)) cp /\ s' = set_tr s (pt_tr s') /\ is_empty (pt_tr s') = false.
Proof.
  intros o sc sc' addr g h tau s agg n d Hi He Hpp Hk Hd Hdf H2f Hn Htau Hadr H2 Hcm. unfold tail.
  destruct (to_arith_spec s agg n d Hi Hk Hd) as [w [W1 [W2 [W3 [W4 W5]]]]]. rewrite W1. cbn [bind].
  destruct (sc_prove_spec Hp o sc w (pt_tr s) W2 ltac:(lia) ltac:(lia)) as [cs [t' [S1 [S2 S3]]]].
  destruct (sc_complete Hp o sc w (pt_tr s) W2) as [pf [t0 [P1 [P2 [P3 P4]]]]]; [lia|lia|lia|].
  rewrite P1 in S1. inversion S1 as [[Q1 Q2]]. subst t0. clear S1.
  assert (He' : is_empty t' = false).
  { pose proof (run_msgs_nonempty o (honest (num_variables w) (max_degree w) (vp_val w) [] cs)
        (append "aux info" (PAux (max_degree w) (num_variables w)) (pt_tr s)) eq_refl) as X. rewrite S3 in X. exact X. }
  rewrite P1. cbn [unwrap bind]. change (pt_comm (set_tr s t')) with (pt_comm s). change (pt_mat (set_tr s t')) with (pt_mat s).
  change (pt_pp (set_tr s t')) with (pt_pp s). change (pt_tr (set_tr s t')) with t'.
  set (ids := sort_ids (map fst (pt_comm s))).
  assert (Lids : length ids = length (pt_comm s)).
  { unfold ids. rewrite (Permutation.Permutation_length (sort_perm _)), map_length. reflexivity. }
  set (pol := fun id => match mget (pt_mat s) id with Some a => snd a | None => mle_zero (p:=p) end).
  assert (Hpol : forall id, In id ids -> exists a, mget (pt_mat s) id = Some a /\ pol id = snd a /\ wf_mle (pol id) /\ nv (pol id) = n).
  { intros id Hin. unfold ids in Hin. apply (proj1 (sort_in _ _)) in Hin. apply mget_key in Hin. destruct Hin as [c Hc]. destruct (Hcm id c Hc) as [a [A1 A2]].
    exists a. unfold pol. rewrite A1. destruct (i_wf s Hi id a A1). auto. }
  rewrite (mapM_ok _ pol).
  2:{ intros id Hin. destruct (Hpol id Hin) as [a [A1 [A2 _]]]. rewrite A1. cbn [ounwrap bind]. congruence. }
  cbn [bind]. rewrite W3 in P2.
  rewrite (mapM_ok _ (fun m => value m (pf_point pf))).
  2:{ intros m Hm. apply in_map_iff in Hm. destruct Hm as [id [<- Hin]]. destruct (Hpol id Hin) as [a [_ [_ [A3 A4]]]].
      rewrite ark_evaluate_spec by exact A3. replace (nv (pol id) =? length (pf_point pf)) with true by (symmetry; apply Nat.eqb_eq; congruence). reflexivity. }
  cbn [bind]. rewrite Hpp.
  assert (Lp : length (map pol ids) = length (pt_comm s)) by (rewrite map_length; exact Lids).
  assert (Hbw : batch_wf n (map pol ids) (map (fun _ => pf_point pf) ids)).
  { split; [rewrite !map_length; reflexivity|]. split.
    - intros f Hf. apply in_map_iff in Hf. destruct Hf as [id [<- Hin]]. destruct (Hpol id Hin) as [a [_ [_ [A3 A4]]]]. auto.
    - intros z Hz. apply in_map_iff in Hz. destruct Hz as [id [<- _]]. exact P2. }
  destruct (run_draws o "t" (Nat.log2_up (length (map pol ids))) t') as [ts t1] eqn:Rd.
  destruct (batch_honest HE Hp o sc' addr g h tau n (map pol ids) (map (fun _ => pf_point pf) ids) t' ts t1 Hadr Hn Htau) as [bpf [pfo [t2 [B1 [B2 [B3 B4]]]]]].
  { rewrite Lp. exact H2. } { exact Hbw. } { exact He'. } { exact H2f. } { rewrite draw_vecT_ok by exact He'. rewrite Rd. reflexivity. }
  rewrite B2. cbn [map_err bind].
  eexists. eexists. eexists. split; [reflexivity|]. cbn [cp_comms cp_sums cp_nv cp_deg cp_sc cp_query cp_pcs].
  split; [reflexivity|]. split; [reflexivity|]. split; [exact W3|]. split; [exact W5|].
  assert (Esum : cube_sum (num_variables w) (vp_val w) = cube_sum n (pval s agg)).
  { rewrite W3. apply cube_sum_ext'. intros x _. apply W4. }
  split; [rewrite P3, Esum; reflexivity|]. split; [exact P2|]. split; [reflexivity|]. split; [reflexivity|].
  split; [|split].
  - intros Hnn. rewrite Esum, W3 in P4. rewrite P4 by exact Hnn.
    eexists. eexists. split; [reflexivity|]. cbn [sub_point bp_sc]. intros comms Hc.
    assert (Hv : length (map (fun m => value m (pf_point pf)) (map pol ids)) = length (map pol ids)) by apply map_length. split.
    + intros Hnb. specialize (B3 _ Hv). rewrite open_values_same in B3 by (rewrite map_length; reflexivity).
      destruct (batch_verify_other o (vk_of g h tau) _ comms _ _ _ _ _ (eq_trans (map_length _ _) (eq_trans Lp (eq_sym Hc))) (B3 eq_refl Hnb)) as [b' Hb].
      exists b'. exact Hb.
    + intros Hx. apply (batch_node Hp HE o sc' addr g h tau n (map pol ids) (map (fun _ => pf_point pf) ids) (map (fun m => value m (pf_point pf)) (map pol ids)) t' _ t2);
        [exact Hadr|exact Hn|exact Htau|rewrite Lp; exact H2|exact Hbw|exact He'|exact H2f|apply B2|exact Hv|congruence|exact Hx].
  - intros Hx c. pose proof (sc_prove_node Hp o sc w (pt_tr s) pf t' W2 ltac:(lia) ltac:(lia) P1 Hx c) as Q. rewrite W3 in Q. exact Q.
  - destruct (multi_open_run HE Hp o sc' addr g h tau n (map pol ids) (map (fun _ => pf_point pf) ids) t' ts t1 Hadr Hn Htau)
      as [_ [_ [_ [v [e [pf2 [t3 [gp [po [V1 [V2 [V3 [V4 [_ [X1 [X2 [_ [_ [_ [_ X3]]]]]]]]]]]]]]]]]]]]; [rewrite Lp; exact H2|exact Hbw|exact He'|exact H2f|exact Rd|].
    specialize (B2 (map (fun m => value m (pf_point pf)) (map pol ids))). rewrite X3 in B2. injection B2 as Q3 Q4. subst pf2 t3.
    destruct (sc_prove_spec Hp o sc' v t1 (proj1 (built_inv v e V1)) ltac:(lia) ltac:(lia)) as [cs2 [t4 [Y1 [Y2 Y3]]]].
    rewrite X1 in Y1. injection Y1 as Q3 Q5. rewrite V2, V3 in Y3. rewrite W3 in S3.
    split.
    { unfold runs_on. cbn [cp_deg cp_sc cp_pcs]. rewrite Lp in Rd. exists (honest n (max_degree w) (vp_val w) [] cs), t', ts, t1, (mkBatch bpf (map (fun m => value m (pf_point pf)) (map pol ids)) pfo), (honest n 2 (vp_val v) [] cs2), t4.
      rewrite Q1. cbn [pf_point bp_sc]. rewrite Q3. cbn [pf_point]. rewrite honest_length, honest_length. repeat split; try assumption; congruence. }
    split; [reflexivity|].
    pose proof (run_msgs_nonempty o (honest n 2 (vp_val v) [] cs2) (append "aux info" (PAux 2 n) t1) eq_refl) as X. rewrite Y3 in X. cbn [snd] in X.
    cbn [pt_tr set_tr]. congruence.
Qed.

(** From the claims to the aggregate. [s1] is the equalized state. *)
Definition true_sums s1 (n : nat) (cz r : list (F p)) : list (F p) :=
  map (fun cl => Fsum (ptab s1 (fst cl) n)) (pt_sc s1) ++
  [mle_ext n (fun k => weighted cz (map (fun i => pval s1 i (bpoint n k)) (pt_zc s1))) r].

Lemma claims_run : forall (o : oracle p comm) s1 n d, pinv s1 -> is_empty (pt_tr s1) = false -> 0 < n -> 1 <= d ->
  all_known s1 (map fst (pt_sc s1)) n d -> all_known s1 (pt_zc s1) n d ->
  exists cz t1 r t2 cs t3 s2 agg s3,
    run_draws o "zerocheck challenge" (length (pt_zc s1)) (pt_tr s1) = (cz, t1) /\ run_draws o "0check r" n t1 = (r, t2) /\
    run_draws o "sumcheck challenge" (length (pt_sc s1) + 1) t2 = (cs, t3) /\
    convert_zerocheck_claims o n s1 = Ok s2 /\
    aggregate_sumcheck_claims o n s2 = Ok (agg, weighted cs (map snd (pt_sc s1) ++ [F0]), s3) /\
    pinv s3 /\ sext s1 s3 /\ pt_comm s3 = pt_comm s1 /\ pt_tr s3 = t3 /\ is_empty t3 = false /\ known s3 agg n /\ deg_le s3 agg (d + 1) /\
    (exists id, pt_next s1 <= id /\ pt_sc s3 = pt_sc s1 ++ [(id, F0)]) /\
    cube_sum n (pval s3 agg) = weighted cs (true_sums s1 n cz r).
Proof.
  intros o s1 n d Hi He Hn Hd Ks Kz.
  destruct (convert_spec o n d s1 Hi He Hn Hd Kz) as [cz [t1 [r [t2 [id [s2 [C1 [C2 [C3 [C4 [C5 [C6 [C7 [C8 [C9 [C9n [C10 [C11 C12]]]]]]]]]]]]]]]]]].
  assert (He1 : is_empty t1 = false).
  { pose proof (proj1 (run_draws_nonempty o "zerocheck challenge" (length (pt_zc s1)) (pt_tr s1) He)) as X. rewrite C1 in X. exact X. }
  assert (He2 : is_empty t2 = false).
  { pose proof (proj1 (run_draws_nonempty o "0check r" n t1 He1)) as X. rewrite C2 in X. exact X. }
  destruct (aggregate_spec o n (d + 1) s2 C4) as [cs [t3 [agg [s3 [A1 [A2 [A3 [A4 [A5 [A6 [A7 [A8 [A9 [A10 A11]]]]]]]]]]]]]].
  { rewrite C8. exact He2. } { lia. }
  { intros j Hj. rewrite C9, map_app in Hj. apply in_app_or in Hj. destruct Hj as [Hj|Hj].
    - destruct (all_known_ext s1 s2 _ n d Hi C5 C6 Ks j Hj) as [X Y]. split; [exact X|]. eapply deg_le_mono; [|exact Y]. lia.
    - simpl in Hj. destruct Hj as [<-|[]]. split; [exact C10|exact C11]. }
  exists cz, t1, r, t2, cs, t3, s2, agg, s3.
  rewrite C8 in A1. rewrite C9, app_length in A1. cbn [length] in A1.
  assert (He3 : is_empty t3 = false).
  { pose proof (proj1 (run_draws_nonempty o "sumcheck challenge" (length (pt_sc s1) + 1) t2 He2)) as X. rewrite A1 in X. exact X. }
  split; [exact C1|]. split; [exact C2|]. split; [exact A1|]. split; [exact C3|].
  split; [rewrite A2, C9, map_app; reflexivity|]. split; [exact A3|]. split; [eapply sext_trans; eassumption|]. split; [congruence|].
  split; [exact A8|]. split; [exact He3|]. split; [exact A9|]. split; [exact A10|]. split; [exists id; split; [exact C9n|]; destruct A6; congruence|].
  rewrite (cube_sum_ext' n _ _ A11). rewrite (cube_sum_weighted n (fun cl : nat * F p => pval s2 (fst cl))). f_equal. unfold true_sums. rewrite C9, map_app. f_equal.
  - apply map_ext_in. intros cl Hcl. rewrite ptab_sum. apply cube_sum_ext'. intros x _. destruct (Ks (fst cl)) as [K _]; [apply in_map; exact Hcl|].
    apply (proj2 (proj1 (proj2 (proj2 C5)) _ _ K)).
  - cbn [map fst]. f_equal. rewrite (cube_sum_ext' n _ _ C12). apply (fhat_sum n (fun x => weighted cz (map (fun i => pval s1 i x) (pt_zc s1))) r).
    pose proof (run_draws_length o "0check r" n t1) as L. rewrite C2 in L. exact L.
Qed.

(** ** The verifier's side *)
Definition vkeep (v v' : vtrk E) : Prop :=
  vt_vk v' = vt_vk v /\ vt_mat v' = vt_mat v /\ vt_zc v' = vt_zc v /\ vt_proof v' = vt_proof v.

Lemma v_convert_loop : forall (o : oracle p comm) ids (v : vtrk E) agg, is_empty (vt_tr v) = false ->
  exists agg' v', foldM (fun (acc : nat * vtrk E) (cl : nat) =>
        ' (c, v') <- unwrap (vt_challenge o "zerocheck challenge" (snd acc)) ;;
        let '(id, v'') := v_mul_scalar v' cl c in
        Ok (add_comms v'' (fst acc) id)) (agg, v) ids = Ok (agg', v') /\
    vkeep v v' /\ vt_sc v' = vt_sc v /\ vt_tr v' = snd (run_draws o "zerocheck challenge" (length ids) (vt_tr v)).
Proof.
  intros o ids. induction ids as [|id ids IH]; intros v agg He.
  - exists agg, v. split; [reflexivity|]. split; [repeat split|]. split; reflexivity.
  - cbn [foldM]. unfold vt_challenge at 1. cbn [snd fst]. rewrite drawT_ok by exact He. cbn [bind unwrap].
    set (c := o (hist (vt_tr v)) "zerocheck challenge"). cbn [v_mul_scalar track_virtual v_gen_id add_comms bind].
    match goal with |- context [foldM _ ?a ids] => destruct (IH (snd a) (fst a) eq_refl) as [agg' [v' [I1 [I2 [I3 I4]]]]] end.
    exists agg', v'. split; [exact I1|]. split; [exact I2|]. split; [exact I3|]. rewrite I4. cbn [length run_draws]. fold c.
    unfold track_virtual, v_gen_id, put_virt, set_vtr. cbn [snd fst vt_tr].
    destruct (run_draws o "zerocheck challenge" (length ids) (tdraw "zerocheck challenge" c (vt_tr v))). reflexivity.
Qed.
Lemma v_aggregate_loop : forall (o : oracle p comm) cls (v : vtrk E) agg sum, is_empty (vt_tr v) = false ->
  exists agg' v', foldM (fun (acc : nat * F p * vtrk E) (cl : nat * F p) =>
        let '(agg, sum, v) := acc in
        ' (c, v') <- unwrap (vt_challenge o "sumcheck challenge" v) ;;
        let '(id, v'') := v_mul_scalar v' (fst cl) c in
        let '(agg', v''') := add_comms v'' agg id in
        Ok (agg', (sum + snd cl * c)%F, v''')) (agg, sum, v) cls =
      Ok (agg', (sum + weighted (fst (run_draws o "sumcheck challenge" (length cls) (vt_tr v))) (map snd cls))%F, v') /\
    vkeep v v' /\ vt_sc v' = vt_sc v /\ vt_tr v' = snd (run_draws o "sumcheck challenge" (length cls) (vt_tr v)).
Proof.
  intros o cls. induction cls as [|cl cls IH]; intros v agg sum He.
  - exists agg, v. cbn [foldM length run_draws fst snd map]. split; [do 3 f_equal; unfold weighted; cbn [combine map]; rewrite Fsum_nil; ring|]. split; [repeat split|]. split; reflexivity.
  - cbn [foldM]. unfold vt_challenge at 1. cbn [snd fst]. rewrite drawT_ok by exact He. cbn [bind unwrap].
    set (c := o (hist (vt_tr v)) "sumcheck challenge"). cbn [v_mul_scalar track_virtual v_gen_id add_comms bind].
    match goal with |- context [foldM _ (?a, ?b, ?w) cls] => destruct (IH w a b eq_refl) as [agg' [v' [I1 [I2 [I3 I4]]]]] end.
    exists agg', v'. unfold put_virt, set_vtr in I1, I2, I3, I4. cbn [vt_vk vt_tr vt_next vt_mat vt_virt vt_query vt_sc vt_zc vt_proof] in I1, I2, I3, I4.
    cbn [length run_draws]. fold c.
    destruct (run_draws o "sumcheck challenge" (length cls) (tdraw "sumcheck challenge" c (vt_tr v))) as [cs t'] eqn:Er. cbn [fst snd] in *.
    split; [|split; [exact I2|split; [exact I3|exact I4]]]. cbn [map]. rewrite weighted_cons.
    etransitivity; [exact I1|]. do 3 f_equal. ring.
Qed.

Lemma verify_run : forall (o : oracle p comm) (v : vtrk E), is_empty (vt_tr v) = false ->
  forall cz t1 r t2 cs t3,
    run_draws o "zerocheck challenge" (length (vt_zc v)) (vt_tr v) = (cz, t1) -> run_draws o "0check r" (cp_nv (vt_proof v)) t1 = (r, t2) ->
    run_draws o "sumcheck challenge" (length (vt_sc v) + 1) t2 = (cs, t3) ->
  exists v2, vkeep v v2 /\ verify_claims o v =
    (let cp := vt_proof v in
     ' (sub, t) <- map_err (sc_verify o (weighted cs (map snd (vt_sc v) ++ [F0])) (cp_sc cp) (cp_deg cp) (cp_nv cp) t3) IOPInvalidVerifier ;;
     let v3 := set_vtr v2 t in
     let ids := sort_ids (map fst (cp_comms cp)) in
     comms <- mapM (fun id => ounwrap (mget (vt_mat v) id)) ids ;;
     let points := map (fun _ => sub_point sub) ids in
     bp <- rnth (cp_pcs cp) 0 ;;
     ' (_, t') <- batch_verify o (vt_vk v) comms points bp t ;;
     Ok (set_vtr v3 t')).
Proof.
  intros o v He cz t1 r t2 cs t3 R1 R2 R3. unfold verify_claims, v_convert_zerocheck_claims.
  assert (He1 : is_empty t1 = false).
  { pose proof (proj1 (run_draws_nonempty o "zerocheck challenge" (length (vt_zc v)) (vt_tr v) He)) as X. rewrite R1 in X. exact X. }
  assert (He2 : is_empty t2 = false).
  { pose proof (proj1 (run_draws_nonempty o "0check r" (cp_nv (vt_proof v)) t1 He1)) as X. rewrite R2 in X. exact X. }
  cbn [track_virtual_comm track_virtual v_gen_id]. set (v0 := put_virt _ _ _).
  change (vt_zc v0) with (vt_zc v).
  destruct (v_convert_loop o (vt_zc v) v0 (vt_next v) He) as [agg [v1 [A1 [A2 [A3 A4]]]]].
  unfold track_virtual_comm, track_virtual, v_gen_id. fold v0. rewrite A1. cbn [bind].
  change (vt_tr v0) with (vt_tr v) in A4. rewrite R1 in A4. cbn [snd] in A4. rewrite A4.
  rewrite draw_vecT_ok by exact He1. rewrite R2. cbn [unwrap bind].
  cbn [set_vtr put_virt mul_comms track_virtual v_gen_id v_add_sumcheck_claim vt_vk vt_tr vt_next vt_mat vt_virt vt_query vt_sc vt_zc vt_proof bind].
  unfold mul_comms, track_virtual, v_gen_id, v_add_sumcheck_claim, set_vtr, put_virt. cbn [vt_vk vt_tr vt_next vt_mat vt_virt vt_query vt_sc vt_zc vt_proof bind].
  unfold v_aggregate_sumcheck_claims, track_virtual_comm, track_virtual, v_gen_id, put_virt. cbn [vt_vk vt_tr vt_next vt_mat vt_virt vt_query vt_sc vt_zc vt_proof].
  rewrite A3. change (vt_sc v0) with (vt_sc v).
  match goal with |- context [foldM _ (?a, ?b, ?w) (vt_sc v ++ ?l)] => destruct (v_aggregate_loop o (vt_sc v ++ l) w a b He2) as [agg' [v2 [B1 [B2 [B3 B4]]]]] end.
  rewrite B1. cbn [bind]. rewrite app_length in B1, B4 |- *. cbn [length] in B1, B4 |- *. cbn [vt_tr] in B4 |- *. rewrite R3 in B4 |- *. cbn [fst snd] in *.
  exists v2. destruct B2 as [K1 [K2 [K3 K4]]]. cbn [vt_vk vt_mat vt_zc vt_proof] in K1, K2, K3, K4. destruct A2 as [J1 [J2 [J3 J4]]].
  split; [repeat split; [rewrite K1, J1|rewrite K2, J2|rewrite K3, J3|rewrite K4, J4]; reflexivity|].
  rewrite B4, map_app. cbn [map snd]. replace (F0 + weighted cs (map snd (vt_sc v) ++ [F0]))%F with (weighted cs (map snd (vt_sc v) ++ [F0])) by ring.
  destruct (sc_verify _ _ _ _ _ _) as [[sub t]| |]; cbn [map_err bind]; try reflexivity.
  unfold get_mat_comm. cbn [vt_mat vt_vk vt_tr set_vtr]. rewrite K2, K1, J2, J1. change (vt_mat v0) with (vt_mat v). change (vt_vk v0) with (vt_vk v). reflexivity.
Qed.
End T.
