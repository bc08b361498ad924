(** Sessions of several rounds: later proofs of false claims. *)
From Coq Require Import String List Arith Lia Bool ZArith Znumtheory.
Import ListNotations.
From Verif Require Import Res ResLemmas Fp FSum SpecMle SpecVp SpecKzg SpecPoly SpecSumcheck SpecBatch SpecTracker ModelMle MleLemmas MleProofs MleExtra ModelVp VpHist VpProofs VpExtra
  ModelTranscript ModelSumcheck PolyLemmas SumcheckVerify ZerocheckProofs TranscriptProofs Pairing ModelKzg KzgProofs KzgExtra ModelBatch BatchProofs BatchExtra
  ModelProver ModelVerifier ProverHist VerifierHist CompileHist SessionHist TmapLemmas ProverProofs ProverExtra ProverStep DegreeProofs EqualizeProofs CompileProofs CompileExtra NodeProofs HistExtra
  CompileMain CompileSound LockProofs SessionProofs SessionRounds.
Local Open Scope string_scope.
Local Open Scope list_scope.
Local Open Scope nat_scope.

Section S.
Context {p : positive} {E : pairing p}.
Hypothesis HE : pairing_laws E.
Hypothesis Hp : prime (Zpos p).
Add Ring Fr : (@F_ring p).
Implicit Types (s : ptrk E) (v : vtrk E).
Local Notation comm := (gcar (PG1 E)).
Local Arguments mput : simpl never.

(** One proof, whatever the claims. *)
Lemma round_compile_any : forall (o : oracle p comm) sc sc' addr debug g h (tau : list (F p)) s n D,
  pinv s -> pt_mat s <> [] -> matflat s n -> is_empty (pt_tr s) = false -> pt_pp s = srs_pp (srs_of g h tau) -> distinct_addresses addr ->
  (forall cl, In cl (pt_sc s) -> fst cl < pt_next s) -> (forall i, In i (pt_zc s) -> i < pt_next s /\ deg_le s i D) ->
  1 <= D -> D + 1 < fsize p -> 2 < fsize p -> 2 <= length (pt_comm s) -> 0 < n <= length tau ->
  let zid := 2 + 2 * length (pt_zc s) + pt_next s in
  let T := map (fun cl => Fsum (ptab s (fst cl) n)) (pt_sc s) in
  exists cz t1 r t2 cs t3,
    run_draws o "zerocheck challenge" (length (pt_zc s)) (pt_tr s) = (cz, t1) /\ run_draws o "0check r" n t1 = (r, t2) /\
    run_draws o "sumcheck challenge" (length (pt_sc s) + 1) t2 = (cs, t3) /\
    let X := mle_ext n (fun k => weighted cz (map (fun i => pval s i (bpoint n k)) (pt_zc s))) r in
    (debug = true -> weighted cs (T ++ [X]) <> weighted cs (T ++ [F0]) -> compile_proof o sc sc' addr debug s = Err IOPInvalidProver) /\
    ((debug = true -> weighted cs (T ++ [X]) = weighted cs (T ++ [F0])) ->
  exists cp s', compile_proof o sc sc' addr debug s = Ok (cp, s') /\
    pinv s' /\ ext s s' /\ vold s s' /\ matflat s' n /\ pt_comm s' = pt_comm s /\ pt_zc s' = pt_zc s /\ is_empty (pt_tr s') = false /\
    pt_sc s' = map (fun cl => (fst cl, Fsum (ptab s (fst cl) n))) (pt_sc s) ++ [(zid, F0)] /\
    pt_next s' = 1 + 2 * (length (pt_sc s) + 1) + S zid /\
    cp_comms cp = pt_comm s /\ cp_nv cp = n /\
    (forall id, In id (map fst (pt_sc s)) -> mget (cp_sums cp) id = Some (Fsum (ptab s id n))) /\
    (forall v, vt_proof v = cp -> vt_vk v = vk_of g h tau -> vt_tr v = pt_tr s -> vt_mat v = pt_comm s -> length (vt_zc v) = length (pt_zc s) ->
       length (vt_sc v) = length (pt_sc s) -> forall v', verify_claims o v = Ok v' -> weighted cs (map snd (vt_sc v) ++ [F0]) = weighted cs (T ++ [X]) /\ vt_tr v' = pt_tr s')).
Proof.
  intros o sc sc' addr debug g h tau s n D Hi Hne Hf He Hpp Hadr Hsc Hzc HD HDf H2f H2 Hn zid T.
  destruct (equalize_flat s n Hi Hne Hsc Hf) as [s1 [Q1 [Q2 [Q4 [Q5 [Q6 [Q7 [Q8 [Q9 [Q10 [Q11 Q12]]]]]]]]]]].
  assert (Kn : forall id, id < pt_next s -> known s id n).
  { intros id Hlt. destruct (lt_known s id Hi Hlt) as [m Hm]. rewrite <- (matflat_known s n id m Hf Hm). exact Hm. }
  assert (Ks : all_known s1 (map fst (pt_sc s1)) n D).
  { intros id Hin. rewrite Q8, map_map in Hin. apply in_map_iff in Hin. destruct Hin as [cl [<- Hin]]. cbn [fst]. destruct (Q12 cl Hin) as [a Ha]. split.
    - left. exists a. split; [exact Ha|apply (Q11 _ _ Ha)].
    - split; [exact HD|]. intros w Hw. exfalso. eapply (i_disj s1); eassumption. }
  assert (Kz : all_known s1 (pt_zc s1) n D).
  { intros id Hin. rewrite Q7 in Hin. destruct (Hzc id Hin) as [Z1 Z2]. split; [apply (proj1 (proj2 (proj2 Q9)) id n (Kn id Z1))|]. eapply vold_deg; eassumption. }
  assert (He1 : is_empty (pt_tr s1) = false) by (rewrite Q4; exact He).
  destruct (claims_run o s1 n D Q2 He1 ltac:(lia) HD Ks Kz)
    as [cz [t1 [r [t2 [cs [t3 [s2 [agg [s3 [R1 [R2 [R3 [M1 [M2 [M3 [M4 [M5 [M6 [M7 [M8 [M9 [_ M11]]]]]]]]]]]]]]]]]]]]]].
  destruct (convert_ids o n s1 s2 Q11 M1) as [I1 [I2 [I3 I4]]]. destruct (aggregate_ids o n s2 agg _ s3 I4 M2) as [J1 [J2 [J3 J4]]].
  rewrite Q7, Q5 in I1, I3. fold zid in I1, I3.
  (* the converted claim *)
  destruct (convert_spec o n D s1 Q2 He1 ltac:(lia) HD Kz) as [cz' [t1' [r' [t2' [id' [s2' [C1 [C2 [C3 [C4 [C5 [C6 [C7 [C8 [C9 [C9n [C10 [C11 C12]]]]]]]]]]]]]]]]]].
  rewrite M1 in C3. injection C3 as <-. assert (id' = zid). { rewrite I3 in C9. apply app_inj_tail in C9. destruct C9 as [_ C9]. inversion C9. reflexivity. } subst id'.
  destruct (aggregate_spec o n (D + 1) s2 C4) as [cs' [t3' [agg' [s3' [A1 [A2 [A3 [A4 [A5 [A6 [A7 [A8 [A9 [A10 A11]]]]]]]]]]]]]].
  { rewrite C8. assert (He1' : is_empty t1' = false).
    { pose proof (proj1 (run_draws_nonempty o "zerocheck challenge" (length (pt_zc s1)) (pt_tr s1) He1)) as X. rewrite C1 in X. exact X. }
    pose proof (proj1 (run_draws_nonempty o "0check r" n t1' He1')) as X. rewrite C2 in X. exact X. }
  { lia. }
  { intros j Hj. rewrite C9, map_app in Hj. apply in_app_or in Hj. destruct Hj as [Hj|Hj].
    - destruct (all_known_ext s1 s2 _ n D Q2 C5 C6 Ks j Hj) as [X Y]. split; [exact X|]. eapply deg_le_mono; [|exact Y]. lia.
    - simpl in Hj. destruct Hj as [<-|[]]. split; [exact C10|exact C11]. }
  rewrite M2 in A2. injection A2 as <- _ <-.
  (* the sums *)
  exists cz, t1, r, t2, cs, t3. rewrite Q7, Q4 in R1. assert (Ls : length (pt_sc s1) = length (pt_sc s)) by (rewrite Q8, map_length; reflexivity). rewrite Ls in R3.
  split; [exact R1|]. split; [exact R2|]. split; [exact R3|]. intros X.
  assert (Sn : map snd (pt_sc s1) = T) by (rewrite Q8, map_map; reflexivity).
  assert (TS : true_sums s1 n cz r = T ++ [X]).
  { unfold true_sums. f_equal.
    - rewrite Q8, map_map. cbn [fst]. apply map_ext_in. intros cl Hin. rewrite (ptab_ext s s1 _ n (Kn _ (Hsc cl Hin)) Q9). reflexivity.
    - f_equal. apply mle_ext_ext. intros k Hk. rewrite Q7. f_equal. apply map_ext_in. intros i Hin. apply (proj2 (proj1 (proj2 (proj2 Q9)) i n (Kn i (proj1 (Hzc i Hin)))) k Hk). }
  rewrite TS in M11. rewrite Sn in M2.
  assert (Step : compile_proof o sc sc' addr debug s =
    bind (if debug then ' (ev, s') <- evaluations s3 agg ;; _ <- ensure (Feqb (fold_left Fadd ev F0) (weighted cs (T ++ [F0]))) IOPInvalidProver ;; Ok s' else Ok s3)
      (fun s4 => tail o sc sc' addr s4 agg)).
  { unfold compile_proof. rewrite Q1. cbn [bind]. rewrite M1. cbn [bind]. rewrite M2. cbn [bind]. reflexivity. }
  destruct (evaluations_spec s3 agg n M3 M8) as [s4 [E1 [E2 [E3 [E4 [[ea [E5 [E6 E7]]] _]]]]]].
  assert (Esum : fold_left Fadd (ptab s3 agg n) F0 = weighted cs (T ++ [X])).
  { rewrite fold_left_Fadd, ptab_sum, M11. ring. }
  split.
  { intros Hd Hneq. rewrite Step, Hd, E1. cbn [bind]. rewrite Esum, (proj2 (Feqb_neq _ _) Hneq). reflexivity. }
  intros Heq.
  assert (S4 : exists s5, (if debug then ' (ev, s') <- evaluations s3 agg ;; _ <- ensure (Feqb (fold_left Fadd ev F0) (weighted cs (T ++ [F0]))) IOPInvalidProver ;; Ok s' else Ok s3) = Ok s5 /\
     pinv s5 /\ ext s3 s5 /\ vold s3 s5 /\ matflat s5 n /\ pt_next s5 = pt_next s3 /\ pt_tr s5 = t3 /\ pt_comm s5 = pt_comm s3 /\ same_claims s3 s5 /\ known s5 agg n /\ deg_le s5 agg (D + 1) /\ cube_sum n (pval s5 agg) = cube_sum n (pval s3 agg)).
  { destruct debug.
    - rewrite E1. cbn [bind]. rewrite Esum, (Heq eq_refl), Feqb_refl. cbn [ensure bind]. exists s4. split; [reflexivity|]. split; [exact E2|]. split; [exact E3|].
      destruct E4 as [_ [E4a [E4n [E4b E4c]]]]. split; [apply vsub_old; apply (evaluations_sub _ _ _ _ E1)|]. split.
      { apply (flat_step n s3 s4 M3 E2 E4n). intros id m Hk. pose proof (matflat_known s3 n id m J4 Hk). subst m. split; [reflexivity|apply (proj1 (proj2 (proj2 E3)) id n Hk)]. }
      split; [exact E4n|]. split; [congruence|]. split; [exact E4b|]. split; [exact E4c|]. split; [apply (proj1 (proj2 (proj2 E3)) _ _ M8)|].
      split; [eapply deg_le_mono; [|exact (evaluations_deg s3 agg n _ s4 M3 M8 E1)]; lia|].
      rewrite <- !ptab_sum. rewrite (ptab_ext s3 s4 agg n M8 E3). reflexivity.
    - exists s3. split; [reflexivity|]. split; [exact M3|]. split; [apply ext_refl|]. split; [apply vold_refl|]. split; [exact J4|]. split; [reflexivity|]. split; [exact M6|]. split; [reflexivity|]. split; [split; reflexivity|]. auto. }
  destruct S4 as [s5 [F1' [F2' [F3' [F3v [F3f [F3n [F4' [F5' [F6' [F7' [F8' F9']]]]]]]]]]]].
  rewrite F1' in Step. cbn [bind] in Step.
  destruct (tail_spec HE Hp o sc sc' addr g h tau s5 agg n (D + 1) F2') as [cp [s6 [bp [P1 [P2 [P3 [P4 [P5 [P6 [P7 [P8 [P9 [P10 [P11 [P12 [P13 P14]]]]]]]]]]]]]]]]; try assumption; try lia.
  { rewrite F4'. exact M7. }
  { destruct F3' as [X1 _]. destruct M4 as [X2 _]. destruct Q9 as [X3 _]. congruence. }
  { rewrite F5', M5, Q6. exact H2. }
  { intros id c Hc. rewrite F5', M5, Q6 in Hc. destruct (i_comm s Hi id c Hc) as [a Ha]. exists a.
    pose proof (proj2 (proj2 (proj2 (proj2 F3'))) _ _ (proj2 (proj2 (proj2 (proj2 (sext_ext _ _ M4)))) _ _ (proj2 (proj2 (proj2 (proj2 Q9))) _ _ Ha))) as Ha5.
    split; [exact Ha5|apply (F3f _ _ Ha5)]. }
  assert (X05 : ext s s5) by (eapply ext_trans; [exact Q9|]; eapply ext_trans; [apply sext_ext; exact M4|exact F3']).
  assert (Fsc : pt_sc s5 = map (fun cl => (fst cl, Fsum (ptab s (fst cl) n))) (pt_sc s) ++ [(zid, F0)]).
  { destruct F6' as [F6a _]. rewrite F6a, J3, I3, Q8. reflexivity. }
  exists cp, s6. split; [rewrite Step; exact P1|]. rewrite P13.
  split; [apply (pinv_set_tr s5 (pt_tr s6) F2')|].
  split; [eapply ext_trans; [exact X05|]; apply sext_ext; apply (pinv_set_tr s5 (pt_tr s6) F2')|].
  split. { assert (V5 : vold s s5) by (eapply vold_trans; [exact Q10|]; eapply vold_trans; [exact C6|]; eapply vold_trans; [exact A5|exact F3v]). exact V5. }
  split; [exact F3f|]. split; [cbn [set_tr pt_comm]; congruence|]. split; [cbn [set_tr pt_zc]; destruct F6' as [_ F6b]; congruence|]. split; [exact P14|].
  split; [exact Fsc|]. split. { cbn [set_tr pt_next]. rewrite F3n, J1, I1, I3, app_length, Q8, map_length. cbn [length]. lia. }
  split; [congruence|]. split; [exact P4|]. split.
  { intros id Hin. rewrite P3, Fsc. apply fold_sums.
    - apply in_or_app. left. apply in_map_iff in Hin. destruct Hin as [cl [<- Hin]]. apply in_map_iff. exists cl. auto.
    - intros c' Hc'. apply in_app_or in Hc'. destruct Hc' as [Hc'|[Hc'|[]]].
      + apply in_map_iff in Hc'. destruct Hc' as [cl [Hc' _]]. inversion Hc'. reflexivity.
      + inversion Hc'; subst. exfalso. apply in_map_iff in Hin. destruct Hin as [cl [Hcl Hin]]. pose proof (Hsc cl Hin). unfold zid in Hcl. lia. }
  rewrite F9', M11, F4' in *. rewrite F5', M5, Q6 in P2, P10.
  intros v V1 V2 V3 V4 V5 V6 v' Hv.
  destruct (verify_run o v ltac:(rewrite V3; exact He) cz t1 r t2 cs t3) as [v2 [_ V7]].
  { rewrite V5, V3. exact R1. } { rewrite V1, P4. exact R2. } { rewrite V6. exact R3. }
  rewrite V7, V1, V2, V4 in Hv. cbv zeta in Hv. rewrite P4, P9, P2 in Hv.
  apply bind_ok_inv in Hv. destruct Hv as [[sub t] [Hs Hv]].
  pose proof (map_err_ok _ _ _ Hs) as Hs'. pose proof Hs' as Hx. apply (sc_verify_extract Hp) in Hx; [|lia|lia]. rewrite P6 in Hx.
  assert (Heq2 : weighted cs (map snd (vt_sc v) ++ [F0]) = weighted cs (T ++ [X])) by (inversion Hx; reflexivity). split; [exact Heq2|].
  rewrite Heq2 in Hs'.
  destruct (all_nonnode_dec (cp_deg cp + 1) (pf_point (cp_sc cp))) as [N1|N1]; [|rewrite (P11 N1) in Hs'; discriminate].
  destruct (P10 N1) as [sub' [t' [Y1 Y2]]]. rewrite Y1 in Hs'. inversion Hs'; subst sub' t'. clear Hs'.
  apply bind_ok_inv in Hv. destruct Hv as [comms [Hm Hv]]. rewrite (rnth_ok [bp] 0 bp) in Hv by (simpl; lia). cbn [bind nth] in Hv.
  assert (Lm : length comms = length (pt_comm s)).
  { apply mapM_length in Hm. rewrite Hm, (Permutation.Permutation_length (sort_perm _)), map_length. reflexivity. }
  destruct (all_nonnode_dec 3 (pf_point (bp_sc bp))) as [N2|N2]; [|rewrite (proj2 (Y2 comms Lm) N2) in Hv; discriminate].
  destruct (proj1 (Y2 comms Lm) N2) as [b Y3]. rewrite Y3 in Hv. cbn [bind] in Hv. inversion Hv. reflexivity.
Qed.

(** What holds between two rounds, whatever was claimed: [ops] and [vops] are all calls so far and [k] the number of rounds. *)
Record ginv (g : gcar (PG1 E)) (h : gcar (PG2 E)) (tau : list (F p)) (ops : list (pop p)) (vops : list (vop E)) (k : nat) s (hs : list tpoly) v (cs : list nat) : Prop := {
  gi_w : winv (s, hs);
  gi_cov : covered s hs;
  gi_ag : Forall2 (agrees s (points false)) hs (denote ops);
  gi_deg : Forall2 (hdeg s) hs (degrees ops);
  gi_pp : pt_pp s = srs_pp (srs_of g h tau);
  gi_vk : vt_vk v = vk_of g h tau;
  gi_ne : 0 < commit_calls ops -> is_empty (pt_tr s) = false;
  gi_zc : pt_zc s = map (fun i => tp_id (nth i hs dh)) (zero_calls ops);
  gi_lt : forall i, In i (zero_calls ops) \/ In i (sum_calls ops) -> i < length hs;
  gi_scl : forall i, In i (sum_calls ops) -> In (tp_id (nth i hs dh)) (map fst (pt_sc s));
  gi_cm : length (pt_comm s) = commit_calls ops;
  gi_lock : lsim (vt_proof v) s hs v cs;
  gi_len : length (pt_sc s) = length (sum_calls ops) + k;
  gi_given : forall i c, In (VOSum i c) vops -> In i (sum_calls ops) /\ In (tp_id (nth i hs dh), c) (vt_sc v) }.

Lemma ginv_new : forall g h tau, ginv g h tau [] [] 0 (pt_new (srs_pp (srs_of g h tau))) [] (vt_new (vk_of g h tau)) [].
Proof.
  clear HE Hp. intros. constructor; try reflexivity; try (constructor; fail).
  - apply winv_new.
  - intros id m [[a [A _]]|[v [A _]]]; discriminate A.
  - cbn. lia.
  - intros i [[]|[]].
  - intros i [].
  - constructor; simpl; try reflexivity. intros id e H. discriminate.
  - intros i c [].
Qed.

Lemma mirror_claimed : forall exact (pp : pparam E) ops vops, mirror exact pp ops vops -> forall i, In (VOClaimed i) vops -> In i (sum_calls ops).
Proof.
  clear HE Hp. intros exact pp ops vops Hm. induction Hm; intros i0 Hi; unfold sum_calls in *; cbn [flat_map app]; cbn [In] in Hi; try (destruct Hi as [Hi|Hi]; [discriminate Hi|]);
    try (apply IHHm; assumption); try (right; apply IHHm; assumption).
  - contradiction.
  - destruct Hi as [Hi|Hi]; [inversion Hi; subst; left; reflexivity|right; apply IHHm; assumption].
Qed.

Lemma round_any : forall (oh o : oracle p comm) vdebug g h (tau : list (F p)) n D ops vops kr s hs v cs (r : rnd E) s1 hs1,
  ginv g h tau ops vops kr s hs v cs -> distinct_addresses (r_addr r) -> mirror false (srs_pp (srs_of g h tau)) (r_ops r) (r_vops r) ->
  foldM (pstep oh) (s, hs) (r_ops r) = Ok (s1, hs1) -> (forall h, In h hs1 -> tp_nv h = n) -> 0 < n <= length tau ->
  let ops1 := ops ++ r_ops r in let vops1 := vops ++ r_vops r in
  (forall d, In d (degrees ops1) -> d <= D) -> 1 <= D -> D + 1 < fsize p -> 2 < fsize p -> 2 <= commit_calls ops1 ->
  let T := map (fun cl => Fsum (ptab s1 (fst cl) n)) (pt_sc s1) in
  let W := map snd (vt_sc v) ++ flat_map (fun op : vop E => match op with VOSum _ c => [c] | VOClaimed i => [Fsum (corners (poly_at ops1 i))] | _ => [] end) (r_vops r) in
  length T = length (sum_calls ops1) + kr /\ (forall i, In i (zero_calls ops1) -> fst (poly_at ops1 i) = n) /\
  exists cz t1 rr t2 cc t3,
    run_draws o "zerocheck challenge" (length (zero_calls ops1)) (pt_tr s1) = (cz, t1) /\ run_draws o "0check r" n t1 = (rr, t2) /\
    run_draws o "sumcheck challenge" (length T + 1) t2 = (cc, t3) /\
    let X := claimed_zero ops1 n cz rr in
    (r_debug r = true -> weighted cc (T ++ [X]) <> weighted cc (T ++ [F0]) -> compile_round o r s1 = Err IOPInvalidProver) /\
    ((r_debug r = true -> weighted cc (T ++ [X]) = weighted cc (T ++ [F0])) ->
     exists cp s2 v1, compile_round o r s1 = Ok (cp, s2) /\ foldM (vstep oh vdebug) (set_compiled_proof v cp, cs) (r_vops r) = Ok (v1, map tp_id hs1) /\
       map snd (vt_sc v1) = W /\ length W = length T /\ (W = T -> forall i c, In (VOSum i c) vops1 -> c = Fsum (corners (poly_at ops1 i))) /\
       (forall v2, verify_claims o v1 = Ok v2 -> weighted cc (W ++ [F0]) = weighted cc (T ++ [X]) /\ ginv g h tau ops1 vops1 (S kr) s2 hs1 v2 (map tp_id hs1))).
Proof.
  intros oh o vdebug g h tau n D ops vops kr s hs v cs r s1 hs1 I Hadr Hm H Hnv Hn ops1 vops1 Hdeg HD HDf H2f H2 T W.
  destruct (steps_inv oh _ _ _ (gi_w _ _ _ _ _ _ _ _ _ _ I) H) as [Hw1 [X1 [suf Hsuf]]]. cbn [fst snd] in X1, Hsuf.
  pose proof (covered_steps oh _ _ _ _ _ (gi_w _ _ _ _ _ _ _ _ _ _ I) H (gi_cov _ _ _ _ _ _ _ _ _ _ I)) as Cov1.
  pose proof (den_steps_ok oh _ _ _ _ _ _ false (gi_w _ _ _ _ _ _ _ _ _ _ I) H ltac:(discriminate) (gi_ag _ _ _ _ _ _ _ _ _ _ I)) as Ag1.
  pose proof (deg_steps_ok oh _ _ _ _ _ _ (gi_w _ _ _ _ _ _ _ _ _ _ I) H (gi_deg _ _ _ _ _ _ _ _ _ _ I)) as Dg1.
  unfold denote in Ag1. rewrite <- fold_left_app in Ag1. change (fold_left den_step (ops ++ r_ops r) []) with (denote ops1) in Ag1.
  unfold degrees in Dg1. rewrite <- fold_left_app in Dg1. change (fold_left deg_step (ops ++ r_ops r) []) with (degrees ops1) in Dg1.
  destruct (claims_steps oh _ _ _ _ _ (gi_w _ _ _ _ _ _ _ _ _ _ I) H) as [Zc [Sc [Cc Lc]]].
  pose proof (w_inv _ Hw1) as Hi1. cbn [fst] in Hi1.
  assert (Hpp1 : pt_pp s1 = srs_pp (srs_of g h tau)) by (rewrite (proj1 X1); apply (gi_pp _ _ _ _ _ _ _ _ _ _ I)).
  assert (Cm1 : length (pt_comm s1) = commit_calls ops1) by (rewrite Cc, (gi_cm _ _ _ _ _ _ _ _ _ _ I); unfold ops1; rewrite commit_app; reflexivity).
  assert (He1 : is_empty (pt_tr s1) = false).
  { eapply steps_nonempty; [exact (gi_w _ _ _ _ _ _ _ _ _ _ I)|exact H|]. unfold ops1 in H2. rewrite commit_app in H2.
    destruct (Nat.eq_dec (commit_calls ops) 0); [right; lia|left; apply (gi_ne _ _ _ _ _ _ _ _ _ _ I); lia]. }
  assert (Old : forall i, i < length hs -> nth i hs1 dh = nth i hs dh) by (intros i Hi; rewrite Hsuf; apply app_nth1; exact Hi).
  assert (Llt : forall i, In i (zero_calls ops1) \/ In i (sum_calls ops1) -> i < length hs1).
  { intros i Hi. unfold ops1, zero_calls, sum_calls in Hi. rewrite !flat_map_app, !in_app_iff in Hi.
    assert (Ho : i < length hs -> i < length hs1) by (rewrite Hsuf, app_length; lia).
    pose proof (gi_lt _ _ _ _ _ _ _ _ _ _ I i) as Y. unfold zero_calls, sum_calls in Y, Lc. specialize (Lc i). tauto. }
  assert (Zc1 : pt_zc s1 = map (fun i => tp_id (nth i hs1 dh)) (zero_calls ops1)).
  { rewrite Zc, (gi_zc _ _ _ _ _ _ _ _ _ _ I). unfold ops1, zero_calls. rewrite flat_map_app, map_app. f_equal. apply map_ext_in. intros i Hi. rewrite Old; [reflexivity|].
    apply (gi_lt _ _ _ _ _ _ _ _ _ _ I). left. exact Hi. }
  assert (Scl1 : forall i, In i (sum_calls ops1) -> In (tp_id (nth i hs1 dh)) (map fst (pt_sc s1))).
  { intros i Hi. rewrite Sc. apply in_or_app. unfold ops1, sum_calls in Hi. rewrite flat_map_app in Hi. apply in_app_or in Hi. destruct Hi as [Hi|Hi].
    - left. rewrite Old by (apply (gi_lt _ _ _ _ _ _ _ _ _ _ I); right; exact Hi). apply (gi_scl _ _ _ _ _ _ _ _ _ _ I). exact Hi.
    - right. apply (in_map (fun i => tp_id (nth i hs1 dh))). exact Hi. }
  assert (At : forall i, i < length hs1 -> let d := poly_at ops1 i in In (nth i hs1 dh) hs1 /\ fst d = n /\ known s1 (tp_id (nth i hs1 dh)) n /\ deg_le s1 (tp_id (nth i hs1 dh)) D /\
     ptab s1 (tp_id (nth i hs1 dh)) n = corners d /\ forall k, k < 2 ^ n -> pval s1 (tp_id (nth i hs1 dh)) (bpoint n k) = nth k (corners d) F0).
  { intros i Hlt d. assert (Hne : nth_error hs1 i = Some (nth i hs1 dh)) by (apply nth_error_nth'; exact Hlt).
    assert (Hin : In (nth i hs1 dh) hs1) by (apply nth_In; exact Hlt). split; [exact Hin|].
    destruct (Forall2_nth _ _ _ _ _ i _ (0, fun _ => F0) Ag1 Hne) as [_ [D2 D3]]. change (nth i (denote ops1) (0, fun _ => F0)) with d in D2, D3.
    assert (Hd : fst d = n) by (rewrite <- D2; apply Hnv; exact Hin). split; [exact Hd|].
    pose proof (w_handles _ Hw1 _ Hin) as K. unfold hknown in K. cbn [fst] in K. rewrite (Hnv _ Hin) in K. split; [exact K|].
    destruct (Forall2_nth _ _ _ _ _ i _ 1 Dg1 Hne) as [G1 G2]. split; [eapply deg_le_mono; [|exact G2]; apply Hdeg; eapply nth_error_In; exact G1|].
    assert (V : forall k, k < 2 ^ n -> pval s1 (tp_id (nth i hs1 dh)) (bpoint n k) = snd d (bpoint n k)).
    { intros k Hk. apply D3. unfold points, cube_points. rewrite (Hnv _ Hin). exists k. auto. }
    split.
    - unfold ptab, corners. rewrite Hd. apply map_ext_in. intros k Hk. apply in_seq in Hk. apply V. lia.
    - intros k Hk. rewrite V by exact Hk. unfold corners. rewrite Hd, (nth_map_seq (fun k => snd d (bpoint n k))) by exact Hk. reflexivity. }
  assert (Flat : matflat s1 n).
  { intros id a Ha. destruct (Cov1 id (nv (snd a)) ltac:(left; exists a; auto)) as [hd [A B]]. rewrite <- B. apply Hnv. exact A. }
  assert (Hmat : pt_mat s1 <> []).
  { intros E0. destruct (pt_comm s1) as [|[j c] l] eqn:Ec; [rewrite <- Cm1 in H2; cbn in H2; lia|].
    destruct (proj1 (mget_key (pt_comm s1) j)) as [c' Hc']; [rewrite Ec; left; reflexivity|]. destruct (i_comm s1 Hi1 j c' Hc') as [a Ha]. rewrite E0 in Ha. discriminate. }
  assert (Csum : forall i, In i (sum_calls ops1) -> Fsum (ptab s1 (tp_id (nth i hs1 dh)) n) = Fsum (corners (poly_at ops1 i))).
  { intros i Hi. destruct (At i (Llt i (or_intror Hi))) as [_ [_ [_ [_ [A4 _]]]]]. rewrite A4. reflexivity. }
  assert (LT : length (pt_sc s1) = length (sum_calls ops1) + kr).
  { rewrite <- (map_length fst), Sc, app_length, !map_length, (gi_len _ _ _ _ _ _ _ _ _ _ I). unfold ops1, sum_calls. rewrite flat_map_app, app_length. lia. }
  split; [unfold T; rewrite map_length; exact LT|]. split; [intros i Hi; apply (At i (Llt i (or_introl Hi)))|].
  destruct (round_compile_any o (r_sc r) (r_sc' r) (r_addr r) (r_debug r) g h tau s1 n D Hi1 Hmat Flat He1 Hpp1 Hadr (w_sc _ Hw1)) as [cz [t1 [rr [t2 [cc [t3 [B1 [B2 [B3 B4]]]]]]]]]; try assumption.
  { intros i Hin. split; [apply (w_zc _ Hw1 i Hin)|]. rewrite Zc1 in Hin. apply in_map_iff in Hin. destruct Hin as [j [<- Hj]]. apply (At j (Llt j (or_introl Hj))). }
  { rewrite Cm1. exact H2. }
  exists cz, t1, rr, t2, cc, t3. rewrite Zc1, map_length in B1. split; [exact B1|]. split; [exact B2|]. split; [unfold T; rewrite map_length; exact B3|]. intros X. cbv zeta in B4. fold T in B4.
  assert (HX : mle_ext n (fun k => weighted cz (map (fun i => pval s1 i (bpoint n k)) (pt_zc s1))) rr = X).
  { unfold X, claimed_zero. apply mle_ext_ext. intros kk Hk. rewrite Zc1, map_map. f_equal. apply map_ext_in. intros i Hi. destruct (At i (Llt i (or_introl Hi))) as [_ [A1 [_ [_ [_ A5]]]]].
    rewrite A5 by exact Hk. unfold corner_at. rewrite A1, Nat.mod_small by exact Hk. reflexivity. }
  rewrite HX in B4. destruct B4 as [B4 B5]. split; [exact B4|]. intros Heq.
  destruct (B5 Heq) as [cp [s2 [R1 [R2 [R3 [R4 [R5 [R6 [R7 [R8 [R9 [R11 [R12 [R13 [R15 R16]]]]]]]]]]]]]]].
  assert (Cov : proof_covers cp s1).
  { split; [intros id c Hc; rewrite R12; exact Hc|]. intros id c Hc. rewrite R15 by (apply (in_map fst) in Hc; exact Hc). discriminate. }
  pose proof (gi_lock _ _ _ _ _ _ _ _ _ _ I) as L0.
  assert (L0' : lsim cp s hs (set_compiled_proof v cp) cs) by (destruct L0; constructor; simpl; auto).
  destruct (lock_steps oh vdebug false cp (r_ops r) (r_vops r) s hs _ cs s1 hs1 ltac:(rewrite (gi_pp _ _ _ _ _ _ _ _ _ _ I); exact Hm) (gi_w _ _ _ _ _ _ _ _ _ _ I) L0' H Cov) as [v1 [L1 [L2 _]]].
  destruct (vrun_sc _ _ _ _ _ _ _ L1) as [V1 [V2 _]]. cbn [set_compiled_proof vt_proof vt_vk] in V1, V2.
  destruct (vrun_given _ _ _ _ _ _ _ L1) as [_ [[vsuf V4] [V5 V6]]]. cbn [set_compiled_proof vt_proof vt_sc] in V4, V6.
  exists cp, s2, v1. split; [exact R1|]. split; [exact L1|].
  assert (HW : map snd (vt_sc v1) = W).
  { apply (V6 (fun i => Fsum (corners (poly_at ops1 i)))). intros i id Hi Hni. pose proof (mirror_claimed _ _ _ _ Hm i Hi) as Hi0.
    assert (Hi' : In i (sum_calls ops1)) by (unfold ops1, sum_calls; rewrite flat_map_app; apply in_or_app; right; exact Hi0).
    rewrite nth_error_map, (nth_error_nth' hs1 dh (Llt i (or_intror Hi'))) in Hni. cbn in Hni. inversion Hni; subst id. rewrite (R15 _ (Scl1 i Hi')), (Csum i Hi'). reflexivity. }
  assert (Lv : length (vt_sc v1) = length (pt_sc s1)) by (rewrite <- (map_length fst (vt_sc v1)), (l_sc _ _ _ _ _ L2), map_length; reflexivity).
  assert (Given : forall i c, In (VOSum i c) vops1 -> In i (sum_calls ops1) /\ In (tp_id (nth i hs1 dh), c) (vt_sc v1)).
  { intros i c Hin. unfold vops1 in Hin. apply in_app_or in Hin. destruct Hin as [Hin|Hin].
    - destruct (gi_given _ _ _ _ _ _ _ _ _ _ I i c Hin) as [A1 A2]. split; [unfold ops1, sum_calls; rewrite flat_map_app; apply in_or_app; left; exact A1|].
      rewrite Old by (apply (gi_lt _ _ _ _ _ _ _ _ _ _ I); right; exact A1). rewrite V4. apply in_or_app. left. exact A2.
    - pose proof (mirror_sums _ _ _ _ Hm _ _ Hin) as Hi. assert (Hi' : In i (sum_calls ops1)) by (unfold ops1, sum_calls; rewrite flat_map_app; apply in_or_app; right; exact Hi).
      split; [exact Hi'|]. destruct (V5 i c Hin) as [id [A1 A2]]. rewrite nth_error_map, (nth_error_nth' hs1 dh (Llt i (or_intror Hi'))) in A1. cbn in A1. inversion A1; subst id. exact A2. }
  split; [exact HW|]. split; [rewrite <- HW; unfold T; rewrite !map_length; exact Lv|]. split.
  { intros HWT i c Hin. destruct (Given i c Hin) as [A1 A2]. rewrite <- (Csum i A1). rewrite <- HW in HWT. pose proof (l_sc _ _ _ _ _ L2) as Hf. unfold T in HWT.
    rewrite <- (map_map fst (fun id => Fsum (ptab s1 id n))), <- Hf, map_map in HWT. clear - HWT A2. induction (vt_sc v1) as [|cl l IH]; [contradiction|]. cbn [map] in HWT. inversion HWT as [[Q1 Q2]]. destruct A2 as [->|A2]; [exact Q1|apply IH; assumption]. }
  intros v2 Hv2.
  destruct (R16 v1 V1 ltac:(rewrite V2; apply (gi_vk _ _ _ _ _ _ _ _ _ _ I)) (l_tr _ _ _ _ _ L2) (l_comm _ _ _ _ _ L2) ltac:(rewrite (l_zc _ _ _ _ _ L2); reflexivity) Lv v2 Hv2) as [Hw2 Htr].
  rewrite HW in Hw2. split; [exact Hw2|].
  destruct (verify_ids o v1 v2 Hv2) as [U1 [U2 U3]]. destruct (verify_grow o v1 v2 Hv2) as [W1 [W2 [W3 W4]]].
  destruct (W4 (l_keys _ _ _ _ _ L2)) as [W5 W6].
  assert (Lid : 2 + 2 * length (vt_zc v1) + vt_next v1 = 2 + 2 * length (pt_zc s1) + pt_next s1) by (rewrite (l_zc _ _ _ _ _ L2), (l_next _ _ _ _ _ L2); reflexivity).
  rewrite Lid in U1, U3.
  assert (Kl : forall id, id < pt_next s1 -> known s1 id n).
  { intros id Hlt. destruct (lt_known s1 id Hi1 Hlt) as [m Hk]. rewrite (matflat_known s1 n id m Flat Hk) in Hk. exact Hk. }
  assert (Nx : pt_next s1 <= pt_next s2) by (rewrite R11; lia).
  constructor.
  - constructor; cbn [fst snd].
    + exact R2.
    + intros hd Hh. unfold hknown. pose proof (w_handles _ Hw1 hd Hh) as K. unfold hknown in K. cbn [fst] in K. apply (proj1 (proj2 (proj2 R3)) _ _ K).
    + apply (w_fresh _ Hw1).
    + intros cl Hin. rewrite R9 in Hin. apply in_app_or in Hin. destruct Hin as [Hin|[<-|[]]].
      * apply in_map_iff in Hin. destruct Hin as [cl' [<- Hin]]. cbn [fst]. pose proof (w_sc _ Hw1 cl' Hin) as Y. cbn [fst] in Y. lia.
      * cbn [fst]. rewrite R11. lia.
    + intros i Hin. rewrite R7 in Hin. pose proof (w_zc _ Hw1 i Hin) as Y. cbn [fst] in Y. lia.
  - intros id m Hk. rewrite (matflat_known s2 n id m R5 Hk). destruct hs1 as [|hd hs1'] eqn:Eh.
    + exfalso. destruct (pt_comm s1) as [|[j c] l] eqn:Ec; [rewrite <- Cm1 in H2; cbn in H2; lia|].
      destruct (proj1 (mget_key (pt_comm s1) j)) as [c' Hc']; [rewrite Ec; left; reflexivity|]. destruct (i_comm s1 Hi1 j c' Hc') as [a Ha]. destruct (Cov1 j (nv (snd a)) ltac:(left; exists a; auto)) as [hd [[] _]].
    + exists hd. split; [left; reflexivity|]. apply Hnv. left. reflexivity.
  - clear - Ag1 R3 Hw1. assert (G : forall hs ds, (forall h, In h hs -> known s1 (tp_id h) (tp_nv h)) -> Forall2 (agrees s1 (points false)) hs ds -> Forall2 (agrees s2 (points false)) hs ds).
    { intros hs ds Hk F. induction F as [|hd d hs ds [A B] F IH]; constructor; [|apply IH; intros; apply Hk; right; assumption]. split; [exact A|]. intros x Hx. rewrite <- B by exact Hx.
      destruct Hx as [k [Hlt ->]]. apply (proj1 (proj2 (proj2 R3)) _ _ (Hk hd (or_introl eq_refl)) ); exact Hlt. }
    apply G; [|exact Ag1]. intros hd Hh. apply (w_handles _ Hw1 hd Hh).
  - clear - Dg1 R4 Hw1. assert (G : forall hs ds, (forall h, In h hs -> tp_id h < pt_next s1) -> Forall2 (hdeg s1) hs ds -> Forall2 (hdeg s2) hs ds).
    { intros hs ds Hk F. induction F as [|hd d hs ds A F IH]; constructor; [|apply IH; intros; apply Hk; right; assumption]. unfold hdeg in *. eapply vold_deg; [exact R4|apply Hk; left; reflexivity|exact A]. }
    apply G; [|exact Dg1]. intros hd Hh. apply (handle_lt _ hd Hw1 Hh).
  - rewrite (proj1 R3). exact Hpp1.
  - rewrite W1, V2. apply (gi_vk _ _ _ _ _ _ _ _ _ _ I).
  - intros _. exact R8.
  - rewrite R7. exact Zc1.
  - exact Llt.
  - intros i Hi. rewrite R9, map_app, map_map. cbn [fst]. apply in_or_app. left. apply Scl1. exact Hi.
  - rewrite R6. exact Cm1.
  - constructor.
    + reflexivity.
    + rewrite U1, R11. rewrite <- (map_length fst (vt_sc v1)), (l_sc _ _ _ _ _ L2), map_length. reflexivity.
    + exact Htr.
    + rewrite W2, R6. apply (l_comm _ _ _ _ _ L2).
    + rewrite U2, R7. apply (l_zc _ _ _ _ _ L2).
    + rewrite U3, R9, !map_app, map_map. cbn [fst map]. rewrite (l_sc _ _ _ _ _ L2). reflexivity.
    + reflexivity.
    + pose proof (l_len _ _ _ _ _ L2). lia.
    + exact W5.
  - rewrite R9, app_length, map_length, LT. cbn [length]. lia.
  - intros i c Hin. destruct (Given i c Hin) as [A1 A2]. split; [exact A1|]. rewrite U3. apply in_or_app. left. exact A2.
Qed.

(** Whatever was claimed, two trackers that got through a session stay in step. *)
Lemma session_any : forall (o : oracle p comm) vdebug g h (tau : list (F p)) n D rs s hs v cs,
  Forall (good (srs_pp (srs_of g h tau))) rs -> session o vdebug (srs_pp (srs_of g h tau)) (vk_of g h tau) rs = Ok ((s, hs), (v, cs)) ->
  (forall hd, In hd hs -> tp_nv hd = n) -> 0 < n <= length tau -> (forall d, In d (degrees (calls rs)) -> d <= D) -> 1 <= D -> D + 1 < fsize p -> 2 < fsize p ->
  (forall r rs', rs = r :: rs' -> 2 <= commit_calls (r_ops r)) ->
  ginv g h tau (calls rs) (vcalls rs) (length rs) s hs v cs.
Proof.
  intros o vdebug g h tau n D rs. induction rs as [|r rs IH] using rev_ind; intros s hs v cs G H Hnv Hn Hdeg HD HDf H2f H2.
  - inversion H; subst. apply ginv_new.
  - rewrite session_snoc in H. apply bind_ok_inv in H. destruct H as [[[s0 hs0] [v0 cs0]] [H0 H]].
    unfold round in H. apply bind_ok_inv in H. destruct H as [[s1 hs1] [H1 H]]. apply bind_ok_inv in H. destruct H as [[cp s2] [Hc H]]. apply bind_ok_inv in H. destruct H as [[v1 cs1] [Hv H]].
    apply bind_ok_inv in H. destruct H as [v2 [Hvc H]]. inversion H; subst s2 hs1 v2 cs1. clear H.
    destruct (session_len _ _ _ _ _ _ _ _ _ H0) as [L1 L2]. destruct (steps_len o _ _ _ _ _ _ H1 L1) as [[suf L3] _].
    apply Forall_app in G. destruct G as [G1 G2]. inversion G2 as [|? ? [G3 G4] _]; subst. rewrite calls_snoc in *. rewrite vcalls_snoc, app_length.
    assert (I : ginv g h tau (calls rs) (vcalls rs) (length rs) s0 hs0 v0 cs0).
    { apply IH; try assumption.
      - intros hd Hh. apply Hnv. apply in_or_app. auto.
      - intros d Hd. apply Hdeg. apply degrees_more. exact Hd.
      - intros r0 rs' ->. apply (H2 r0 (rs' ++ [r])). reflexivity. }
    assert (C2 : 2 <= commit_calls (calls rs ++ r_ops r)).
    { rewrite commit_app. destruct rs as [|r0 rs']; [specialize (H2 r [] eq_refl); lia|]. specialize (H2 r0 (rs' ++ [r]) eq_refl). unfold calls. cbn [flat_map]. rewrite commit_app. lia. }
    destruct (round_any o o vdebug g h tau n D _ _ _ s0 hs0 v0 cs0 r s1 _ I G3 G4 H1 Hnv Hn Hdeg HD HDf H2f C2) as [_ [_ [cz [t1 [rr [t2 [cc [t3 [_ [_ [_ [A1 A2]]]]]]]]]]]].
    destruct A2 as [cp' [s2' [v1' [B1 [B2 [_ [_ [_ B3]]]]]]]].
    { intros Hd. match goal with |- ?a = ?b => destruct (F_eq_dec a b) as [Q|Q]; [exact Q|] end. rewrite (A1 Hd Q) in Hc. discriminate. }
    rewrite Hc in B1. inversion B1; subst cp' s2'. rewrite Hv in B2. inversion B2; subst. replace (length rs + length [r]) with (S (length rs)) by (cbn; lia). apply (B3 v Hvc).
Qed.

Lemma session_caught : forall (oh : oracle p comm) vdebug g h rd N k srs ck vk rs r s hs v cs s1 hs1 n D M,
  1 <= N -> k <= N -> gen_srs E g h rd N = Ok srs -> kzg_trim srs None (Some k) = Ok (ck, vk) ->
  Forall (fun r => distinct_addresses (r_addr r) /\ mirror false ck (r_ops r) (r_vops r)) (rs ++ [r]) ->
  session oh vdebug ck vk rs = Ok ((s, hs), (v, cs)) -> foldM (pstep oh) (s, hs) (r_ops r) = Ok (s1, hs1) ->
  (forall hd, In hd hs1 -> tp_nv hd = n) -> 0 < n <= k ->
  let ops := calls (rs ++ [r]) in
  (forall d, In d (degrees ops) -> d <= D) -> 1 <= D -> D + 1 < fsize p -> 2 < fsize p ->
  2 <= commit_calls (r_ops (hd r rs)) ->
  let L := length (zero_calls ops) + n + (length (sum_calls ops) + length rs) + 1 in
  (~ zeros_hold ops \/ (exists i c, In (VOSum i c) (vcalls (rs ++ [r])) /\ c <> Fsum (corners (poly_at ops i))) ->
   count (round_accepts oh vdebug v cs r s1) (allV p (L + M)) <= (n + 2) * fsize p ^ (L + M - 1)) /\
  (~ zeros_hold ops -> r_debug r = true -> count (round_compiles r s1) (allV p (L + M)) <= (n + 2) * fsize p ^ (L + M - 1)).
Proof.
  intros oh vdebug g h rd N k srs ck vk rs r s hs v cs s1 hs1 n D M HN Hk Hg Ht G H H1 Hnv Hn ops Hdeg HD HDf H2f H2 L.
  destruct (kzg_trim_srs HE g h rd N k HN Hk) as [srs' [ck' [vk' [G1 [G2 [G3 G4]]]]]]. rewrite Hg in G1. inversion G1; subst srs'. rewrite Ht in G2. inversion G2; subst ck' vk'. clear G1 G2.
  set (tau := suffix k (trapdoor rd N)) in *. subst ck vk.
  assert (Lt : length tau = k) by (unfold tau; apply suffix_length; rewrite trapdoor_length; exact Hk).
  destruct (session_len _ _ _ _ _ _ _ _ _ H) as [L1 L2]. destruct (steps_len oh _ _ _ _ _ _ H1 L1) as [[suf L3] _].
  apply Forall_app in G. destruct G as [Ga Gb]. apply Forall_inv in Gb. destruct Gb as [Gc Gd]. subst hs1. unfold L, ops in *. clear L ops. rewrite calls_snoc in *. rewrite vcalls_snoc.
  assert (I : ginv g h tau (calls rs) (vcalls rs) (length rs) s hs v cs).
  { apply (session_any oh vdebug g h tau n D); try assumption; try lia.
    - intros hd Hh. apply Hnv. apply in_or_app. auto.
    - intros d Hd. apply Hdeg. apply degrees_more. exact Hd.
    - intros r0 rs' ->. exact H2. }
  assert (C2 : 2 <= commit_calls (calls rs ++ r_ops r)).
  { rewrite commit_app. destruct rs as [|r0 rs']; cbn [hd] in H2; [lia|]. unfold calls. cbn [flat_map]. rewrite commit_app. lia. }
  pose proof (fun o => round_any oh o vdebug g h tau n D _ _ _ s hs v cs r s1 _ I Gc Gd H1 Hnv ltac:(lia) Hdeg HD HDf H2f C2) as R. cbv zeta in R.
  set (ops := calls rs ++ r_ops r) in *. set (vops := vcalls rs ++ r_vops r) in *.
  set (T := map (fun cl => Fsum (ptab s1 (fst cl) n)) (pt_sc s1)) in *.
  set (W := map snd (vt_sc v) ++ flat_map _ (r_vops r)) in *.
  destruct (R oh) as [LT [Hfst _]]. rewrite <- LT.
  set (Z := length (zero_calls ops)) in *.
  assert (Draw : forall ch, length ch = Z + n + length T + 1 + M -> let o := script (nchal (hist (pt_tr s1))) ch in
    let cz := firstn Z ch in let rr := firstn n (skipn Z ch) in let cc := firstn (length T + 1) (skipn (Z + n) ch) in let X := claimed_zero ops n cz rr in
    (r_debug r = true -> weighted cc (T ++ [X]) <> weighted cc (T ++ [F0]) -> compile_round o r s1 = Err IOPInvalidProver) /\
    ((r_debug r = true -> weighted cc (T ++ [X]) = weighted cc (T ++ [F0])) ->
     exists cp s2 v1, compile_round o r s1 = Ok (cp, s2) /\ foldM (vstep oh vdebug) (set_compiled_proof v cp, cs) (r_vops r) = Ok (v1, map tp_id (hs ++ suf)) /\
       length W = length T /\ (W = T -> forall i c, In (VOSum i c) vops -> c = Fsum (corners (poly_at ops i))) /\
       (forall v2, verify_claims o v1 = Ok v2 -> weighted cc (W ++ [F0]) = weighted cc (T ++ [X])))).
  { intros ch Hl o. destruct (R o) as [_ [_ [cz [t1 [rr [t2 [cc [t3 [B1 [B2 [B3 [B4 B5]]]]]]]]]]]].
    destruct (script_rounds _ ch Z n (length T) M (pt_tr s1) _ _ _ _ _ _ eq_refl Hl B1 B2 B3) as [Q1 [Q2 Q3]]. rewrite <- Q1, <- Q2, <- Q3.
    split; [exact B4|]. intros Heq. destruct (B5 Heq) as [cp [s2 [v1 [D1 [D2 [_ [D4 [D5 D6]]]]]]]]. exists cp, s2, v1. repeat (split; [assumption|]). intros v2 Hv2. apply (D6 v2 Hv2). }
  assert (Nz : ~ zeros_hold ops -> exists k d, k < 2 ^ n /\ In d (map (corner_at ops k) (zero_calls ops)) /\ d <> F0).
  { intros Hz. apply not_zeros; [exact Hz|]. intros i Hi. rewrite (Hfst i Hi). lia. }
  split.
  - intros Hbad.
    assert (Hacc : forall ch, length ch = Z + n + length T + 1 + M -> round_accepts oh vdebug v cs r s1 ch = true ->
      weighted (firstn (length T + 1) (skipn (Z + n) ch)) (W ++ [F0]) = weighted (firstn (length T + 1) (skipn (Z + n) ch)) (T ++ [claimed_zero ops n (firstn Z ch) (firstn n (skipn Z ch))]) /\
      length W = length T /\ (W = T -> forall i c, In (VOSum i c) vops -> c = Fsum (corners (poly_at ops i)))).
    { intros ch Hl Hv. destruct (Draw ch Hl) as [D1 D2]. unfold round_accepts in Hv. set (o := script _ ch) in *. cbv zeta in D1, D2.
      destruct D2 as [cp [s2 [v1 [B1 [B2 [B3 [B4 B5]]]]]]].
      { intros Hd. match goal with |- ?a = ?b => destruct (F_eq_dec a b) as [Q|Q]; [exact Q|] end. rewrite (D1 Hd Q) in Hv. discriminate. }
      rewrite B1, B2 in Hv. destruct (verify_claims o v1) as [v2| |] eqn:Ev; try discriminate. split; [exact (B5 v2 eq_refl)|]. auto. }
    assert (Hcase : (length W = length T /\ (W <> T \/ ~ zeros_hold ops)) \/ forall ch, In ch (allV p (Z + n + length T + 1 + M)) -> round_accepts oh vdebug v cs r s1 ch = false).
    { destruct (Nat.eq_dec (length W) (length T)) as [Hlw|Hlw].
      - destruct (list_eq_dec F_eq_dec W T) as [Heq|Hne]; [|left; auto]. destruct Hbad as [Hbad|[i [c [B1 B2]]]]; [left; auto|]. right.
        intros ch Hch. apply allV_in_length in Hch. destruct (round_accepts _ _ _ _ _ _ ch) eqn:Hv; [|reflexivity]. exfalso. destruct (Hacc ch Hch Hv) as [_ [_ A]].
        apply B2. apply (A Heq). exact B1.
      - right. intros ch Hch. apply allV_in_length in Hch. destruct (round_accepts _ _ _ _ _ _ ch) eqn:Hv; [|reflexivity]. exfalso. apply Hlw. apply (Hacc ch Hch Hv). }
    destruct Hcase as [[Hlw Hcase]|Hcase]; [|rewrite (count_false _ _ Hcase); lia].
    apply (count_claims Hp Z n M (fun k => map (corner_at ops k) (zero_calls ops)) W T).
    + intros. apply map_length.
    + exact Hlw.
    + lia.
    + destruct Hcase as [A|A]; [left; exact A|right; apply Nz; exact A].
    + intros ch Hl Hv. apply (Hacc ch Hl Hv).
  - intros Hz Hd.
    apply (count_claims Hp Z n M (fun k => map (corner_at ops k) (zero_calls ops)) T T).
    + intros. apply map_length.
    + reflexivity.
    + lia.
    + right. apply Nz. exact Hz.
    + intros ch Hl Hv. destruct (Draw ch Hl) as [D1 _]. cbv zeta in D1. unfold round_compiles in Hv. symmetry. match goal with |- ?a = ?b => destruct (F_eq_dec a b) as [Q|Q]; [exact Q|] end. rewrite (D1 Hd Q) in Hv. discriminate.
Qed.
End S.
