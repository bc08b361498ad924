(** The comparison of C60 on honest proofs. *)
From Coq Require Import String List Arith Lia Bool ZArith Znumtheory Ring Field.
Import ListNotations.
From Verif Require Import Res ResLemmas Fp FSum SpecMle SpecKzg SpecPoly SpecBatch SpecTracker SpecIop ModelMle MleLemmas MleProofs MleExtra ModelVp VpExtra ModelTranscript ModelSumcheck SumcheckVerify ZerocheckProofs TranscriptProofs
  Pairing ModelKzg ModelBatch ModelProver ModelVerifier ProverHist ProverProofs ProverStep HistExtra VerifierHist VerifierExtra LockProofs CompileHist TmapLemmas CompileProofs CompileExtra CompileMain CompileSound IopVer CheckHist CheckProofs EndHist EndProofs SelHist.
Local Open Scope string_scope.
Local Open Scope list_scope.
Local Open Scope nat_scope.

Section P.
Context {p : positive} {E : pairing p}.
Hypothesis Hp : prime (Zpos p).
Add Field Fct : (F_field Hp).
Notation F := (F p).
Notation comm := (gcar (PG1 E)).
Implicit Types (v : vtrk E).

(** [id] evaluates to [z] at [x] with [d] steps or more. *)
Definition tot (m : tmap (vexp p)) (q : list ((nat * list F) * F)) (x : list F) (d id : nat) (z : F) : Prop := forall fuel, d <= fuel -> eval_loop fuel m q id x = Ok z.
Section I.
Variables (m : tmap (vexp p)) (q : list ((nat * list F) * F)) (x : list F).
Lemma tot_get : forall d id e z, mget m id = Some e -> (forall fuel, d <= fuel -> run_vexp q (eval_loop fuel m q) e x = Ok z) -> tot m q x (S d) id z.
Proof. intros d id e z He H [|fuel] Hf; [lia|]. cbn [eval_loop]. rewrite He. cbn [ounwrap bind]. apply H. lia. Qed.
Lemma tot_mono : forall d d' id z, d <= d' -> tot m q x d id z -> tot m q x d' id z.
Proof. intros d d' id z H T fuel Hf. apply T. lia. Qed.
Lemma tot_add : forall d id a b y z, mget m id = Some (VAdd a b) -> tot m q x d a y -> tot m q x d b z -> tot m q x (S d) id (y + z)%F.
Proof. intros d id a b y z He Ha Hb. apply (tot_get _ _ _ _ He). intros fuel Hf. cbn [run_vexp]. rewrite (Ha fuel Hf). cbn [bind]. rewrite (Hb fuel Hf). reflexivity. Qed.
Lemma tot_mul : forall d id a b y z, mget m id = Some (VMul a b) -> tot m q x d a y -> tot m q x d b z -> tot m q x (S d) id (y * z)%F.
Proof. intros d id a b y z He Ha Hb. apply (tot_get _ _ _ _ He). intros fuel Hf. cbn [run_vexp]. rewrite (Ha fuel Hf). cbn [bind]. rewrite (Hb fuel Hf). reflexivity. Qed.
Lemma tot_muls : forall d id a c y, mget m id = Some (VMulS a c) -> tot m q x d a y -> tot m q x (S d) id (c * y)%F.
Proof. intros d id a c y He Ha. apply (tot_get _ _ _ _ He). intros fuel Hf. cbn [run_vexp]. rewrite (Ha fuel Hf). reflexivity. Qed.
Lemma tot_fun : forall d id f z, mget m id = Some (VFun f) -> f x = Ok z -> tot m q x (S d) id z.
Proof. intros d id f z He H. apply (tot_get _ _ _ _ He). intros fuel _. exact H. Qed.
End I.

Lemma F2_imp : forall {A B} (P Q : A -> B -> Prop) l l', (forall a b, P a b -> Q a b) -> Forall2 P l l' -> Forall2 Q l l'.
Proof. intros A B P Q l l' H F. induction F; constructor; auto. Qed.
Definition vlen v : nat := length (vt_virt v).
Lemma len_virtual : forall v e, vready v -> vlen (snd (track_virtual v e)) = S (vlen v).
Proof. intros v e R. unfold vlen, track_virtual, v_gen_id, put_virt. cbn [snd vt_virt]. apply LockProofs.mput_length. cbn [vt_virt]. apply R. cbn. lia. Qed.

Lemma conv_total : forall (o : oracle p comm) ids v agg, is_empty (vt_tr v) = false -> vready v ->
  exists agg' v', foldM (fun (acc : nat * vtrk E) (cl : nat) =>
        ' (c, v') <- unwrap (vt_challenge o "zerocheck challenge" (snd acc)) ;;
        let '(id, v'') := v_mul_scalar v' cl c in
        Ok (add_comms v'' (fst acc) id)) (agg, v) ids = Ok (agg', v') /\
    ckeep v v' /\ vlen v <= vlen v' /\ vt_sc v' = vt_sc v /\ vt_tr v' = snd (run_draws o "zerocheck challenge" (length ids) (vt_tr v)) /\
    forall m q x y ys, sub_map (vt_virt v') m -> tot m q x (vlen v) agg y -> Forall2 (tot m q x (vlen v)) ids ys ->
      tot m q x (vlen v') agg' (y + weighted (fst (run_draws o "zerocheck challenge" (length ids) (vt_tr v))) ys)%F.
Proof.
  intros o ids. induction ids as [|id ids IH]; intros v agg He R.
  - exists agg, v. split; [reflexivity|]. split; [apply ckeep_refl; exact R|]. split; [lia|]. split; [reflexivity|]. split; [reflexivity|].
    intros m q x y ys Hs Hf Hy. inversion Hy; subst. cbn [length run_draws fst]. replace (y + weighted [] [])%F with y; [exact Hf|]. unfold weighted. cbn [combine map]. rewrite Fsum_nil. ring.
  - cbn [foldM]. unfold vt_challenge at 1. cbn [snd fst]. rewrite drawT_ok by exact He. cbn [bind unwrap].
    set (c := o (hist (vt_tr v)) "zerocheck challenge"). set (v1 := set_vtr v (tdraw "zerocheck challenge" c (vt_tr v))).
    assert (K1 : ckeep v v1) by (apply ckeep_tr; exact R). unfold v_mul_scalar, add_comms.
    pose proof (len_virtual v1 (VMulS id c) (k_ready _ _ K1)) as N2.
    destruct (ckeep_virtual v1 (VMulS id c) (k_ready _ _ K1)) as [K2 [G2 [T2 S2]]]. destruct (track_virtual v1 (VMulS id c)) as [i2 v2]. cbn [fst snd] in K2, G2, T2, S2, N2. cbn [bind].
    pose proof (len_virtual v2 (VAdd agg i2) (k_ready _ _ K2)) as N3.
    destruct (ckeep_virtual v2 (VAdd agg i2) (k_ready _ _ K2)) as [K3 [G3 [T3 S3]]]. destruct (track_virtual v2 (VAdd agg i2)) as [i3 v3]. cbn [fst snd] in K3, G3, T3, S3, N3.
    assert (N1 : vlen v1 = vlen v) by reflexivity.
    assert (T : vt_tr v3 = tdraw "zerocheck challenge" c (vt_tr v)) by (rewrite T3, T2; reflexivity).
    destruct (IH v3 i3) as [agg' [v' [I1 [I2 [IL [I3 [I4 I5]]]]]]]; [rewrite T; reflexivity|exact (k_ready _ _ K3)|].
    exists agg', v'. split; [exact I1|]. split; [exact (ckeep_trans _ _ _ K1 (ckeep_trans _ _ _ K2 (ckeep_trans _ _ _ K3 I2)))|]. split; [lia|].
    split; [rewrite I3, S3, S2; reflexivity|]. rewrite T in I4, I5. cbn [length run_draws]. fold c.
    destruct (run_draws o "zerocheck challenge" (length ids) (tdraw "zerocheck challenge" c (vt_tr v))) as [cs t']. cbn [fst snd] in *. split; [exact I4|].
    intros m q x y ys0 Hs Hf Hy. inversion Hy as [|? z ? ys Hz Hys]; subst.
    rewrite weighted_cons. replace (y + (c * z + weighted cs ys))%F with ((y + c * z) + weighted cs ys)%F by ring. apply I5; [exact Hs| |].
    + replace (vlen v3) with (S (S (vlen v))) by lia. apply (tot_add m q x _ i3 agg i2); [apply Hs; apply (k_sub _ _ I2); exact G3|apply (tot_mono m q x (vlen v)); [lia|exact Hf]|].
      apply (tot_muls m q x _ i2 id); [apply Hs; apply (k_sub _ _ I2); apply (k_sub _ _ K3); exact G2|exact Hz].
    + eapply F2_imp; [|exact Hys]. intros i w Hw. apply (tot_mono m q x (vlen v)); [lia|exact Hw].
Qed.
Lemma agg_total : forall (o : oracle p comm) cls v agg sum, is_empty (vt_tr v) = false -> vready v ->
  exists agg' v', foldM (fun (acc : nat * F * vtrk E) (cl : nat * F) =>
        let '(agg, sum, v) := acc in
        ' (c, v') <- unwrap (vt_challenge o "sumcheck challenge" v) ;;
        let '(id, v'') := v_mul_scalar v' (fst cl) c in
        let '(agg', v3') := add_comms v'' agg id in
        Ok (agg', (sum + snd cl * c)%F, v3')) (agg, sum, v) cls =
      Ok (agg', (sum + weighted (fst (run_draws o "sumcheck challenge" (length cls) (vt_tr v))) (map snd cls))%F, v') /\
    ckeep v v' /\ vlen v <= vlen v' /\ vt_sc v' = vt_sc v /\ vt_tr v' = snd (run_draws o "sumcheck challenge" (length cls) (vt_tr v)) /\
    forall m q x y ys, sub_map (vt_virt v') m -> tot m q x (vlen v) agg y -> Forall2 (fun cl => tot m q x (vlen v) (fst cl)) cls ys ->
      tot m q x (vlen v') agg' (y + weighted (fst (run_draws o "sumcheck challenge" (length cls) (vt_tr v))) ys)%F.
Proof.
  intros o cls. induction cls as [|cl cls IH]; intros v agg sum He R.
  - exists agg, v. cbn [foldM length run_draws fst snd map]. split; [do 3 f_equal; unfold weighted; cbn [combine map]; rewrite Fsum_nil; ring|]. split; [apply ckeep_refl; exact R|]. split; [lia|]. split; [reflexivity|]. split; [reflexivity|].
    intros m q x y ys Hs Hf Hy. inversion Hy; subst. replace (y + weighted [] [])%F with y; [exact Hf|]. unfold weighted. cbn [combine map]. rewrite Fsum_nil. ring.
  - cbn [foldM]. unfold vt_challenge at 1. cbn [snd fst]. rewrite drawT_ok by exact He. cbn [bind unwrap].
    set (c := o (hist (vt_tr v)) "sumcheck challenge"). set (v1 := set_vtr v (tdraw "sumcheck challenge" c (vt_tr v))).
    assert (K1 : ckeep v v1) by (apply ckeep_tr; exact R). unfold v_mul_scalar at 1, add_comms at 1.
    pose proof (len_virtual v1 (VMulS (fst cl) c) (k_ready _ _ K1)) as N2.
    destruct (ckeep_virtual v1 (VMulS (fst cl) c) (k_ready _ _ K1)) as [K2 [G2 [T2 S2]]]. destruct (track_virtual v1 (VMulS (fst cl) c)) as [i2 v2]. cbn [fst snd] in K2, G2, T2, S2, N2. cbn [bind].
    pose proof (len_virtual v2 (VAdd agg i2) (k_ready _ _ K2)) as N3.
    destruct (ckeep_virtual v2 (VAdd agg i2) (k_ready _ _ K2)) as [K3 [G3 [T3 S3]]]. destruct (track_virtual v2 (VAdd agg i2)) as [i3 v3]. cbn [fst snd] in K3, G3, T3, S3, N3. cbn [bind].
    assert (N1 : vlen v1 = vlen v) by reflexivity.
    assert (T : vt_tr v3 = tdraw "sumcheck challenge" c (vt_tr v)) by (rewrite T3, T2; reflexivity).
    destruct (IH v3 i3 (sum + snd cl * c)%F) as [agg' [v' [I1 [I2 [IL [I3 [I4 I5]]]]]]]; [rewrite T; reflexivity|exact (k_ready _ _ K3)|].
    exists agg', v'. rewrite T in I1, I4, I5. cbn [length run_draws]. fold c.
    destruct (run_draws o "sumcheck challenge" (length cls) (tdraw "sumcheck challenge" c (vt_tr v))) as [cs t']. cbn [fst snd] in *.
    split; [etransitivity; [exact I1|]; cbn [map]; rewrite weighted_cons; do 3 f_equal; ring|].
    split; [exact (ckeep_trans _ _ _ K1 (ckeep_trans _ _ _ K2 (ckeep_trans _ _ _ K3 I2)))|]. split; [lia|].
    split; [rewrite I3, S3, S2; reflexivity|]. split; [exact I4|].
    intros m q x y ys0 Hs Hf Hy. inversion Hy as [|? z ? ys Hz Hys]; subst.
    rewrite weighted_cons. replace (y + (c * z + weighted cs ys))%F with ((y + c * z) + weighted cs ys)%F by ring. apply I5; [exact Hs| |].
    + replace (vlen v3) with (S (S (vlen v))) by lia. apply (tot_add m q x _ i3 agg i2); [apply Hs; apply (k_sub _ _ I2); exact G3|apply (tot_mono m q x (vlen v)); [lia|exact Hf]|].
      apply (tot_muls m q x _ i2 (fst cl)); [apply Hs; apply (k_sub _ _ I2); apply (k_sub _ _ K3); exact G2|exact Hz].
    + eapply F2_imp; [|exact Hys]. intros i w Hw. apply (tot_mono m q x (vlen v)); [lia|exact Hw].
Qed.

Lemma check_total : forall (o : oracle p comm) v, is_empty (vt_tr v) = false -> vready v ->
  forall zs t1 r t2 cs t3,
    run_draws o "zerocheck challenge" (length (vt_zc v)) (vt_tr v) = (zs, t1) -> run_draws o "0check r" (cp_nv (vt_proof v)) t1 = (r, t2) ->
    run_draws o "sumcheck challenge" (length (vt_sc v) + 1) t2 = (cs, t3) ->
  forall x y zeros sums, sc_end o v = Ok (x, y) -> length x = cp_nv (vt_proof v) ->
    (forall m, sub_map (vt_virt v) m -> Forall2 (tot m (vt_query v) x (vlen v)) (vt_zc v) zeros) ->
    (forall m, sub_map (vt_virt v) m -> Forall2 (tot m (vt_query v) x (vlen v)) (map fst (vt_sc v)) sums) ->
    last_check o v = Ok (Feqb (combination sums zeros zs r cs x) y).
Proof.
  intros o v He R zs t1 r t2 cs t3 R1 R2 R3 x y zeros sums Hend Hx Hzeros Hsums. rewrite (end_run o v He zs t1 r t2 cs t3 R1 R2 R3) in Hend. cbv zeta in Hend.
  unfold last_check, v_convert_zerocheck_claims.
  assert (He1 : is_empty t1 = false).
  { pose proof (proj1 (run_draws_nonempty o "zerocheck challenge" (length (vt_zc v)) (vt_tr v) He)) as X. rewrite R1 in X. exact X. }
  assert (He2 : is_empty t2 = false).
  { pose proof (proj1 (run_draws_nonempty o "0check r" (cp_nv (vt_proof v)) t1 He1)) as X. rewrite R2 in X. exact X. }
  unfold track_virtual_comm. pose proof (len_virtual v (VFun (fun _ => Ok F0)) R) as N0.
  destruct (ckeep_virtual v (VFun (fun _ => Ok F0)) R) as [K0 [G0 [T0 S0]]]. destruct (track_virtual v (VFun (fun _ => Ok F0))) as [i0 v0]. cbn [fst snd] in K0, G0, T0, S0, N0.
  destruct (conv_total o (vt_zc v0) v0 i0) as [agg [v1 [A1 [A2 [NA [A3 [A4 A5]]]]]]]; [rewrite T0; exact He|exact (k_ready _ _ K0)|].
  rewrite A1. cbn [bind]. rewrite T0, (k_zc _ _ K0), R1 in A4, A5. cbn [fst snd] in A4, A5. rewrite A4, draw_vecT_ok by exact He1. rewrite R2. cbn [unwrap bind].
  assert (Kr : ckeep v1 (set_vtr v1 t2)) by (apply ckeep_tr; exact (k_ready _ _ A2)).
  pose proof (len_virtual (set_vtr v1 t2) (VFun (fun pt => eq_eval pt r)) (k_ready _ _ Kr)) as N3.
  destruct (ckeep_virtual (set_vtr v1 t2) (VFun (fun pt => eq_eval pt r)) (k_ready _ _ Kr)) as [K3 [G3 [T3 S3]]]. destruct (track_virtual (set_vtr v1 t2) _) as [i3 v3]. cbn [fst snd] in K3, G3, T3, S3, N3.
  unfold mul_comms. pose proof (len_virtual v3 (VMul agg i3) (k_ready _ _ K3)) as N4.
  destruct (ckeep_virtual v3 (VMul agg i3) (k_ready _ _ K3)) as [K4 [G4 [T4 S4]]]. destruct (track_virtual v3 (VMul agg i3)) as [i4 v4]. cbn [fst snd] in K4, G4, T4, S4, N4.
  set (v5 := v_add_sumcheck_claim v4 i4 F0).
  assert (K5 : ckeep v4 v5) by (constructor; try reflexivity; [exact (k_ready _ _ K4)|apply sub_refl]).
  unfold v_aggregate_sumcheck_claims, track_virtual_comm. cbn [bind]. pose proof (len_virtual v5 (VFun (fun _ => Ok F0)) (k_ready _ _ K5)) as N6.
  destruct (ckeep_virtual v5 (VFun (fun _ => Ok F0)) (k_ready _ _ K5)) as [K6 [G6 [T6 S6]]]. destruct (track_virtual v5 (VFun (fun _ => Ok F0))) as [i6 v6]. cbn [fst snd] in K6, G6, T6, S6, N6.
  assert (T : vt_tr v6 = t2) by (rewrite T6; unfold v5, v_add_sumcheck_claim; cbn [vt_tr]; rewrite T4, T3; reflexivity).
  assert (S : vt_sc v6 = vt_sc v ++ [(i4, F0)]).
  { rewrite S6. unfold v5, v_add_sumcheck_claim. cbn [vt_sc]. rewrite S4, S3. cbn [set_vtr vt_sc]. rewrite A3, S0. reflexivity. }
  rewrite S. destruct (agg_total o (vt_sc v ++ [(i4, F0)]) v6 i6 F0) as [agg' [v7 [B1 [B2 [NB [B3 [B4 B5]]]]]]]; [rewrite T; exact He2|exact (k_ready _ _ K6)|].
  rewrite B1. cbn [bind]. rewrite T, app_length in B4, B5. cbn [length] in B4, B5. rewrite T, app_length. cbn [length]. rewrite R3 in B4, B5 |- *. cbn [fst snd] in B4, B5 |- *.
  assert (K : ckeep v v7) by (repeat (eapply ckeep_trans; [eassumption|]); apply ckeep_refl; exact (k_ready _ _ B2)).
  rewrite B4, map_app. cbn [map snd]. replace (F0 + weighted cs (map snd (vt_sc v) ++ [F0]))%F with (weighted cs (map snd (vt_sc v) ++ [F0])) by ring.
  destruct (sc_verify _ _ _ _ _ t3) as [[sub t]| |]; cbn [map_err bind] in *; try discriminate. injection Hend as Hx1 Hy1. rewrite Hx1, Hy1.
  set (n := cp_nv (vt_proof v)) in *. set (m2 := vt_virt v7) in *. set (q := vt_query v) in *.
  assert (Lr : length r = n) by (pose proof (run_draws_length o "0check r" n t1) as L; rewrite R2 in L; exact L).
  assert (X6 : sub_map (vt_virt v6) m2) by exact (k_sub _ _ B2).
  assert (X5 : sub_map (vt_virt v5) m2) by (eapply sub_trans; [exact (k_sub _ _ K6)|exact X6]).
  assert (X4 : sub_map (vt_virt v4) m2) by (eapply sub_trans; [exact (k_sub _ _ K5)|exact X5]).
  assert (X3 : sub_map (vt_virt v3) m2) by (eapply sub_trans; [exact (k_sub _ _ K4)|exact X4]).
  assert (X1 : sub_map (vt_virt v1) m2) by (eapply sub_trans; [exact (k_sub _ _ K3)|exact X3]).
  assert (X0 : sub_map (vt_virt v0) m2) by (eapply sub_trans; [exact (k_sub _ _ A2)|exact X1]).
  assert (Xv : sub_map (vt_virt v) m2) by exact (k_sub _ _ K).
  assert (Nr : vlen (set_vtr v1 t2) = vlen v1) by reflexivity. assert (N5 : vlen v5 = vlen v4) by reflexivity.
  assert (Hz : tot m2 q x (vlen v1) agg (weighted zs zeros)).
  { replace (weighted zs zeros) with (F0 + weighted zs zeros)%F by ring. apply (A5 m2 q x F0 zeros X1); [rewrite N0; apply (tot_fun m2 q x _ i0 _ _ (X0 _ _ G0)); reflexivity|].
    eapply F2_imp; [|exact (Hzeros m2 Xv)]. intros i w Hw. apply (tot_mono m2 q x (vlen v)); [lia|exact Hw]. }
  assert (H3 : tot m2 q x (vlen v3) i3 (eqf x r)) by (rewrite N3; apply (tot_fun m2 q x _ i3 _ _ (X3 _ _ G3)); apply eq_eval_spec; congruence).
  assert (H4 : tot m2 q x (vlen v4) i4 (weighted zs zeros * eqf x r)%F).
  { rewrite N4. apply (tot_mul m2 q x _ i4 agg i3 _ _ (X4 _ _ G4)); [apply (tot_mono m2 q x (vlen v1)); [lia|exact Hz]|exact H3]. }
  assert (H7 : tot m2 q x (vlen v7) agg' (combination sums zeros zs r cs x)).
  { unfold combination. match goal with |- tot _ _ _ _ _ ?w => replace w with (F0 + w)%F by ring end. apply (B5 m2 q x F0); [apply sub_refl|rewrite N6; apply (tot_fun m2 q x _ i6 _ _ (X6 _ _ G6)); reflexivity|].
    apply Forall2_app; [|constructor; [apply (tot_mono m2 q x (vlen v4)); [lia|exact H4]|constructor]].
    pose proof (Hsums m2 Xv) as Hs2. clear - Hs2 N0 NA Nr N3 N4 N5 N6. remember (map fst (vt_sc v)) as ids eqn:Ei. revert Hs2 Ei. generalize (vt_sc v) as l. intros l Hs2. revert l. induction Hs2 as [|i w ids ws Hw Hws IH]; intros l Ei.
    - destruct l; [constructor|discriminate].
    - destruct l as [|cl l]; [discriminate|]. injection Ei as -> Ei. constructor; [apply (tot_mono m2 q x (vlen v)); [lia|exact Hw]|apply IH; exact Ei]. }
  unfold eval_virtual_comm. rewrite (k_q _ _ K). fold q m2. rewrite H7; [reflexivity|]. unfold vlen. fold m2. nia.
Qed.
End P.

Section Q.
Context {p : positive} {E : pairing p}.
Hypothesis HE : pairing_laws E.
Hypothesis Hp : prime (Zpos p).
Notation F := (F p).
Notation comm := (gcar (PG1 E)).
Implicit Types (v : vtrk E).

Lemma mirror_weak : forall (pp : pparam E) ops vops, mirror true pp ops vops -> mirror false pp ops vops.
Proof. intros pp ops vops H. induction H; econstructor; eauto; discriminate. Qed.

Lemma hist_checked : forall (o : oracle p comm) sc sc' addr vdebug g h rnd N k srs ck vk ops vops s hs D cp s' v v' x y q,
  1 <= N -> k <= N -> gen_srs E g h rnd N = Ok srs -> kzg_trim srs None (Some k) = Ok (ck, vk) -> distinct_addresses addr ->
  prun o ck ops = Ok (s, hs) -> mirror true ck ops vops -> back_calls [] ops ->
  (forall d, In d (degrees ops) -> d <= D) -> 1 <= D -> D + 1 < fsize p -> 2 < fsize p ->
  2 <= commit_calls ops -> 0 < max_nv hs <= k ->
  linear_calls [] ops -> (forall i, In i (zero_calls ops) -> ~ In i (sum_calls ops)) -> (forall i, In i (sum_calls ops) -> multilinear (poly_at ops i)) ->
  (forall i, In i (zero_calls ops) \/ In i (sum_calls ops) -> fst (poly_at ops i) = max_nv hs) ->
  compile_proof o sc sc' addr false s = Ok (cp, s') -> vrun o vdebug vk cp vops = Ok (v, map tp_id hs) -> verify_claims o v = Ok v' ->
  sc_end o v = Ok (x, y) -> query_holds v q (map tp_id hs) (denote ops) x ->
  last_check o (answered v q) = Ok true /\ exists w, verify_claims_checked o (answered v q) = Ok w.
Proof.
  intros o sc sc' addr vdebug g h rnd N k srs ck vk ops vops s hs D cp s' v v' x y q HN Hk Hg Ht Hadr H Hm Hb Hdeg HD HDf H2f H2 Hn Hlin Hdis Hmul Hnv Hc Hv Hver Hend Hq.
  destruct (hist_runs HE Hp o sc sc' addr false vdebug g h rnd N k srs ck vk ops vops s hs D cp s' v v' HN Hk Hg Ht Hadr H (mirror_weak _ _ _ Hm) Hdeg HD HDf H2f H2 Hn Hc Hv Hver)
    as [zs [r [cs [x0 [y0 [rest [[t1 [t2 [t3 [R1 [R2 R3]]]]] [Hcov [L1 [L2 [L3 [L4 [L5 [L6 [_ L8]]]]]]]]]]]]]]].
  rewrite Hend in L6. injection L6 as <- <-. specialize (L8 eq_refl Hlin Hdis). rewrite (end_multilinear o ck ops s hs zs r cs x H Hmul L4) in L8.
  destruct (lockstep o vdebug true ck vk cp ops vops s hs Hm H Hcov) as [v0 [A [B C]]]. rewrite Hv in A. injection A as <-. specialize (C eq_refl Hb).
  destruct (hist_calls _ _ _ _ _ H) as [Zc [Sc [_ Lc]]]. pose proof (hist_nonempty _ _ _ _ _ H ltac:(lia)) as He. rewrite <- (l_tr _ _ _ _ _ B) in He.
  assert (Hnvp : cp_nv (vt_proof v) = max_nv hs).
  { pose proof (run_draws_length o "0check r" (cp_nv (vt_proof v)) t1) as X. rewrite R2 in X. cbn [fst] in X. congruence. }
  assert (Tot : forall m i, sub_map (vt_virt v) m -> In i (zero_calls ops) \/ In i (sum_calls ops) -> tot m q x (length (vt_virt v)) (tp_id (nth i hs dh)) (at_point ops x i)).
  { intros m i Hs Hi fuel Hf. pose proof (Lc i Hi) as Hlt. apply (eval_loop_ext q fuel (vt_virt v)); [exact Hs|].
    pose proof (prun_den o ck ops s hs false H ltac:(discriminate)) as Hag.
    assert (Ln : length (denote ops) = length hs) by (symmetry; clear -Hag; induction Hag; cbn; congruence).
    unfold at_point. pose proof (Hnv i Hi) as Hf1. rewrite firstn_all2 by lia.
    apply (C q i); [rewrite nth_error_map, (nth_error_nth' hs dh Hlt); reflexivity|unfold poly_at; apply nth_error_nth'; lia|fold (poly_at ops i); lia|exact Hq|].
    pose proof (l_len _ _ _ _ _ B) as Hl. rewrite map_length in Hl. lia. }
  assert (Fmap : forall m l, sub_map (vt_virt v) m -> (forall i, In i l -> In i (zero_calls ops) \/ In i (sum_calls ops)) ->
    Forall2 (tot m q x (length (vt_virt v))) (map (fun i => tp_id (nth i hs dh)) l) (map (at_point ops x) l)).
  { intros m l Hs. induction l as [|i l IH]; intros Hl; [constructor|]. cbn [map]. constructor; [apply Tot; [exact Hs|apply Hl; left; reflexivity]|apply IH; intros j Hj; apply Hl; right; exact Hj]. }
  assert (Hend' : sc_end o (answered v q) = Ok (x, y)).
  { rewrite (end_run o (answered v q) He zs t1 r t2 cs t3 R1 R2 R3). rewrite <- Hend, (end_run o v He zs t1 r t2 cs t3 R1 R2 R3). reflexivity. }
  assert (Last : last_check o (answered v q) = Ok true).
  { rewrite (check_total Hp o (answered v q) He) with (zs := zs) (t1 := t1) (r := r) (t2 := t2) (cs := cs) (t3 := t3) (x := x) (y := y) (zeros := map (at_point ops x) (zero_calls ops)) (sums := map (at_point ops x) (sum_calls ops)).
    - rewrite L8. unfold end_true. f_equal. apply Feqb_eq. reflexivity.
    - intros id Hid. exact (v_fresh_ge _ _ _ _ _ id B Hid).
    - exact R1.
    - exact R2.
    - exact R3.
    - exact Hend'.
    - change (length x = cp_nv (vt_proof v)). congruence.
    - intros m Hs. change (vt_zc (answered v q)) with (vt_zc v). rewrite (l_zc _ _ _ _ _ B), Zc. apply Fmap; [exact Hs|auto].
    - intros m Hs. change (vt_sc (answered v q)) with (vt_sc v). rewrite (l_sc _ _ _ _ _ B), Sc. apply Fmap; [exact Hs|auto]. }
  split; [exact Last|]. unfold verify_claims_checked.
  assert (Hver' : exists w, verify_claims o (answered v q) = Ok w).
  { destruct (verify_run o v He zs t1 r t2 cs t3 R1 R2 R3) as [v2 [_ V]]. rewrite V in Hver. destruct (verify_run o (answered v q) He zs t1 r t2 cs t3 R1 R2 R3) as [w2 [_ W]]. rewrite W.
    cbn [answered vt_vk vt_tr vt_next vt_mat vt_virt vt_query vt_sc vt_zc vt_proof]. cbv zeta in *.
    apply bind_ok_inv in Hver. destruct Hver as [[sub t] [-> Hver]]. cbn [bind]. apply bind_ok_inv in Hver. destruct Hver as [co [-> Hver]]. cbn [bind].
    apply bind_ok_inv in Hver. destruct Hver as [bp [-> Hver]]. cbn [bind]. apply bind_ok_inv in Hver. destruct Hver as [[b t'] [-> Hver]]. cbn [bind]. eexists. reflexivity. }
  destruct Hver' as [w ->]. cbn [bind]. rewrite Last. cbn [bind ensure]. eexists. reflexivity.
Qed.
End Q.
