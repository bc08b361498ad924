(** A proof that the verifier accepts whatever it claims. *)
From Coq Require Import String List Arith Lia Bool ZArith Znumtheory.
Import ListNotations.
From Verif Require Import Res ResLemmas Fp FSum SpecMle SpecVp SpecKzg SpecPoly SpecSumcheck SpecBatch SpecTracker ModelMle MleLemmas MleProofs MleExtra ModelVp VpHist VpProofs VpExtra
  ModelTranscript ModelSumcheck SumcheckVerify ZerocheckProofs TranscriptProofs Pairing ModelKzg KzgProofs KzgExtra ModelBatch BatchProofs BatchExtra
  ModelProver ModelVerifier ProverHist CompileHist VerifierHist TmapLemmas ProverProofs CompileProofs CompileExtra HistExtra CompileMain.
Local Open Scope string_scope.
Local Open Scope list_scope.
Local Open Scope nat_scope.

Section S.
Context {p : positive} {E : pairing p}.
Hypothesis HE : pairing_laws E.
Hypothesis Hp : prime (Zpos p).
Add Ring Fr : (@F_ring p).
Implicit Types v : vtrk E.
Local Notation comm := (gcar (PG1 E)).

(** The calls of a verifier look only at the commitments, claimed sums and query results of the proof. *)
Definition same_data (a b : cproof E) : Prop := cp_comms a = cp_comms b /\ cp_sums a = cp_sums b /\ cp_query a = cp_query b.
Lemma vstep_proof : forall (o : oracle p comm) debug op v cs v' cs' cp, same_data cp (vt_proof v) -> vstep o debug (v, cs) op = Ok (v', cs') ->
  vstep o debug (set_compiled_proof v cp, cs) op = Ok (set_compiled_proof v' cp, cs') /\ vt_proof v' = vt_proof v.
Proof.
  intros o debug op v cs v' cs' cp [D1 [D2 D3]] H1.
  destruct op; cbn [vstep] in *; unfold vpush, track_virtual_comm, add_comms, sub_comms, mul_comms, v_add_scalar, v_mul_scalar, v_increase_nv_front, v_increase_nv_back, track_virtual, track_mat_comm, v_gen_id in *; cbn [bind] in *;
    repeat match type of H1 with bind ?x _ = _ => let Hx := fresh "Hx" in destruct x eqn:Hx; try discriminate H1; cbn [bind] in * end;
    repeat match type of H1 with context [let (_, _) := ?x in _] => destruct x eqn:? end;
    try (inversion H1; subst; clear H1; split; reflexivity; fail).
  - inversion H1; subst; clear H1. unfold transfer_prover_comm in *. cbn [set_compiled_proof vt_proof]. rewrite D1.
    change (v_get_next_id (set_compiled_proof v cp)) with (v_get_next_id v).
    destruct (ounwrap (mget (cp_comms (vt_proof v)) (v_get_next_id v))) eqn:Hy; try discriminate Hx. cbn [bind] in *.
    unfold track_mat_comm, track_virtual, v_gen_id in *. cbn [set_compiled_proof put_virt set_vtr vt_vk vt_tr vt_next vt_mat vt_virt vt_query vt_sc vt_zc vt_proof] in *.
    destruct (rassert _) eqn:Hr; try discriminate Hx. cbn [bind] in *. inversion Hx; subst; clear Hx. split; reflexivity.
  - unfold vt_challenge in *. cbn [set_compiled_proof vt_tr]. destruct (drawT o l (vt_tr v)) as [[? ?]| |]; try discriminate. cbn [bind] in *. inversion Hx; subst. inversion H1; subst. split; reflexivity.
  - unfold get_prover_claimed_sum in *. cbn [set_compiled_proof vt_proof]. rewrite D2, Hx0. cbn [bind]. inversion H1; subst. split; reflexivity.
  - inversion H1; subst. unfold transfer_proof_poly_evals. cbn [set_compiled_proof vt_vk vt_tr vt_next vt_mat vt_virt vt_query vt_sc vt_zc vt_proof]. rewrite D3. split; reflexivity.
Qed.
Lemma vsteps_proof : forall (o : oracle p comm) debug vops v cs v' cs' cp, same_data cp (vt_proof v) -> foldM (vstep o debug) (v, cs) vops = Ok (v', cs') ->
  foldM (vstep o debug) (set_compiled_proof v cp, cs) vops = Ok (set_compiled_proof v' cp, cs') /\ vt_proof v' = vt_proof v.
Proof.
  intros o debug vops. induction vops as [|op vops IH]; intros v cs v' cs' cp D H; [inversion H; subst; split; reflexivity|].
  cbn [foldM] in *. apply bind_ok_inv in H. destruct H as [[v1 cs1] [H1 H2]]. destruct (vstep_proof _ _ _ _ _ _ _ _ D H1) as [A1 A2]. rewrite A1. cbn [bind].
  rewrite <- A2 in D. destruct (IH _ _ _ _ _ D H2) as [B1 B2]. split; [exact B1|congruence].
Qed.

(** Once a commitment is recorded, the transcript is not empty. *)
Lemma vstep_nonempty : forall (o : oracle p comm) debug op v cs v' cs', vstep o debug (v, cs) op = Ok (v', cs') ->
  (vt_mat v <> [] -> is_empty (vt_tr v) = false) -> vt_mat v' <> [] -> is_empty (vt_tr v') = false.
Proof.
  intros o debug op v cs v' cs' H1 Hi.
  destruct op; cbn [vstep] in *; unfold vpush, track_virtual_comm, add_comms, sub_comms, mul_comms, v_add_scalar, v_mul_scalar, v_increase_nv_front, v_increase_nv_back, track_virtual, track_mat_comm, v_gen_id in *; cbn [bind] in *;
    repeat match type of H1 with bind ?x _ = _ => let Hx := fresh "Hx" in destruct x eqn:Hx; try discriminate H1; cbn [bind] in * end;
    repeat match type of H1 with context [let (_, _) := ?x in _] => destruct x eqn:? end;
    try (inversion H1; subst; clear H1; cbn; auto; fail).
  - inversion H1; subst; clear H1. unfold transfer_prover_comm in *.
    destruct (ounwrap (mget (cp_comms (vt_proof v)) (v_get_next_id v))) eqn:Hy; try discriminate Hx. cbn [bind] in *.
    unfold track_mat_comm, track_virtual, v_gen_id in *. 
    destruct (rassert _) eqn:Hr; try discriminate Hx. cbn [bind] in *. inversion Hx; subst; clear Hx. reflexivity.
  - unfold vt_challenge, drawT, draw in *. destruct (is_empty (vt_tr v)); [discriminate|]. cbn [bind] in *. inversion Hx; subst. inversion H1; subst. reflexivity.
Qed.
Lemma vrun_nonempty : forall (o : oracle p comm) debug vk cp vops v cs, vrun o debug vk cp vops = Ok (v, cs) -> vt_mat v <> [] -> is_empty (vt_tr v) = false.
Proof.
  intros o debug vk cp vops v cs H.
  assert (G : forall vops v cs v' cs', foldM (vstep o debug) (v, cs) vops = Ok (v', cs') -> (vt_mat v <> [] -> is_empty (vt_tr v) = false) -> vt_mat v' <> [] -> is_empty (vt_tr v') = false).
  { clear. induction vops as [|op vops IH]; intros v cs v' cs' H Hi; [inversion H; subst; exact Hi|].
    cbn [foldM] in H. apply bind_ok_inv in H. destruct H as [[v1 cs1] [H1 H2]]. eapply IH; [exact H2|]. eapply vstep_nonempty; eassumption. }
  eapply G; [exact H|]. cbn. congruence.
Qed.

Lemma forge_sumcheck : forall (o : oracle p comm) (S : F p) t, 2 < fsize p -> is_empty t = false ->
  exists pf t', length (pf_point pf) = 1 /\ is_empty t' = false /\ (forall c, In c (pf_point pf) -> exists hh l, c = o hh l) /\
    ((forall c, In c (pf_point pf) -> nonnode 2 c) -> exists e, sc_verify o S pf 1 1 t = Ok (mkSub (pf_point pf) e, t')).
Proof.
  intros o S t Hf Ht. set (w := mkVp 1 1 [(F1, [0])] [(0, mkMle 1 [S; F0])] [(0, 0)] : vp p).
  assert (Hi : vp_inv w).
  { constructor.
    - intros m [<-|[]]. split; reflexivity.
    - intros c idx [Hc|[]]. inversion Hc; subst. split; [discriminate|]. split; [cbn; lia|]. intros i [<-|[]]. cbn. lia.
    - intros a i Ha. cbn in Ha. destruct a; [|discriminate]. inversion Ha; subst. eexists. reflexivity. }
  destruct (sc_complete Hp o (fun _ _ => SLeaf) w t Hi) as [pf [t' [P1 [P2 [P3 P4]]]]]; [cbn; lia|cbn; lia|cbn; lia|].
  destruct (sc_prove_spec Hp o (fun _ _ => SLeaf) w t Hi ltac:(cbn; lia) ltac:(cbn; lia)) as [cs [t0 [S1 [S2 S3]]]]. rewrite P1 in S1. inversion S1; subst t0. 
  exists pf, t'. split; [exact P2|]. split.
  { pose proof (run_msgs_nonempty o (honest (num_variables w) (max_degree w) (vp_val w) [] cs)
        (append "aux info" (PAux (max_degree w) (num_variables w)) t) eq_refl) as X. rewrite S3 in X. exact X. }
  assert (Hs : cube_sum (num_variables w) (vp_val w) = S).
  { assert (Hv : forall k, k < 2 -> vp_val w (bpoint 1 k) = nth k [S; F0] F0).
    { intros k Hk. unfold vp_val. cbn [products w map]. unfold prod_val. cbn [map snd fst]. unfold flat_val. cbn [flat w nth snd fst num_variables evs nth_error].
      rewrite (mle_ext_bpoint 1 (tab [S; F0])) by (cbn; lia). unfold tab. destruct k as [|[|k]]; [| |lia]; unfold Fsum, Fprod; cbn; ring. }
    unfold cube_sum. cbn [num_variables w Nat.pow Nat.mul Nat.add]. unfold sumN. cbn [seq map]. rewrite !Hv by lia. unfold Fsum. cbn. ring. }
  rewrite Hs in P4. split; [exact (sc_prove_drawn _ _ _ _ _ _ P1)|]. intros Hno. eexists. apply P4. exact Hno.
Qed.

Lemma forge : forall (o : oracle p comm) debug g h (tau : list (F p)) cp0 vops v cs,
  0 < length tau -> 2 < fsize p ->
  vrun o debug (vk_of g h tau) cp0 vops = Ok (v, cs) -> 2 <= length (cp_comms cp0) -> (forall id c, mget (cp_comms cp0) id = Some c -> mget (vt_mat v) id <> None) ->
  exists cp v', cp_comms cp = cp_comms cp0 /\ cp_sums cp = cp_sums cp0 /\ cp_query cp = cp_query cp0 /\
    vrun o debug (vk_of g h tau) cp vops = Ok (v', cs) /\ vt_sc v' = vt_sc v /\ vt_zc v' = vt_zc v /\ vt_mat v' = vt_mat v /\
    cp_deg cp = 1 /\ (exists b c c', cp_pcs cp = [b] /\ pf_point (cp_sc cp) = [c] /\ pf_point (bp_sc b) = [c'] /\ (exists hh l, c = o hh l) /\ (exists hh l, c' = o hh l)) /\
    (off_nodes cp -> exists v'', verify_claims o v' = Ok v'').
Proof.
  intros o debug g h tau cp0 vops v cs Htau Hf H H2 Hall.
  assert (He : is_empty (vt_tr v) = false).
  { eapply vrun_nonempty; [exact H|]. destruct (cp_comms cp0) as [|[id c] l] eqn:Hc; [cbn in H2; lia|].
    assert (Hk : exists c', mget (cp_comms cp0) id = Some c') by (apply mget_key; rewrite Hc; left; reflexivity). rewrite Hc in Hk.
    destruct Hk as [c' Hk]. intros Hm. apply (Hall id c' Hk). rewrite Hm. reflexivity. }
  destruct (run_draws o "zerocheck challenge" (length (vt_zc v)) (vt_tr v)) as [cz t1] eqn:R1.
  destruct (run_draws o "0check r" 1 t1) as [r t2] eqn:R2.
  destruct (run_draws o "sumcheck challenge" (length (vt_sc v) + 1) t2) as [ds t3] eqn:R3.
  assert (He3 : is_empty t3 = false).
  { pose proof (proj1 (run_draws_nonempty o "zerocheck challenge" (length (vt_zc v)) (vt_tr v) He)) as X1. rewrite R1 in X1. cbn [snd] in X1.
    pose proof (proj1 (run_draws_nonempty o "0check r" 1 t1 X1)) as X2. rewrite R2 in X2. cbn [snd] in X2.
    pose proof (proj1 (run_draws_nonempty o "sumcheck challenge" (length (vt_sc v) + 1) t2 X2)) as X3. rewrite R3 in X3. exact X3. }
  destruct (forge_sumcheck o (weighted ds (map snd (vt_sc v) ++ [F0])) t3 Hf) as [pf [t4 [F1' [F2' [F4' F3']]]]]; [exact He3|].
  set (ids := sort_ids (map fst (cp_comms cp0))).
  assert (Lids : length ids = length (cp_comms cp0)).
  { unfold ids. rewrite (Permutation.Permutation_length (sort_perm _)), map_length. reflexivity. }
  set (polys := map (fun _ : nat => mkMle 1 [F0; F0] : mle p) ids). set (points := map (fun _ : nat => pf_point pf) ids).
  assert (Lp : length polys = length ids) by apply map_length.
  assert (Hbw : batch_wf 1 polys points).
  { split; [unfold polys, points; rewrite !map_length; reflexivity|]. split.
    - intros f Hff. apply in_map_iff in Hff. destruct Hff as [? [<- _]]. split; reflexivity.
    - intros z Hz. apply in_map_iff in Hz. destruct Hz as [? [<- _]]. exact F1'. }
  destruct (run_draws o "t" (Nat.log2_up (length polys)) t4) as [ts t5] eqn:Rd.
  destruct (batch_honest HE Hp o (fun _ _ => SLeaf) (fun i => i) g h tau 1 polys points t4 ts t5 (fun i j e => e) ltac:(lia) ltac:(lia)) as [bpf [pfo [t6 [B1 [B2 [B3 B4]]]]]].
  { rewrite Lp, Lids. exact H2. } { exact Hbw. } { exact F2'. } { exact Hf. } { rewrite draw_vecT_ok by exact F2'. rewrite Rd. reflexivity. }
  set (bp := mkBatch bpf (open_values polys points) pfo).
  set (cp := mkCproof (cp_comms cp0) (cp_sums cp0) pf 1 1 (cp_query cp0) [bp]).
  destruct (vsteps_proof o debug vops (set_compiled_proof (vt_new (vk_of g h tau)) cp0) [] v cs cp ltac:(repeat split) H) as [G1 G2]. cbn [set_compiled_proof vt_proof] in G2.
  exists cp, (set_compiled_proof v cp). split; [reflexivity|]. split; [reflexivity|]. split; [reflexivity|]. split; [exact G1|]. split; [reflexivity|]. split; [reflexivity|]. split; [reflexivity|]. split; [reflexivity|].
  pose proof (multi_open_drawn _ _ _ _ _ _ _ _ _ _ (B2 [])) as Dr. cbn [bp_sc] in Dr.
  split.
  { pose proof F1' as L1. destruct (pf_point pf) as [|c [|? ?]] eqn:Ec; try discriminate L1. pose proof B1 as L2. destruct (pf_point bpf) as [|c' [|? ?]] eqn:Ec'; try discriminate L2.
    exists bp, c, c'. cbn [cp cp_pcs cp_sc bp bp_sc]. rewrite Ec, Ec'. split; [reflexivity|]. split; [reflexivity|]. split; [reflexivity|]. split; [apply F4'; left; reflexivity|apply Dr; left; reflexivity]. }
  intros [Hn1 Hn2]. cbn [cp cp_sc cp_deg cp_pcs] in Hn1, Hn2. destruct (F3' Hn1) as [e F5'].
  destruct (verify_run o (set_compiled_proof v cp) He cz t1 r t2 ds t3 R1 R2 R3) as [v2 [_ V]].
  cbv zeta in V. cbn [set_compiled_proof vt_proof vt_sc vt_zc vt_mat vt_vk cp cp_sc cp_deg cp_nv cp_comms cp_pcs] in V. rewrite F5' in V. cbn [map_err bind sub_point] in V.
  fold ids in V. fold points in V.
  assert (Hm : exists comms, mapM (fun id => ounwrap (mget (vt_mat v) id)) ids = Ok comms).
  { apply mapM_total. intros id Hin. unfold ids in Hin. apply (proj1 (sort_in _ _)) in Hin. apply mget_key in Hin. destruct Hin as [c Hc]. specialize (Hall id c Hc).
    destruct (mget (vt_mat v) id) as [c'|]; [|congruence]. exists c'. reflexivity. }
  destruct Hm as [comms Hm]. rewrite Hm in V. cbn [bind] in V. rewrite (rnth_ok [bp] 0 bp) in V by (simpl; lia). cbn [bind nth] in V.
  assert (Hv : vt_vk v = vk_of g h tau) by (destruct (vrun_sc _ _ _ _ _ _ _ H) as [_ [X _]]; exact X).
  rewrite Hv in V. apply mapM_length in Hm.
  assert (Hov : length (open_values polys points) = length polys).
  { unfold open_values. rewrite map_length, combine_length. destruct Hbw as [Hb _]. rewrite Hb. lia. }
  assert (Hb : batch_verify o (vk_of g h tau) (map (fun f => gmul (value f (suffix 1 tau)) g) polys) points bp t4 = Ok (true, t6)).
  { apply B3; [exact Hov|reflexivity|]. intros c Hc. apply (Hn2 bp c); [left; reflexivity|exact Hc]. }
  assert (Hl : length (map (fun f => gmul (value f (suffix 1 tau)) g) polys) = length comms) by (rewrite map_length, Hm; exact Lp).
  destruct (batch_verify_other o (vk_of g h tau) _ comms _ _ _ _ _ Hl Hb) as [b' Hb'].
  rewrite Hb' in V. cbn [bind] in V. eexists. exact V.
Qed.

Lemma forge_srs_any : forall (o : oracle p comm) debug g h rnd N k srs ck vk cp0 vops v cs,
  1 <= N -> 1 <= k <= N -> gen_srs E g h rnd N = Ok srs -> kzg_trim srs None (Some k) = Ok (ck, vk) -> 2 < fsize p ->
  vrun o debug vk cp0 vops = Ok (v, cs) -> 2 <= length (cp_comms cp0) -> (forall id c, mget (cp_comms cp0) id = Some c -> mget (vt_mat v) id <> None) ->
  exists cp v', cp_comms cp = cp_comms cp0 /\ cp_sums cp = cp_sums cp0 /\ cp_query cp = cp_query cp0 /\
    vrun o debug vk cp vops = Ok (v', cs) /\ vt_sc v' = vt_sc v /\ vt_zc v' = vt_zc v /\ vt_mat v' = vt_mat v /\
    cp_deg cp = 1 /\ (exists b c c', cp_pcs cp = [b] /\ pf_point (cp_sc cp) = [c] /\ pf_point (bp_sc b) = [c'] /\ (exists hh l, c = o hh l) /\ (exists hh l, c' = o hh l)) /\
    (off_nodes cp -> exists v'', verify_claims o v' = Ok v'').
Proof.
  intros o debug g h rnd N k srs ck vk cp0 vops v cs HN Hk Hg Ht Hf.
  destruct (kzg_trim_srs HE g h rnd N k HN ltac:(lia)) as [srs' [ck' [vk' [G1 [G2 [G3 G4]]]]]]. rewrite Hg in G1. inversion G1; subst srs'. rewrite Ht in G2. inversion G2; subst ck' vk'. clear G1 G2.
  subst vk. apply forge; [|exact Hf]. rewrite suffix_length; [lia|rewrite trapdoor_length; lia].
Qed.
Lemma forge_srs : forall (o : oracle p comm) debug g h rnd N k srs ck vk cp0 vops v cs,
  1 <= N -> 1 <= k <= N -> gen_srs E g h rnd N = Ok srs -> kzg_trim srs None (Some k) = Ok (ck, vk) -> 2 < fsize p -> (forall hh l, nonnode 3 (o hh l)) ->
  vrun o debug vk cp0 vops = Ok (v, cs) -> 2 <= length (cp_comms cp0) -> (forall id c, mget (cp_comms cp0) id = Some c -> mget (vt_mat v) id <> None) ->
  exists cp v' v'', cp_comms cp = cp_comms cp0 /\ cp_sums cp = cp_sums cp0 /\ cp_query cp = cp_query cp0 /\
    vrun o debug vk cp vops = Ok (v', cs) /\ vt_sc v' = vt_sc v /\ vt_zc v' = vt_zc v /\ vt_mat v' = vt_mat v /\
    verify_claims o v' = Ok v''.
Proof.
  intros o debug g h rnd N k srs ck vk cp0 vops v cs HN Hk Hg Ht Hf Hno H H2 Hall.
  destruct (forge_srs_any o debug g h rnd N k srs ck vk cp0 vops v cs HN Hk Hg Ht Hf H H2 Hall) as [cp [v' [A1 [A2 [A3 [A4 [A5 [A6 [A7 [A8 [A10 A9]]]]]]]]]]].
  destruct A10 as [b [c [c' [B1 [B2 [B3 [[h1 [l1 B4]] [h2 [l2 B5]]]]]]]]].
  destruct A9 as [v'' A9].
  { split; [intros x Hx; rewrite B2 in Hx; destruct Hx as [<-|[]]; subst c; rewrite A8; eapply nonnode_mono; [|apply Hno]; lia|].
    intros b' x Hb Hx. rewrite B1 in Hb. destruct Hb as [<-|[]]. rewrite B3 in Hx. destruct Hx as [<-|[]]. subst c'. apply Hno. }
  exists cp, v', v''. repeat (split; [assumption|]). exact A9.
Qed.
End S.
