(** The query results a compiled proof carries. *)
From Coq Require Import String List Arith Lia Bool ZArith Znumtheory.
Import ListNotations.
From Verif Require Import Res ResLemmas Fp FSum SpecMle SpecVp SpecKzg SpecPoly SpecSumcheck SpecBatch SpecTracker ModelMle MleLemmas MleProofs MleExtra ModelVp VpHist VpProofs VpExtra
  ModelTranscript ModelSumcheck SumcheckVerify ZerocheckProofs TranscriptProofs Pairing ModelKzg KzgProofs KzgExtra ModelBatch BatchProofs BatchExtra
  ModelProver ModelVerifier ProverHist VerifierHist CompileHist TmapLemmas ProverProofs ProverExtra ProverStep CompileProofs CompileExtra HistExtra CompileMain CompileSound.
Local Open Scope string_scope.
Local Open Scope list_scope.
Local Open Scope nat_scope.

Section S.
Context {p : positive} {E : pairing p}.
Hypothesis HE : pairing_laws E.
Hypothesis Hp : prime (Zpos p).
Add Ring Fr : (@F_ring p).
Implicit Types s : ptrk E.
Local Notation comm := (gcar (PG1 E)).

Lemma query_zero : forall (o : oracle p comm) sc sc' addr debug s cp s', compile_proof o sc sc' addr debug s = Ok (cp, s') ->
  cp_query cp = map (fun id => ((id, pf_point (cp_sc cp)), F0)) (sort_ids (map fst (cp_comms cp))).
Proof.
  intros o sc sc' addr debug s cp s' H. unfold compile_proof in H.
  apply bind_ok_inv in H. destruct H as [[n s1] [_ H]]. apply bind_ok_inv in H. destruct H as [s2 [_ H]]. apply bind_ok_inv in H. destruct H as [[[agg sum] s3] [_ H]].
  apply bind_ok_inv in H. destruct H as [s4 [_ H]]. apply bind_ok_inv in H. destruct H as [v [_ H]]. apply bind_ok_inv in H. destruct H as [[pf t] [_ H]].
  cbv zeta in H. apply bind_ok_inv in H. destruct H as [polys [_ H]]. apply bind_ok_inv in H. destruct H as [evals [_ H]]. apply bind_ok_inv in H. destruct H as [[bp t'] [_ H]].
  inversion H; subst. reflexivity.
Qed.

Lemma query_entries : forall (o : oracle p comm) sc sc' addr debug s cp s', compile_proof o sc sc' addr debug s = Ok (cp, s') ->
  (forall id x y, In ((id, x), y) (cp_query cp) -> y = F0 /\ x = pf_point (cp_sc cp)) /\
  (forall id, mget (cp_comms cp) id <> None <-> In ((id, pf_point (cp_sc cp)), F0) (cp_query cp)).
Proof.
  intros o sc sc' addr debug s cp s' H. rewrite (query_zero _ _ _ _ _ _ _ _ H). split.
  - intros id x y Hin. apply in_map_iff in Hin. destruct Hin as [i [Hi _]]. inversion Hi. auto.
  - intros id. rewrite in_map_iff. split.
    + intros Hm. exists id. split; [reflexivity|]. apply sort_in. apply mget_key. destruct (mget (cp_comms cp) id); [eauto|congruence].
    + intros [i [Hi Hin]]. inversion Hi; subst. apply (proj1 (sort_in _ _)) in Hin. apply mget_key in Hin. destruct Hin as [c ->]. discriminate.
Qed.

Lemma two_commits : forall (o : oracle p comm) pp c y, kzg_commit pp (mkMle 1 [c; c]) = Ok y ->
  exists s, prun o pp [OCommit 1 [c; c]; OCommit 1 [c; c]] = Ok (s, [mkTp 0 1; mkTp 1 1]).
Proof.
  intros o pp c y Hy. unfold prun. cbn [foldM pstep from_evaluations length Nat.pow Nat.mul Nat.add Nat.eqb bind]. unfold tp_commit, track_and_commit_mat_poly. cbn [pt_new pt_pp]. rewrite Hy. cbn [bind].
  cbn -[kzg_commit]. unfold tp_commit, track_and_commit_mat_poly. cbn [pt_pp]. rewrite Hy. cbn -[kzg_commit]. eexists. reflexivity.
Qed.
Lemma two_next : forall (o : oracle p comm) debug vk cp v cs, vrun o debug vk cp [VONext; VONext] = Ok (v, cs) ->
  mget (vt_virt v) 0 = Some (VQuery 0) /\ vt_proof v = cp /\ mget (cp_comms cp) 0 <> None /\ vt_query v = [].
Proof.
  intros o debug vk cp v cs H. unfold vrun in H. cbn [foldM vstep] in H. unfold vpush, transfer_prover_comm, v_get_next_id in H. cbn [set_compiled_proof vt_proof vt_new vt_next] in H.
  destruct (mget (cp_comms cp) 0) as [c|]; cbn [ounwrap bind] in H; [|discriminate H]. unfold track_mat_comm, track_virtual, v_gen_id in H.
  cbn [bind put_virt set_vtr set_compiled_proof vt_new vt_vk vt_tr vt_next vt_mat vt_virt vt_query vt_sc vt_zc vt_proof] in H.
  rewrite Nat.eqb_refl, orb_true_r in H. cbn [rassert bind app vstep] in H. unfold vpush, transfer_prover_comm, v_get_next_id in H.
  cbn [bind put_virt set_vtr vt_vk vt_tr vt_next vt_mat vt_virt vt_query vt_sc vt_zc vt_proof] in H.
  destruct (mget (cp_comms cp) 1) as [c1|]; cbn [ounwrap bind] in H; [|discriminate H]. unfold track_mat_comm, track_virtual, v_gen_id in H.
  cbn [bind put_virt set_vtr vt_vk vt_tr vt_next vt_mat vt_virt vt_query vt_sc vt_zc vt_proof] in H.
  rewrite Nat.eqb_refl, orb_true_r in H. cbn [rassert bind app] in H. inversion H; subst. cbn. repeat split; congruence.
Qed.
Lemma feql_eq : forall a b : list (F p), feql a b = true <-> a = b.
Proof.
  induction a as [|x a IH]; intros [|y b]; cbn; try (split; [discriminate|intros X; discriminate X]); [split; auto|].
  rewrite andb_true_iff, Feqb_eq, IH. split; [intros [-> ->]; reflexivity|intros X; inversion X; auto].
Qed.
Lemma qkey_eq : forall a b : nat * list (F p), qkey a b = true <-> a = b.
Proof.
  intros [i x] [j y]. unfold qkey. cbn [fst snd]. rewrite andb_true_iff, Nat.eqb_eq, feql_eq. split; [intros [-> ->]; reflexivity|intros X; inversion X; auto].
Qed.
Lemma qget_qput : forall (m : list ((nat * list (F p)) * F p)) k k' a, qget (qput m k a) k' = if qkey k k' then Some a else qget m k'.
Proof.
  intros m k k' a. unfold qput. cbn [qget]. destruct (qkey k k') eqn:Hk; [reflexivity|]. induction m as [|[j b] m IH]; [reflexivity|]. cbn [filter fst qget].
  destruct (qkey j k) eqn:Hj; cbn [negb].
  - apply qkey_eq in Hj. subst j. rewrite Hk. exact IH.
  - cbn [qget]. rewrite IH. reflexivity.
Qed.
Lemma qfold_zero : forall (l m : list ((nat * list (F p)) * F p)) k, (forall e, In e l -> snd e = F0) -> (exists y, In (k, y) l) \/ qget m k = Some F0 ->
  qget (fold_left (fun m kv => qput m (fst kv) (snd kv)) l m) k = Some F0.
Proof.
  induction l as [|[j a] l IH]; intros m k Hz H; [destruct H as [[y []]|H]; exact H|]. cbn [fold_left fst snd]. apply IH; [intros e He; apply Hz; right; exact He|].
  rewrite qget_qput. destruct (qkey j k) eqn:Hj.
  - right. f_equal. apply (Hz (j, a)). left. reflexivity.
  - destruct H as [[y [H|H]]|H]; [|left; exists y; exact H|right; exact H]. inversion H; subst. rewrite (proj2 (qkey_eq k k) eq_refl) in Hj. discriminate.
Qed.

Lemma qfold_get : forall (l m : list ((nat * list (F p)) * F p)) k, NoDup (map fst l) ->
  (forall y, In (k, y) l -> qget (fold_left (fun m kv => qput m (fst kv) (snd kv)) l m) k = Some y) /\
  ((forall y, ~ In (k, y) l) -> qget (fold_left (fun m kv => qput m (fst kv) (snd kv)) l m) k = qget m k).
Proof.
  induction l as [|[j a] l IH]; intros m k Hd; [split; [intros y []|reflexivity]|]. cbn [map fst] in Hd. apply NoDup_cons_iff in Hd. destruct Hd as [Hj Hd]. cbn [fold_left fst snd]. destruct (IH (qput m j a) k Hd) as [I1 I2]. split.
  - intros y [H|H]; [|exact (I1 y H)]. injection H as -> ->. rewrite I2; [rewrite qget_qput, (proj2 (qkey_eq k k) eq_refl); reflexivity|]. intros z Hz. apply Hj. apply (in_map fst) in Hz. exact Hz.
  - intros H. rewrite I2 by (intros y Hy; apply (H y); right; exact Hy). rewrite qget_qput. destruct (qkey j k) eqn:Ek; [|reflexivity]. apply qkey_eq in Ek. subst j. exfalso. apply (H a). left. reflexivity.
Qed.
Lemma query_read : forall (v : vtrk E) id x, mget (vt_virt v) id = Some (VQuery id) -> NoDup (map fst (cp_query (vt_proof v))) ->
  (forall y, In ((id, x), y) (cp_query (vt_proof v)) -> eval_virtual_comm (transfer_proof_poly_evals v) id x = Ok y) /\
  ((forall y, ~ In ((id, x), y) (cp_query (vt_proof v))) -> eval_virtual_comm (transfer_proof_poly_evals v) id x = eval_virtual_comm v id x).
Proof.
  intros v id x Hm Hd. destruct (qfold_get (cp_query (vt_proof v)) (vt_query v) (id, x) Hd) as [H1 H2].
  unfold eval_virtual_comm. cbn [transfer_proof_poly_evals vt_virt vt_query Nat.mul Nat.add eval_loop]. rewrite Hm. cbn [ounwrap bind run_vexp]. split.
  - intros y Hy. rewrite (H1 y Hy). reflexivity.
  - intros Hy. rewrite (H2 Hy). reflexivity.
Qed.

Lemma query_refuted : forall (o : oracle p comm) sc sc' addr debug vdebug g h rnd N k srs ck vk c, 
  1 <= N -> k <= N -> 1 <= k -> gen_srs E g h rnd N = Ok srs -> kzg_trim srs None (Some k) = Ok (ck, vk) -> distinct_addresses addr -> 2 < fsize p -> c <> F0 ->
  let ops := [OCommit 1 [c; c]; OCommit 1 [c; c]] in let vops := [VONext; VONext] in
  exists s h0 h1 cp s' v, prun o ck ops = Ok (s, [h0; h1]) /\ compile_proof o sc sc' addr debug s = Ok (cp, s') /\
    vrun o vdebug vk cp vops = Ok (v, [tp_id h0; tp_id h1]) /\ (off_nodes cp -> exists v', verify_claims o v = Ok v') /\
    length (pf_point (cp_sc cp)) = 1 /\ 
    tp_evaluate s h0 (pf_point (cp_sc cp)) = Ok (Some c) /\
    eval_virtual_comm (transfer_proof_poly_evals v) (tp_id h0) (pf_point (cp_sc cp)) = Ok F0.
Proof.
  intros o sc sc' addr debug vdebug g h rnd N k srs ck vk c HN Hk Hk1 Hg Ht Hadr Hf Hc ops vops.
  destruct (kzg_trim_srs HE g h rnd N k HN Hk) as [srs' [ck' [vk' [G1 [G2 [G3 G4]]]]]]. rewrite Hg in G1. inversion G1; subst srs'. rewrite Ht in G2. inversion G2; subst ck' vk'. clear G1 G2.
  set (tau := suffix k (trapdoor rnd N)) in *. subst ck vk.
  assert (Lt : length tau = k) by (unfold tau; apply suffix_length; rewrite trapdoor_length; exact Hk).
  assert (Hcm : exists y, kzg_commit (srs_pp (srs_of g h tau)) (mkMle 1 [c; c]) = Ok y) by (eexists; apply (commit_ok HE); [reflexivity|cbn; lia]).
  destruct Hcm as [y Hy].
  assert (Hr : exists s, prun o (srs_pp (srs_of g h tau)) ops = Ok (s, [mkTp 0 1; mkTp 1 1])).
  { exact (two_commits o _ c y Hy). }
  destruct Hr as [s Hr].
  assert (Hm : mirror false (srs_pp (srs_of g h tau)) ops vops) by (unfold ops, vops; repeat constructor).
  destruct (hist_complete HE Hp o sc sc' addr debug vdebug g h rnd N k srs (srs_pp (srs_of g h tau)) (vk_of g h tau) ops vops s _ 1 HN Hk Hg Ht Hadr Hr Hm) as [cp [s' [v [C1 [C2 [C3 [C4 [C5 C6]]]]]]]];
    [intros d [<-|[<-|[]]]; lia|lia|lia|lia|cbn; lia|cbn; lia|intros i []|].
  exists s, (mkTp 0 1), (mkTp 1 1), cp, s', v. split; [exact Hr|]. split; [exact C1|]. split; [exact C4|].
  split; [apply C6; intros i c0 [X|[X|[]]]; discriminate X|]. split; [exact C2|].
  cbn in C2.
  split.
  - rewrite (hist_eval _ _ _ _ _ (mkTp 0 1) _ Hr (or_introl eq_refl) C2). do 2 f_equal.
    pose proof (prun_den o (srs_pp (srs_of g h tau)) ops s _ true Hr) as F2.
    assert (Hl : true = true -> linear_calls [] ops) by (intros _; cbn; tauto).
    specialize (F2 Hl). destruct (Forall2_nth _ _ _ _ _ 0 (mkTp 0 1) (0, fun _ => F0) F2 eq_refl) as [_ [_ A1]]. rewrite A1 by exact C2. unfold ops. cbn [denote fold_left den_step app nth snd].
    destruct (pf_point (cp_sc cp)) as [|x0 [|]]; try discriminate C2. unfold mle_ext, sumN, Fsum. cbn. ring.
  - destruct (two_next _ _ _ _ _ _ C4) as [N1 [N2 [N3 N4]]]. destruct (query_entries _ _ _ _ _ _ _ _ C1) as [Q1 Q2].
    unfold eval_virtual_comm, transfer_proof_poly_evals. cbn [Nat.mul Nat.add eval_loop vt_virt vt_query vt_proof tp_id]. rewrite N1. cbn [ounwrap bind run_vexp]. rewrite N2.
    rewrite qfold_zero; [reflexivity| |].
    + intros [[i x] y0] He. cbn [snd]. apply (Q1 i x y0 He).
    + left. exists F0. apply Q2. exact N3.
Qed.
End S.
