(** Rows taken from a table: how often false statements pass, when the prover commits to each column before the next challenge. *)
From Coq Require Import String List Arith Lia Bool ZArith Znumtheory Permutation.
Import ListNotations.
From Verif Require Import Res ResLemmas Fp FSum SpecMle SpecPoly SpecTracker SpecIop SpecRel ModelTranscript SumcheckHist MleLemmas PolyLemmas Pairing ModelKzg ModelBatch ModelProver ModelVerifier ModelIop
  VerifierHist CompileHist IopHist LogDeriv BagLemmas IopSort IopVer IopSound IopSound2 IopGot MleExtra AdviceProofs SortSound IopClaims CompSound CompSound2 CompSound3 CompClaims SessHist SessProofs CheckHist CheckProofs CheckIopHist CheckIop CheckSort CheckJoin.
Local Open Scope list_scope.
Local Open Scope nat_scope.
#[local] Opaque track_virtual v_add_scalar.

Lemma seq_moved : forall b n, map (Nat.add b) (seq 0 n) = seq b n.
Proof. intros b n. revert b. induction n as [|n IH]; intros b; [reflexivity|]. cbn [seq map]. rewrite Nat.add_0_r. f_equal. rewrite <- seq_shift, map_map, <- (IH (S b)). apply map_ext. intros x. lia. Qed.
Section P.
Context {p : positive} {E : pairing p}.
Hypothesis Hp : prime (Zpos p).
Hypothesis H22 : 2 < fsize p.
Notation F := (F p).
Notation comm := (gcar (PG1 E)).
Implicit Types (v : vtrk E).

Lemma agg_got : forall cols v acc rs i v', vready v -> agg_comms v acc cols rs = Ok (i, v') -> got v v' (2 * length cols) [].
Proof.
  induction cols as [|c cols IH]; intros v acc rs i v' R H; cbn [agg_comms] in H.
  - injection H as <- <-. exact (got_refl v R).
  - destruct rs as [|r rs]; [discriminate H|]. pose proof (got_refl v R) as G. do 2 gvirt G H. pose proof (IH _ _ _ _ _ (got_ready _ _ _ _ G) H) as X.
    replace (2 * length (c :: cols)) with (2 + 2 * length cols) by (cbn [length]; lia). exact (got_trans _ _ _ _ _ _ _ G X).
Qed.
Lemma row_agg_got : forall v t rs b v', vready v -> row_agg_verify v t rs = Ok (b, v') -> got v v' (2 * length (tc_cols t)) [].
Proof.
  intros v t rs b v' R H. unfold row_agg_verify in H. destruct (agg_comms _ _ _ _) as [[i v1]| |] eqn:E1; cbn [bind] in H; try discriminate H. injection H as _ <-. exact (agg_got _ _ _ _ _ _ R E1).
Qed.
Lemma transform_got : forall o debug v ti to v', vready v -> index_transform_verify o debug v ti to = Ok v' ->
  let c := 2 * length (tc_cols ti) + 2 * length (tc_cols to) in got v v' (c + 18) (map (Nat.add c) [0; 2; 10]).
Proof.
  intros o debug v ti to v' R H c. unfold index_transform_verify, rand_powers_verify in H. pose proof (got_refl v R) as G. gchal G H.
  destruct (row_agg_verify _ _ _) as [[bi v2]| |] eqn:E2 in H; cbn [bind] in H; try discriminate H. pose proof (row_agg_got _ _ _ _ _ (got_ready _ _ _ _ G) E2) as X2. pose proof (got_trans _ _ _ _ _ _ _ G X2) as G2.
  destruct (row_agg_verify _ _ _) as [[bo v3]| |] eqn:E3 in H; cbn [bind] in H; try discriminate H. pose proof (row_agg_got _ _ _ _ _ (got_ready _ _ _ _ G2) E3) as X3. pose proof (got_trans _ _ _ _ _ _ _ G2 X3) as G3.
  pose proof (inclusion_got o _ _ _ _ _ (got_ready _ _ _ _ G3) H) as X4. exact (got_trans _ _ _ _ _ _ _ G3 X4).
Qed.
Lemma transform_says_at : forall o debug v v' ti to, vready v -> index_transform_verify o debug v ti to = Ok v' -> let m := vt_next v + (2 * length (tc_cols ti) + 2 * length (tc_cols to)) in
  exists r h, sound v v' [r; h] (fun A N V => forall ic isl oc osl, plists A V N (tc_nv ti) (tc_cols ti) ic -> plist A V N (tc_sel ti) (tc_nv ti) isl ->
    plists A V N (tc_nv to) (tc_cols to) oc -> plist A V N (tc_sel to) (tc_nv to) osl -> let rs := powers r (length (tc_cols ti)) in
    let w := combine (aggregated rs oc osl) osl in let w' := wcol (aggregated rs ic isl) isl (averaged A N m (tc_nv ti)) in ~ unlucky w w' h -> same_bag w w').
Proof.
  intros o debug v v' ti to R H m. unfold index_transform_verify, rand_powers_verify in H. destruct (vt_challenge o _ v) as [[r v1]| |] eqn:E1; cbn [bind] in H; try discriminate. destruct (go_chal o _ _ _ _ R E1) as [G1 _]. pose proof (got_chal o _ _ _ _ R E1) as N1.
  destruct (row_agg_verify _ _ _) as [[bi v2]| |] eqn:E2 in H; cbn [bind] in H; try discriminate. destruct (row_agg_says H22 _ _ _ _ _ (y_ready _ _ _ G1) E2) as [Bs [Bn S2]]. pose proof (row_agg_got _ _ _ _ _ (y_ready _ _ _ G1) E2) as N2.
  destruct (row_agg_verify _ _ _) as [[bo v3]| |] eqn:E3 in H; cbn [bind] in H; try discriminate. destruct (row_agg_says H22 _ _ _ _ _ (sound_ready _ _ _ _ S2) E3) as [Cs [Cn S3]]. pose proof (row_agg_got _ _ _ _ _ (sound_ready _ _ _ _ S2) E3) as N3.
  destruct (incl_says_at Hp H22 o _ _ _ _ _ (sound_ready _ _ _ _ S3) H) as [h S4]. exists r, h. pose proof (go_sound _ _ _ G1) as S1.
  assert (Y : vt_next v3 = m) by (destruct N1 as [_ [? _]]; destruct N2 as [_ [? _]]; destruct N3 as [_ [? _]]; subst m; lia). rewrite Y in S4.
  pose proof (sound_seq _ _ _ _ _ _ _ S3 S4) as S34. pose proof (sound_seq _ _ _ _ _ _ _ S2 S34) as S24. pose proof (sound_seq _ _ _ _ _ _ _ S1 S24) as S14. cbn [app] in S14.
  eapply sound_imp; [exact S14|]. cbv beta. intros A N V _ [_ [Q2 [Q3 Q4]]] ic isl oc osl I1 I2 O1 O2. cbv zeta. intros Hu. rewrite Bn in Q4. apply (Q4 _ _ _ _ (Q3 _ _ O1 O2) (Q2 _ _ I1 I2) Hu).
Qed.
Definition tr_bad N n c (mults : list F -> list F) (ic : list (list F)) isl oc osl (pre : list F) (g : F) : Prop :=
  match pre with
  | [] => g = F0
  | r :: _ => let rs := powers r c in unlucky (combine (aggregated rs oc osl) osl) (wcol (aggregated rs ic isl) isl (mean_of N n (mults (firstn 1 pre)))) g
  end.
Definition tr_most (isl osl : list F) (k : nat) : nat := match k with 0 => 1 | _ => length osl + length isl end.
Lemma zero_count : exists b, (forall g : F, g = F0 -> b g = true) /\ count b (allF p) <= 1.
Proof.
  exists (fun g => if F_dec g F0 then true else false). split; [intros g ->; destruct (F_dec F0 F0); congruence|].
  rewrite count_filter. pose proof (NoDup_incl_length (l := filter (fun g : F => if F_dec g F0 then true else false) (allF p)) (l' := [F0])) as HI.
  apply HI; [apply NoDup_filter; apply allF_NoDup|]. intros g Hg. apply filter_In in Hg. destruct Hg as [_ Hg]. destruct (F_dec g F0); [left; congruence|discriminate].
Qed.
Lemma tr_bad_count : forall N n c mults ic isl oc osl pre, exists b, (forall g, tr_bad N n c mults ic isl oc osl pre g -> b g = true) /\ count b (allF p) <= tr_most isl osl (length pre).
Proof.
  intros N n c mults ic isl oc osl [|r pre]; cbn [tr_bad length tr_most]; [exact zero_count|]. cbv zeta.
  match goal with |- exists b, (forall g, unlucky ?x ?y g -> _) /\ _ => destruct (unlucky_count Hp H22 x y) as [e [X1 X2]] end. exists e. split; [exact X1|].
  unfold wcol, aggregated in X2. rewrite ?app_length, ?map_length, ?combine_length, ?map_length, ?seq_length in X2. lia.
Qed.

Lemma transform_count : forall (A : list F -> reading) N d D m st q (last : list F -> option (vtrk E)) debug ti to ic isl oc osl (mults : list F -> list F),
  1 <= d -> d < fsize p -> 2 ^ N < fsize p -> length (tc_cols to) = length (tc_cols ti) -> boolean isl -> boolean osl ->
  (forall gs u, length gs = 2 -> last gs = Some u -> checkable (A gs) N d D m u /\ (forall ch, queries_true (A gs) (facing (st gs) (q gs) u ch)) /\
     exists v v', after_call (fun o v => index_transform_verify o debug v ti to) gs v v' u /\ table_reads (A gs) N v ti ic isl /\ table_reads (A gs) N v to oc osl /\
       column (A gs) N (nth 0 (received_ids v v') 0) = mults (firstn 1 gs)) ->
  ~ (forall k, k < 2 ^ tc_nv to -> nth k osl F0 <> F0 -> exists k', k' < 2 ^ tc_nv ti /\ nth k' isl F0 <> F0 /\ Fprod (row oc k) = Fprod (row ic k')) ->
  count (passes_after 2 st q last) (allV p (2 + (m + N))) <= (1 + length osl + length isl + (N + 2 + N * Nat.max d (D + 1))) * fsize p ^ (1 + (m + N)).
Proof.
  intros A N d D m st q last debug ti to ic isl oc osl mults H1 H2 HN Hl Y1 Y2 HL Hno. replace (1 + (m + N)) with (2 + (m + N) - 1) by lia.
  apply (after_count_any Hp H22 2 (tr_bad N (tc_nv ti) (length (tc_cols ti)) mults ic isl oc osl) (tr_most isl osl) A N d D m st q last (1 + length osl + length isl) H1 H2).
  - intros pre _. apply tr_bad_count.
  - intros gs u Hk Hu. destruct (HL gs u Hk Hu) as [C [Q [v [v' [Ha [[R1 R2] [[R3 R4] R5]]]]]]]. clear HL.
    split; [apply (after_session (fun o v => index_transform_verify o debug v ti to) gs v v' u); [intros o0 v0 v1 H0; eapply vc_index_transform; exact H0|exact Ha]|]. split; [exact C|]. split; [exact Q|].
    intros Hc Hgood. destruct Ha as [o [S1 [S2 [S3 S4]]]]. pose proof (session_ready o Hp H22 v S1) as RV. pose proof (vcalls_go o Hp H22 v' u S4) as RL.
    destruct (transform_says_at o debug v v' ti to RV S2) as [r [h S]]. destruct (use v v' u (A gs) N RL Hc _ _ S) as [X1 X3]. cbv zeta in X3.
    rewrite (got_received H22 _ _ _ _ (transform_got o _ _ _ _ _ RV S2)) in R5. cbn [map nth] in R5. rewrite Nat.add_0_r in R5. rewrite S3 in X1. clear S3. subst gs. cbn [firstn] in R5.
    pose proof (Hgood 0 ltac:(lia)) as G0. pose proof (Hgood 1 ltac:(lia)) as G1. cbn [firstn nth tr_bad] in G0, G1. cbv zeta in G1. apply Hno.
    specialize (X3 ic isl oc osl (ids_in v v' u (A [r; h]) N RL _ _ _ _ _ S R1) (id_in v v' u (A [r; h]) N RL _ _ _ _ _ S R2) (ids_in v v' u (A [r; h]) N RL _ _ _ _ _ S R3) (id_in v v' u (A [r; h]) N RL _ _ _ _ _ S R4)).
    pose proof (Forall2_length' _ _ _ _ _ R1) as L1. pose proof (Forall2_length' _ _ _ _ _ R3) as L3. pose proof R4 as [R4a [R4b _]]. pose proof R2 as [R2a [R2b _]].
    rewrite (averaged_mean H22) in X3 by exact R2a. rewrite R5 in X3. specialize (X3 G1). rewrite <- R2b, <- R4b.
    refine (agg_rows Hp H22 r ic isl oc osl _ (length (tc_cols ti)) G0 ltac:(congruence) ltac:(congruence) Y1 Y2 _ _ X3).
    + rewrite R4b. pose proof (Nat.pow_le_mono_r 2 (tc_nv to) N ltac:(lia) R4a). lia.
    + unfold mean_of. rewrite map_length, seq_length. congruence.
  - cbn [seq map list_sum fold_right tr_most]. lia.
Qed.

(** ** The last step of a join *)
Lemma transfer_is : forall debug v id v', v_transfer debug v = Ok (id, v') -> id = vt_next v.
Proof.
  intros debug v id v' H. unfold v_transfer, transfer_prover_comm in H. destruct (mget (cp_comms (vt_proof v)) (v_get_next_id v)) as [c|]; [|discriminate]. cbn [ounwrap bind] in H.
  destruct (track_mat_comm v c) as [i u] eqn:E1. destruct (rassert _) as [[]| |]; cbn [bind] in H; try discriminate. injection H as H H'. subst i u.
  unfold track_mat_comm, v_gen_id, put_virt, set_vtr in E1. injection E1 as E1 E2. symmetry. exact E1.
Qed.
Lemma transfer_all_got : forall debug n v cs v', vready v -> transfer_all debug v n = Ok (cs, v') -> cs = seq (vt_next v) n /\ got v v' n (seq 0 n).
Proof.
  induction n as [|n IH]; intros v cs v' R H; cbn [transfer_all] in H.
  - injection H as <- <-. split; [reflexivity|exact (got_refl v R)].
  - destruct (v_transfer debug v) as [[c v1]| |] eqn:E1; cbn [bind] in H; try discriminate. pose proof (got_transfer _ _ _ _ R E1) as G. apply transfer_is in E1. subst c.
    destruct (transfer_all _ _ _) as [[cs' v2]| |] eqn:E2; cbn [bind] in H; try discriminate. injection H as <- <-. destruct (IH _ _ _ (got_ready _ _ _ _ G) E2) as [-> X]. split.
    + cbn [seq]. f_equal. destruct G as [_ [-> _]]. f_equal. lia.
    + pose proof (got_trans _ _ _ _ _ _ _ G X) as Y. cbn [app seq] in *. rewrite <- seq_shift. exact Y.
Qed.
Lemma final_join_wa_got : forall o debug v v' a b ai bi ta res, vready v -> length ta = length (tc_cols a) -> final_join_verify_with_advice o debug v a b ai bi ta = Ok (res, v') ->
  let c := 4 * length (tc_cols a) in got v v' (c + 20) (map (Nat.add c) [0; 2; 10]).
Proof.
  intros o debug v v' a b ai bi ta res R Lt H c. unfold final_join_verify_with_advice in H. cbv zeta in H. cbn [tc_cols tc_sel tc_nv] in H.
  destruct (slice_to _ _) as [tc| |] eqn:E0 in H; cbn [bind] in H; try discriminate. apply slice_len in E0. destruct E0 as [E0 _]. rewrite <- Lt, firstn_app, Nat.sub_diag, firstn_all in E0. cbn [firstn] in E0. rewrite app_nil_r in E0. subst tc.
  destruct (index_transform_verify _ _ _ _ _) as [v1| |] eqn:E1 in H; cbn [bind] in H; try discriminate. pose proof (transform_got _ _ _ _ _ _ R E1) as G0. cbv zeta in G0. cbn [tc_cols] in G0. rewrite Lt in G0.
  destruct (rnth _ ai) as [ja| |] in H; cbn [bind] in H; try discriminate. destruct (rnth _ _) as [jb| |] in H; cbn [bind] in H; try discriminate.
  pose proof (got_refl v1 (got_ready _ _ _ _ G0)) as G. do 2 gvirt G H. injection H as _ <-.
  match goal with |- got _ (v_add_zerocheck_claim _ ?d) _ _ => pose proof (got_zero _ d (got_ready _ _ _ _ G)) as X; gjoin G X end.
  pose proof (got_trans _ _ _ _ _ _ _ G0 G) as Y. cbn [map] in Y. rewrite app_nil_r in Y. subst c. replace (2 * length (tc_cols a) + 2 * length (tc_cols a)) with (4 * length (tc_cols a)) in Y by lia. rewrite <- Nat.add_assoc in Y. exact Y.
Qed.
Lemma final_join_got : forall o debug v v' a b ai bi res, vready v -> final_join_verify o debug v a b ai bi = Ok (res, v') ->
  let n := length (tc_cols a) in got v v' (n + (4 * n + 20)) (seq 0 n ++ map (Nat.add n) (map (Nat.add (4 * n)) [0; 2; 10])).
Proof.
  intros o debug v v' a b ai bi res R H n. unfold final_join_verify in H. destruct (transfer_all _ _ _) as [[ta v1]| |] eqn:E1; cbn [bind] in H; try discriminate. destruct (transfer_all_got _ _ _ _ _ R E1) as [T1 T2].
  refine (got_trans _ _ _ _ _ _ _ T2 (final_join_wa_got o debug v1 v' a b ai bi ta res (got_ready _ _ _ _ T2) _ H)). subst ta. apply seq_length.
Qed.
Lemma final_join_says_at : forall o debug v v' a b ai bi res, vready v -> final_join_verify o debug v a b ai bi = Ok (res, v') -> let n := length (tc_cols a) in
  let ta := seq (vt_next v) n in let m := vt_next v + (n + 4 * n) in
  Forall (received v v') ta /\ exists r h, sound v v' [r; h] (fun A N V => 2 ^ N < fsize p ->
    forall ac asl tc bc bsl, plists A V N (tc_nv a) (tc_cols a) ac -> plist A V N (tc_sel a) (tc_nv a) asl -> plists A V N (tc_nv b) ta tc ->
    plists A V N (tc_nv b) (tc_cols b) bc -> plist A V N (tc_sel b) (tc_nv b) bsl -> boolean asl -> boolean bsl -> r <> F0 ->
    let rs := powers r n in ~ unlucky (combine (aggregated rs tc bsl) bsl) (wcol (aggregated rs ac asl) asl (averaged A N m (tc_nv a))) h ->
    forall k, k < 2 ^ tc_nv b -> nth k bsl F0 <> F0 ->
      nth k (nth ai (tc ++ bc) []) F0 = nth k (nth (n + bi) (tc ++ bc) []) F0 /\
      exists k', k' < 2 ^ tc_nv a /\ nth k' asl F0 <> F0 /\ Fprod (row tc k) = Fprod (row ac k')).
Proof.
  intros o debug v v' a b ai bi res R H n ta m. unfold final_join_verify in H. destruct (transfer_all _ _ _) as [[ta' v0]| |] eqn:E0 in H; cbn [bind] in H; try discriminate.
  destruct (transfer_all_says H22 _ _ _ _ _ R E0) as [Lt [RR S0]]. destruct (transfer_all_got _ _ _ _ _ R E0) as [T1 T2]. subst ta'. fold n in T2, RR, Lt, H. fold ta in RR, Lt, H.
  unfold final_join_verify_with_advice in H. cbv zeta in H. cbn [tc_cols tc_sel tc_nv] in H.
  destruct (slice_to _ _) as [tc| |] eqn:E1 in H; cbn [bind] in H; try discriminate. apply slice_len in E1. destruct E1 as [E1 _]. fold n in E1. rewrite <- Lt, firstn_app, Nat.sub_diag, firstn_all in E1. cbn [firstn] in E1. rewrite app_nil_r in E1. subst tc.
  destruct (index_transform_verify _ _ _ _ _) as [v1| |] eqn:E1 in H; cbn [bind] in H; try discriminate. destruct (transform_says_at _ _ _ _ _ _ (sound_ready _ _ _ _ S0) E1) as [r [h S1]]. cbn [tc_cols tc_sel tc_nv] in S1.
  assert (Ym : vt_next v0 + (2 * length (tc_cols a) + 2 * length ta) = m) by (destruct T2 as [_ [-> _]]; subst m; rewrite Lt; fold n; lia). rewrite Ym in S1. clear Ym.
  destruct (rnth _ ai) as [ja| |] eqn:Ea in H; cbn [bind] in H; try discriminate. apply rnth_some in Ea. destruct (rnth _ _) as [jb| |] eqn:Eb in H; cbn [bind] in H; try discriminate. apply rnth_some in Eb.
  pose proof (vgo_refl v1 (sound_ready _ _ _ _ S1)) as G. vvirt G H. vvirt G H. vzero G H. apply Okinj in H. inversion H; subst res. subst v'. clear H.
  pose proof (go_sound _ _ _ G) as S2. pose proof (sound_seq _ _ _ _ _ _ _ S1 S2) as S12. pose proof (sound_seq _ _ _ _ _ _ _ S0 S12) as [G02 S02]. cbn [app] in G02.
  split; [eapply Forall_impl; [|exact RR]; intros j Hj; eapply received_up; [exact Hj|exact S12]|].
  exists r, h. split; [exact G02|]. intros A N V Sv C. destruct (S02 A N V Sv C) as [_ [Q _]]. lift Sv.
  intros HN ac asl tc bc bsl Pa Pas Pt Pb Pbs Ba Bb Hr. cbv zeta. intros Hu k Hk Hs.
  assert (La : length ac = length (tc_cols a)) by (apply (plists_len H22 _ _ _ _ _ _ Pa)). assert (Ltc : length tc = length ta) by (apply (plists_len H22 _ _ _ _ _ _ Pt)).
  assert (Pall : plists A V N (tc_nv b) (ta ++ tc_cols b) (tc ++ bc)) by (apply Forall2_app; assumption).
  split.
  - eapply (plist_zero Hp H22); [exact C|exact Iz|exact Im|exact Im0|eapply plists_nth; [exact Pall|exact Ea]|eapply plists_nth; [exact Pall|exact Eb]|exact Pbs|exact Hk|exact Hs].
  - pose proof (pl_len _ _ _ _ _ _ Pas) as L1. pose proof (pl_len _ _ _ _ _ _ Pbs) as L3. specialize (Q ac asl tc bsl Pa Pas Pt Pbs). cbv zeta in Q. specialize (Q Hu).
    rewrite <- L1. rewrite <- L3 in Hk. refine (agg_rows Hp H22 r ac asl tc bsl (averaged A N m (tc_nv a)) (length (tc_cols a)) Hr La _ Ba Bb _ _ Q k Hk Hs); [rewrite Ltc; exact Lt|eapply (pl_fits H22); [exact HN|exact Pbs]|unfold averaged; rewrite map_length, seq_length; congruence].
Qed.
Lemma final_join_count : forall (A : list F -> reading) N d D m st q (last : list F -> option (vtrk E)) debug a b ai bi ac asl tc bc bsl (mults : list F -> list F),
  let n := length (tc_cols a) in
  1 <= d -> d < fsize p -> 2 ^ N < fsize p -> boolean asl -> boolean bsl ->
  (forall gs u, length gs = 2 -> last gs = Some u -> checkable (A gs) N d D m u /\ (forall ch, queries_true (A gs) (facing (st gs) (q gs) u ch)) /\
     exists v v', after_call (fun o v => ' (_, v) <- final_join_verify o debug v a b ai bi ;; Ok v) gs v v' u /\ table_reads (A gs) N v a ac asl /\ table_reads (A gs) N v b bc bsl /\
       let got := received_ids v v' in
       Forall (fun id => fst (A gs id) <= tc_nv b) (firstn n got) /\ map (column (A gs) (tc_nv b)) (firstn n got) = tc /\ column (A gs) N (nth n got 0) = mults (firstn 1 gs)) ->
  ~ (forall k, k < 2 ^ tc_nv b -> nth k bsl F0 <> F0 -> nth k (nth ai (tc ++ bc) []) F0 = nth k (nth (n + bi) (tc ++ bc) []) F0 /\
       exists k', k' < 2 ^ tc_nv a /\ nth k' asl F0 <> F0 /\ Fprod (row tc k) = Fprod (row ac k')) ->
  count (passes_after 2 st q last) (allV p (2 + (m + N))) <= (1 + length bsl + length asl + (N + 2 + N * Nat.max d (D + 1))) * fsize p ^ (1 + (m + N)).
Proof.
  intros A N d D m st q last debug a b ai bi ac asl tc bc bsl mults n H1 H2 HN Y1 Y2 HL Hno. replace (1 + (m + N)) with (2 + (m + N) - 1) by lia.
  apply (after_count_any Hp H22 2 (tr_bad N (tc_nv a) n mults ac asl tc bsl) (tr_most asl bsl) A N d D m st q last (1 + length bsl + length asl) H1 H2).
  - intros pre _. apply tr_bad_count.
  - intros gs u Hk Hu. destruct (HL gs u Hk Hu) as [C [Q [v [v' [Ha [[R1 R2] [[R3 R4] R5]]]]]]]. clear HL.
    split.
    { apply (after_session (fun o v => ' (_, v) <- final_join_verify o debug v a b ai bi ;; Ok v) gs v v' u); [|exact Ha]. intros o0 v0 v1 H0. destruct (final_join_verify o0 debug v0 a b ai bi) as [[t w]| |] eqn:E0; cbn [bind] in H0; try discriminate H0.
      injection H0 as <-. eapply vc_final_join; exact E0. }
    split; [exact C|]. split; [exact Q|].
    intros Hc Hgood. destruct Ha as [o [S1 [S2 [S3 S4]]]]. pose proof (session_ready o Hp H22 v S1) as RV. pose proof (vcalls_go o Hp H22 v' u S4) as RL.
    destruct (final_join_verify o debug v a b ai bi) as [[t w]| |] eqn:E0; cbn [bind] in S2; try discriminate S2. injection S2 as ->.
    destruct (final_join_says_at o debug v v' a b ai bi t RV E0) as [RT [r [h S]]]. fold n in RT, S. destruct (use v v' u (A gs) N RL Hc _ _ S) as [X1 X3].
    cbv zeta in R5. rewrite (got_received H22 _ _ _ _ (final_join_got o _ _ _ _ _ _ _ _ RV E0)) in R5. fold n in R5. rewrite map_app, seq_moved in R5.
    rewrite firstn_app, seq_length, Nat.sub_diag in R5. cbn [firstn] in R5. rewrite app_nil_r, (firstn_all2 (seq _ n)) in R5 by (rewrite seq_length; lia). rewrite app_nth2, seq_length, Nat.sub_diag in R5 by (rewrite seq_length; lia).
    cbn [map nth] in R5. rewrite Nat.add_0_r in R5. destruct R5 as [W1 [W2 W3]]. rewrite S3 in X1. clear S3. subst gs. cbn [firstn] in W3.
    pose proof (Hgood 0 ltac:(lia)) as G0. pose proof (Hgood 1 ltac:(lia)) as G1. cbn [firstn nth tr_bad] in G0, G1. cbv zeta in G1. apply Hno. pose proof R4 as [R4a _]. pose proof R2 as [R2a _].
    assert (Pt : plists (A [r; h]) (vt_virt u) N (tc_nv b) (seq (vt_next v) n) tc).
    { subst tc. destruct (RL (sound_ready _ _ _ _ S)) as [ds GD]. pose proof (y_sub _ _ _ GD) as Sv. clear - H22 RT W1 Sv R4a. induction (seq (vt_next v) n) as [|i ta IH]; [constructor|].
      inversion RT as [|? ? Z1 Z2]; inversion W1 as [|? ? V1 V2]; subst. constructor; [|apply IH; assumption]. apply (plist_column H22); [apply Sv; apply Z1|exact V1|exact R4a]. }
    refine (X3 HN ac asl tc bc bsl (ids_in v v' u (A [r; h]) N RL _ _ _ _ _ S R1) (id_in v v' u (A [r; h]) N RL _ _ _ _ _ S R2) Pt (ids_in v v' u (A [r; h]) N RL _ _ _ _ _ S R3) (id_in v v' u (A [r; h]) N RL _ _ _ _ _ S R4) Y1 Y2 G0 _).
    rewrite (averaged_mean H22) by exact R2a. rewrite W3. exact G1.
  - cbn [seq map list_sum fold_right tr_most]. lia.
Qed.
End P.
