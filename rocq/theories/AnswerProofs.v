(** What the verifier does with any proof. *)
From Coq Require Import String List Arith Lia Bool ZArith Znumtheory.
Import ListNotations.
From Verif Require Import Res ResLemmas Fp FSum SpecMle SpecPoly SpecSumcheck SpecBatch SpecTracker ModelMle MleLemmas MleProofs ModelVp ModelTranscript ModelSumcheck Pairing ModelKzg ModelBatch ModelProver ModelVerifier
  ProverHist CompileHist TmapLemmas SumcheckVerify TranscriptProofs InterpProofs ZerocheckProofs CompileExtra EndHist EndProofs RoundHist RoundProofs AnswerHist NodeProofs.
Local Open Scope string_scope.
Local Open Scope list_scope.
Local Open Scope nat_scope.

Section A.
Context {p : positive}.
Hypothesis Hp : prime (Zpos p).
Notation F := (F p).

(** ** The sum-check *)
Section Sum.
Context {C : Type}.
Implicit Types (o : oracle p C) (t : tr p C).

Lemma mapM_np : forall {A B} (f : A -> res B) l, (forall a, In a l -> f a <> Panic) -> mapM f l <> Panic.
Proof.
  intros A B f l. induction l as [|a l IH]; intros H; cbn [mapM]; [discriminate|]. pose proof (H a (or_introl eq_refl)) as Ha.
  destruct (f a) as [b| |]; cbn [bind]; [|discriminate|congruence]. pose proof (IH (fun x Hx => H x (or_intror Hx))) as I. destruct (mapM f l); cbn [bind]; [discriminate|discriminate|congruence].
Qed.
Lemma mapM_len : forall {A B} (f : A -> res B) l r, mapM f l = Ok r -> length r = length l.
Proof.
  intros A B f l. induction l as [|a l IH]; intros r H; cbn [mapM] in H; [injection H as <-; reflexivity|]. destruct (f a) as [b| |]; cbn [bind] in H; try discriminate.
  destruct (mapM f l) as [bs| |] eqn:Q; cbn [bind] in H; try discriminate. injection H as <-. cbn. rewrite (IH bs eq_refl). reflexivity.
Qed.

Lemma sc_shaped : forall o c pt ms d n t, 1 <= d -> d + 1 <= fsize p -> Forall (nonnode (d + 1)) (met o d n ms t) -> 0 < n -> n <= length ms ->
  Forall (fun m => length m = d + 1) (firstn n ms) -> sc_verify o c (mkProof pt ms) d n t <> Panic.
Proof.
  intros o c pt ms d n t Hd Hf Ho Hn Hl Hm. unfold met in Ho. rewrite round_draws_run in Ho. pose proof (sc_verify_unfold o c pt ms d n t Hn Hl) as Q.
  destruct (run_msgs o (firstn n ms) _) as [cs t'] eqn:R. rewrite Q. clear Q. intros Q.
  assert (Hcs : length cs = n). { pose proof (run_msgs_length o (firstn n ms) (append "aux info" (PAux d n) t)) as L. rewrite R in L. cbn [fst] in L. rewrite L, firstn_length. lia. }
  unfold check_and_generate_subclaim in Q. cbn [vs_finished vs_polys vs_nv vs_deg vs_chals ensure bind] in Q.
  rewrite firstn_length, Nat.min_l, Nat.eqb_refl in Q by exact Hl. cbn [ensure bind] in Q.
  match type of Q with context [mapM ?f ?l] => pose proof (mapM_np f l) as M1; pose proof (mapM_len f l) as M2; destruct (mapM f l) as [ev| |] end; cbn [bind] in Q; try discriminate.
  - specialize (M2 ev eq_refl). rewrite combine_length, firstn_length, Hcs in M2.
    match type of Q with context [mapM ?f ?l] => pose proof (mapM_np f l) as M3; destruct (mapM f l) as [us| |] end; cbn [bind] in Q; try discriminate.
    + destruct (rnth (c :: ev) n) as [e| |] eqn:Qe; cbn [bind] in Q; try discriminate.
      unfold rnth in Qe. destruct (nth_error (c :: ev) n) eqn:Qn; [discriminate|]. apply nth_error_None in Qn. cbn in Qn. lia.
    + apply M3; [|reflexivity]. intros [m y] Hi. cbn [fst snd].
      assert (Hi' : In (m, y) (combine (firstn n ms) (c :: ev))). { rewrite <- (firstn_skipn n (combine (firstn n ms) (c :: ev))). apply in_or_app. left. exact Hi. }
      apply in_combine_l in Hi'. pose proof (proj1 (Forall_forall _ _) Hm m Hi') as Lm. cbn beta in Lm.
      rewrite (rnth_ok m 0 F0), (rnth_ok m 1 F0) by lia. cbn [bind]. destruct (Feqb _ _); discriminate.
  - apply M1; [|reflexivity]. intros [m x] Hi. cbn [fst snd]. pose proof (proj1 (Forall_forall _ _) Hm m (in_combine_l _ _ _ _ Hi)) as Lm. cbn beta in Lm.
    rewrite Lm, Nat.eqb_refl. cbn [ensure bind]. rewrite (interpolate_total Hp); [|intros ->; cbn in Lm; lia|lia].
    rewrite nonnode_existsb; [discriminate|]. rewrite Lm. apply in_combine_r in Hi.
    exact (proj1 (Forall_forall _ _) Ho x Hi).
Qed.

Lemma sc_ok : forall o c pf d n t sub t', sc_verify o c pf d n t = Ok (sub, t') -> 0 < n /\ n <= length (pf_msgs pf) /\
  sub_point sub = fst (run_msgs o (firstn n (pf_msgs pf)) (append "aux info" (PAux d n) t)) /\ t' = snd (run_msgs o (firstn n (pf_msgs pf)) (append "aux info" (PAux d n) t)).
Proof.
  intros o c [pt ms] d n t sub t' H. cbn [pf_msgs]. destruct (Nat.eq_dec n 0) as [->|Hn]; [cbv in H; discriminate|].
  destruct (Nat.le_gt_cases n (length ms)) as [L|L]; [|rewrite sc_verify_short in H by exact L; discriminate].
  pose proof (sc_verify_unfold o c pt ms d n t ltac:(lia) L) as U. destruct (run_msgs o _ _) as [xs t2]. rewrite U in H.
  destruct (check_and_generate_subclaim _ _) as [s| |] eqn:Qc; cbn [bind] in H; try discriminate. injection H as H1 H2. subst s t2. cbn [fst snd].
  unfold check_and_generate_subclaim in Qc. cbn [vs_finished vs_polys vs_nv vs_deg vs_chals ensure bind] in Qc.
  repeat (match type of Qc with bind ?x _ = Ok _ => destruct x; cbn [bind] in Qc; try discriminate end). injection Qc as Qc. rewrite <- Qc. cbn [sub_point]. split; [lia|]. auto.
Qed.
Lemma run_msgs_open : forall o ms t, is_empty t = false -> is_empty (snd (run_msgs o ms t)) = false.
Proof.
  intros o ms. induction ms as [|m ms IH]; intros t Ht; [exact Ht|]. cbn [run_msgs].
  specialize (IH (tdraw "Internal round" (o (hist (append "prover msg" (PMsg m) t)) "Internal round") (append "prover msg" (PMsg m) t)) eq_refl).
  destruct (run_msgs o ms _) as [cs t']. exact IH.
Qed.
Lemma sc_read : forall o c pf pf' d n t, firstn n (pf_msgs pf) = firstn n (pf_msgs pf') -> sc_verify o c pf d n t = sc_verify o c pf' d n t.
Proof.
  intros o c [pt ms] [pt' ms'] d n t H. cbn [pf_msgs] in H. rewrite (sc_verify_point_irrelevant o c pt pt').
  pose proof (f_equal (@length _) H) as L. rewrite !firstn_length in L.
  destruct (Nat.le_gt_cases n (length ms)) as [L1|L1].
  - rewrite <- (firstn_skipn n ms), <- (firstn_skipn n ms'), <- H. rewrite !sc_verify_surplus by (rewrite firstn_length; lia). reflexivity.
  - rewrite !sc_verify_short by lia. reflexivity.
Qed.

Lemma all_len : forall d (ms : list (list F)), Forall (fun m => length m = d) ms \/ exists m, In m ms /\ length m <> d.
Proof.
  intros d ms. induction ms as [|m ms [I|[x [I J]]]]; [left; constructor| |right; exists x; split; [right; exact I|exact J]].
  destruct (Nat.eq_dec (length m) d) as [Q|Q]; [left; constructor; assumption|right; exists m; split; [left; reflexivity|exact Q]].
Qed.
Lemma surplus : forall o c pt ms d n t, n <= length ms -> sc_verify o c (mkProof pt ms) d n t = sc_verify o c (mkProof pt (firstn n ms)) d n t.
Proof.
  intros o c pt ms d n t H. rewrite <- (firstn_skipn n ms) at 1. apply sc_verify_surplus. rewrite firstn_length. lia.
Qed.
Lemma sc_panic : forall o c pf d n t, d < fsize p -> 1 < fsize p -> Forall (nonnode (d + 1)) (met o d n (pf_msgs pf) t) ->
  sc_verify o c pf d n t = Panic <-> 0 < n /\ (length (pf_msgs pf) < n \/ n <= length (pf_msgs pf) /\ d = 0 /\ Forall (fun m => length m = 1) (firstn n (pf_msgs pf))).
Proof.
  intros o c [pt ms] d n t Hd H1 Ho. cbn [pf_msgs] in *. destruct (Nat.eq_dec n 0) as [->|Hn]; [split; [intros Q; cbv in Q; discriminate|lia]|].
  destruct (Nat.le_gt_cases n (length ms)) as [Hl|Hl].
  2: { rewrite sc_verify_short by exact Hl. split; [intros _; split; [lia|left; exact Hl]|reflexivity]. }
  destruct (all_len (d + 1) (firstn n ms)) as [G|B].
  2: { rewrite (proj2 (round_bad_length Hp o c pt ms d n t Hd Hl B) Ho). split; [discriminate|]. intros [_ [X|[_ [-> X]]]]; [lia|]. exfalso.
       destruct B as [m [I J]]. apply J. exact (proj1 (Forall_forall _ _) X m I). }
  destruct d as [|d].
  - rewrite (proj2 (round_deg0 Hp o c pt ms n t H1 ltac:(lia)) Hl); [split; [intros _; split; [lia|right; auto]|reflexivity]|].
    intros m Hm. exact (proj1 (Forall_forall _ _) G m Hm).
  - split; [intros Q; exfalso; revert Q; apply sc_shaped; [lia|lia|exact Ho|lia|exact Hl|exact G]|]. intros [_ [X|[_ [X _]]]]; lia.
Qed.
End Sum.

(** ** The opening *)
Section Batch.
Context {E : pairing p} {C : Type}.
Implicit Types (o : oracle p C) (t : tr p C) (vk : vparam E).

Lemma kzg_verify_np : forall vk c pt y prf, length (vk_mask vk) = vk_nv vk -> kzg_verify vk c pt y prf <> Panic.
Proof.
  intros vk c pt y prf Hm. unfold kzg_verify. destruct (Nat.ltb_spec (vk_nv vk) (length pt)) as [G|G]; [discriminate|].
  match goal with |- context [mapM ?f ?l] => pose proof (mapM_np f l) as M; destruct (mapM f l) as [h| |] end; cbn [bind]; [discriminate|discriminate|]. exfalso. apply M; [|reflexivity]. intros i Hi. apply in_seq in Hi.
  destruct (rnth_ex (vk_mask vk) (vk_nv vk - length pt + i) ltac:(lia)) as [a ->]. cbn [bind].
  destruct (rnth_ex (map (fun x => gmul x (vk_h vk)) pt) i ltac:(rewrite map_length; lia)) as [b ->]. discriminate.
Qed.
Lemma build_nil : @build_eq_x_r_vec p [] = Err ArithInvalidParameters. Proof. reflexivity. Qed.
Lemma batch_panic : forall o vk comms points (bp : batch_proof E) t n, is_empty t = false -> 2 < fsize p ->
  Forall (nonnode 3) (met o 2 (length (pf_point (bp_sc bp))) (pf_msgs (bp_sc bp)) (snd (run_draws o "t" (Nat.log2_up (length comms)) t))) -> length (vk_mask vk) = vk_nv vk ->
  length points = length comms -> Forall (fun z => length z = n) points -> 0 < n ->
  batch_verify o vk comms points bp t = Panic <-> 2 <= length comms /\ length (pf_point (bp_sc bp)) = n /\ (length (bp_evals bp) < length comms \/ length (pf_msgs (bp_sc bp)) < n).
Proof.
  intros o vk comms points bp t n He H2 Ho Hm Hl Hz Hn. unfold batch_verify. rewrite draw_vecT_ok by exact He.
  pose proof (run_draws_length o "t" (Nat.log2_up (length comms)) t) as Lt. destruct (run_draws o "t" _ t) as [ts t1]. cbn [fst snd] in *. cbn [bind].
  destruct (Nat.le_gt_cases (length comms) 1) as [G|G].
  { rewrite (Nat.log2_up_eqn0 _ G) in Lt. destruct ts; [|discriminate]. rewrite build_nil. cbn [bind]. split; [discriminate|lia]. }
  assert (Hts : ts <> []) by (intros ->; cbn in Lt; pose proof (Nat.log2_up_pos (length comms) G); lia).
  rewrite build_eq_x_r_vec_spec by exact Hts. cbn [bind].
  assert (Hq : length comms <= length (eq_table ts)) by (rewrite eq_table_length, Lt; apply Nat.log2_up_le_pow2; lia).
  destruct (batch_terms_shape (pf_point (bp_sc bp)) (eq_table ts) comms points n Hz ltac:(intros ->; cbn in Hl; lia) ltac:(lia) ltac:(lia)) as [T1 T2].
  destruct (Nat.eq_dec (length (pf_point (bp_sc bp))) n) as [Q|Q]; [destruct (T1 Q) as [tl ->]|rewrite (T2 Q); cbn [bind]; split; [discriminate|intros [_ [X _]]; contradiction]].
  cbn [bind]. destruct (batch_sum_panic (eq_table ts) (bp_evals bp) (length comms) Hq) as [S1 S2].
  destruct (Nat.le_gt_cases (length comms) (length (bp_evals bp))) as [K|K]; [destruct (S1 K) as [sum ->]|rewrite (S2 K); cbn [bind]; split; [intros _; split; [lia|split; [exact Q|left; exact K]]|reflexivity]].
  cbn [bind]. rewrite Q in Ho |- *. pose proof (sc_panic o sum (bp_sc bp) 2 n t1 H2 ltac:(lia) Ho) as P.
  destruct (sc_verify o sum (bp_sc bp) 2 n t1) as [[sub t2]| |] eqn:Qs; cbn [map_err bind].
  - pose proof (kzg_verify_np vk (msm (map fst tl) (map snd tl)) (pf_point (bp_sc bp)) (sub_eval sub) (bp_open bp) Hm) as NP. destruct (kzg_verify _ _ _ _ _); cbn [bind]; [| |contradiction].
    + split; [discriminate|]. intros [_ [_ [X|X]]]; [lia|]. assert (Y : Ok (sub, t2) = @Panic (subclaim p * tr p C)) by (apply P; split; [exact Hn|left; exact X]). discriminate.
    + split; [discriminate|]. intros [_ [_ [X|X]]]; [lia|]. assert (Y : Ok (sub, t2) = @Panic (subclaim p * tr p C)) by (apply P; split; [exact Hn|left; exact X]). discriminate.
  - split; [discriminate|]. intros [_ [_ [X|X]]]; [lia|]. assert (Y : @Err (subclaim p * tr p C) e = Panic) by (apply P; split; [exact Hn|left; exact X]). discriminate.
  - split; [intros _|reflexivity]. split; [lia|]. split; [reflexivity|]. right. destruct (proj1 P eq_refl) as [_ [X|[_ [X _]]]]; [exact X|discriminate].
Qed.
End Batch.

(** ** The whole check *)
Section All.
Context {E : pairing p}.
Add Ring Fra : (@F_ring p).
Notation comm := (gcar (PG1 E)).
Implicit Types (o : oracle p comm) (v : vtrk E).

Lemma ounwrap_all : forall (m : tmap comm) ids, (forall i, In i ids -> mget m i <> None) -> exists cs, mapM (fun id => ounwrap (mget m id)) ids = Ok cs /\ length cs = length ids.
Proof.
  intros m ids. induction ids as [|i ids IH]; intros H; cbn [mapM]; [exists []; auto|]. pose proof (H i (or_introl eq_refl)) as Hi. destruct (mget m i) as [c|]; [|congruence]. cbn [ounwrap bind].
  destruct (IH (fun j Hj => H j (or_intror Hj))) as [cs [-> L]]. cbn [bind]. exists (c :: cs). split; [reflexivity|]. cbn. lia.
Qed.
Lemma ounwrap_none : forall (m : tmap comm) ids i, In i ids -> mget m i = None -> mapM (fun id => ounwrap (mget m id)) ids = Panic.
Proof.
  intros m ids i. induction ids as [|j ids IH]; intros Hi Hn; [contradiction|]. cbn [mapM]. destruct (mget m j) as [c|] eqn:Q; [|reflexivity]. cbn [ounwrap bind].
  destruct Hi as [->|Hi]; [congruence|]. rewrite (IH Hi Hn). reflexivity.
Qed.
Lemma known_dec : forall (m : tmap comm) ids, (forall i, In i ids -> mget m i <> None) \/ exists i, In i ids /\ mget m i = None.
Proof.
  intros m ids. induction ids as [|i ids [IH|[j [H1 H2]]]]; [left; intros i []| |right; exists j; split; [right; exact H1|exact H2]].
  destruct (mget m i) eqn:Q; [left; intros j [<-|Hj]; [congruence|apply IH; exact Hj]|right; exists i; split; [left; reflexivity|exact Q]].
Qed.

Lemma start_run : forall (o : oracle p comm) (v : vtrk E), is_empty (vt_tr v) = false ->
  forall cz t1 r t2 cs t3,
    run_draws o "zerocheck challenge" (length (vt_zc v)) (vt_tr v) = (cz, t1) -> run_draws o "0check r" (cp_nv (vt_proof v)) t1 = (r, t2) ->
    run_draws o "sumcheck challenge" (length (vt_sc v) + 1) t2 = (cs, t3) ->
  sum_start o v = Ok (weighted cs (map snd (vt_sc v) ++ [F0]), t3).
Proof.
  intros o v He cz t1 r t2 cs t3 R1 R2 R3. unfold sum_start, v_convert_zerocheck_claims.
  assert (He1 : is_empty t1 = false).
  { pose proof (proj1 (run_draws_nonempty o "zerocheck challenge" (length (vt_zc v)) (vt_tr v) He)) as X. rewrite R1 in X. exact X. }
  assert (He2 : is_empty t2 = false).
  { pose proof (proj1 (run_draws_nonempty o "0check r" (cp_nv (vt_proof v)) t1 He1)) as X. rewrite R2 in X. exact X. }
  cbn [track_virtual_comm track_virtual v_gen_id]. set (v0 := put_virt _ _ _).
  change (vt_zc v0) with (vt_zc v).
  destruct (v_convert_loop o (vt_zc v) v0 (vt_next v) He) as [agg [v1 [A1 [A2 [A3 A4]]]]].
  unfold track_virtual_comm, track_virtual, v_gen_id. fold v0. rewrite A1. cbn [bind].
  change (vt_tr v0) with (vt_tr v) in A4. rewrite R1 in A4. cbn [snd] in A4. rewrite A4.
  rewrite draw_vecT_ok by exact He1. rewrite R2. cbn [unwrap bind].
  cbn [set_vtr put_virt mul_comms track_virtual v_gen_id v_add_sumcheck_claim vt_vk vt_tr vt_next vt_mat vt_virt vt_query vt_sc vt_zc vt_proof bind].
  unfold mul_comms, track_virtual, v_gen_id, v_add_sumcheck_claim, set_vtr, put_virt. cbn [vt_vk vt_tr vt_next vt_mat vt_virt vt_query vt_sc vt_zc vt_proof bind].
  unfold v_aggregate_sumcheck_claims, track_virtual_comm, track_virtual, v_gen_id, put_virt. cbn [vt_vk vt_tr vt_next vt_mat vt_virt vt_query vt_sc vt_zc vt_proof].
  rewrite A3. change (vt_sc v0) with (vt_sc v).
  match goal with |- context [foldM _ (?a, ?b, ?w) (vt_sc v ++ ?l)] => destruct (v_aggregate_loop o (vt_sc v ++ l) w a b He2) as [agg' [v2 [B1 [B2 [B3 B4]]]]] end.
  rewrite B1. cbn [bind]. rewrite app_length in B1, B4 |- *. cbn [length] in B1, B4 |- *. cbn [vt_tr] in B4 |- *. rewrite R3 in B4 |- *. cbn [fst snd] in *.
  rewrite B4, map_app. cbn [map snd]. replace (F0 + weighted cs (map snd (vt_sc v) ++ [F0]))%F with (weighted cs (map snd (vt_sc v) ++ [F0])) by ring.
  reflexivity.
Qed.

Lemma answer : forall o v, is_empty (vt_tr v) = false -> length (vk_mask (vt_vk v)) = vk_nv (vt_vk v) -> 2 < fsize p -> cp_deg (vt_proof v) < fsize p ->
  Forall (nonnode (cp_deg (vt_proof v) + 1)) (sum_challenges o v) -> Forall (nonnode 3) (opening_challenges o v) ->
  let cp := vt_proof v in let n := cp_nv cp in let k := length (cp_comms cp) in
  verify_claims o v = Panic <->
    panicking_messages (pf_msgs (cp_sc cp)) (cp_deg cp) n
    \/ (exists x y, sc_end o v = Ok (x, y)) /\
       ((exists id, In id (map fst (cp_comms cp)) /\ mget (vt_mat v) id = None) \/ cp_pcs cp = [] \/
        exists bp rest, cp_pcs cp = bp :: rest /\ panicking_opening bp k n).
Proof.
  intros o v He Hm H2 Hd Ho1 Ho3 cp n k. unfold n, k, cp. clear n k cp. unfold panicking_messages, panicking_opening.
  destruct (run_draws o "zerocheck challenge" (length (vt_zc v)) (vt_tr v)) as [cz t1] eqn:R1.
  destruct (run_draws o "0check r" (cp_nv (vt_proof v)) t1) as [r t2] eqn:R2.
  destruct (run_draws o "sumcheck challenge" (length (vt_sc v) + 1) t2) as [cs t3] eqn:R3.
  destruct (verify_run o v He cz t1 r t2 cs t3 R1 R2 R3) as [v2 [_ ->]]. rewrite (end_run o v He cz t1 r t2 cs t3 R1 R2 R3). cbv zeta.
  unfold sum_challenges in Ho1. unfold opening_challenges in Ho3. rewrite (start_run o v He cz t1 r t2 cs t3 R1 R2 R3) in Ho1, Ho3. cbn [bind] in Ho3.
  pose proof (sc_panic o (weighted cs (map snd (vt_sc v) ++ [F0])) (cp_sc (vt_proof v)) (cp_deg (vt_proof v)) (cp_nv (vt_proof v)) t3 Hd ltac:(lia) Ho1) as P.
  destruct (sc_verify _ _ (cp_sc (vt_proof v)) _ _ t3) as [[sub t]|e|] eqn:Qs; cbn [map_err bind] in *.
  3: { split; [intros _; left; exact (proj1 P eq_refl)|reflexivity]. }
  2: { split; [discriminate|]. intros [X|[[x [y X]] _]]; [apply P in X|]; discriminate. }
  assert (Hend : exists x y, Ok (sub_point sub, sub_eval sub) = Ok (x, y)) by eauto.
  assert (Hshort : ~ (0 < cp_nv (vt_proof v) /\ (length (pf_msgs (cp_sc (vt_proof v))) < cp_nv (vt_proof v) \/ cp_nv (vt_proof v) <= length (pf_msgs (cp_sc (vt_proof v))) /\ cp_deg (vt_proof v) = 0 /\
    Forall (fun m => length m = 1) (firstn (cp_nv (vt_proof v)) (pf_msgs (cp_sc (vt_proof v))))))) by (intros X; apply P in X; discriminate).
  assert (Hin : forall i, In i (sort_ids (map fst (cp_comms (vt_proof v)))) <-> In i (map fst (cp_comms (vt_proof v)))) by (intros i; apply sort_in).
  assert (Hlen : length (sort_ids (map fst (cp_comms (vt_proof v)))) = length (cp_comms (vt_proof v))).
  { rewrite (Permutation.Permutation_length (sort_perm (map fst (cp_comms (vt_proof v))))). apply map_length. }
  destruct (known_dec (vt_mat v) (sort_ids (map fst (cp_comms (vt_proof v))))) as [K|[i [K1 K2]]].
  2: { rewrite (ounwrap_none _ _ i K1 K2). cbn [bind]. split; [intros _; right; split; [exact Hend|left; exists i; split; [apply Hin; exact K1|exact K2]]|reflexivity]. }
  destruct (ounwrap_all _ _ K) as [comms [-> Lc]]. cbn [bind]. rewrite Hlen in Lc.
  destruct (cp_pcs (vt_proof v)) as [|bp rest]; [cbn; split; [intros _; right; split; [exact Hend|right; left; reflexivity]|reflexivity]|].
  change (rnth (bp :: rest) 0) with (Ok bp). cbn [bind].
  destruct (sc_ok o _ _ _ _ _ _ _ Qs) as [Hn [Hl [Hx Ht]]].
  assert (Hsub : length (sub_point sub) = cp_nv (vt_proof v)) by (rewrite Hx, run_msgs_length, firstn_length; lia).
  assert (He3 : is_empty t = false) by (rewrite Ht; apply run_msgs_open; reflexivity).
  pose proof (batch_panic o (vt_vk v) comms (map (fun _ => sub_point sub) (sort_ids (map fst (cp_comms (vt_proof v))))) bp t (cp_nv (vt_proof v)) He3 H2) as B.
  rewrite draw_vecT_ok in Ho3 by exact He3. rewrite <- Lc in Ho3. destruct (run_draws o "t" (Nat.log2_up (length comms)) t) as [ts tq] eqn:Rt. cbn [bind snd] in Ho3, B. change (rnth (bp :: rest) 0) with (Ok bp) in Ho3. cbn [bind] in Ho3. specialize (B Ho3 Hm).
  rewrite map_length, Hlen, Lc in B. specialize (B eq_refl). rewrite Forall_map in B. specialize (B ltac:(apply Forall_forall; intros; exact Hsub) Hn).
  match goal with |- context [batch_verify ?a ?b ?c ?d ?e ?f] => destruct (batch_verify a b c d e f) as [[bb t']|e'|] end; cbn [bind].
  - split; [discriminate|]. intros [X|[_ [[i [X Y]]|[X|[bp' [rest' [X Y]]]]]]]; [contradiction|exfalso; exact (K i (proj2 (Hin i) X) Y)|discriminate|]. injection X as <- <-. apply B in Y. discriminate.
  - split; [discriminate|]. intros [X|[_ [[i [X Y]]|[X|[bp' [rest' [X Y]]]]]]]; [contradiction|exfalso; exact (K i (proj2 (Hin i) X) Y)|discriminate|]. injection X as <- <-. apply B in Y. discriminate.
  - split; [intros _|reflexivity]. right. split; [exact Hend|]. right. right. exists bp, rest. split; [reflexivity|]. exact (proj1 B eq_refl).
Qed.

Lemma answer_empty : forall o v, is_empty (vt_tr v) = true -> verify_claims o v = Panic.
Proof.
  intros o v He. unfold verify_claims, v_convert_zerocheck_claims, track_virtual_comm, track_virtual, v_gen_id. set (v0 := put_virt _ _ _).
  change (vt_zc v0) with (vt_zc v). destruct (vt_zc v) as [|c zc].
  - cbn [foldM bind]. change (vt_tr v0) with (vt_tr v). rewrite draw_vecT_empty by exact He. reflexivity.
  - cbn [foldM fst snd]. unfold vt_challenge at 1. change (vt_tr v0) with (vt_tr v). unfold drawT, draw. rewrite He. reflexivity.
Qed.

Lemma missing : forall debug v id,
  (mget (cp_comms (vt_proof v)) id = None -> transfer_prover_comm debug v id = Panic) /\ (mget (cp_sums (vt_proof v)) id = None -> get_prover_claimed_sum v id = Panic) /\
  (transfer_prover_comm debug v id = Panic -> mget (cp_comms (vt_proof v)) id = None \/ debug = true /\ id <> vt_next v) /\ (get_prover_claimed_sum v id = Panic -> mget (cp_sums (vt_proof v)) id = None).
Proof.
  intros debug v id. unfold transfer_prover_comm, get_prover_claimed_sum. destruct (mget (cp_comms (vt_proof v)) id) as [c|], (mget (cp_sums (vt_proof v)) id) as [x|];
    cbn [ounwrap bind]; repeat split; intros H; try reflexivity; try discriminate; auto.
  all: right; revert H; unfold track_mat_comm, v_gen_id; destruct debug; cbn [negb orb]; [|discriminate]; destruct (Nat.eqb_spec id (vt_next v)); [discriminate|]; intros _; auto.
Qed.

(** *** What is read *)
Lemma verdict_bind : forall {A B} (r r' : res A) (f g : A -> res B), verdict r = verdict r' -> (forall a a', r = Ok a -> r' = Ok a' -> verdict (f a) = verdict (g a')) -> verdict (bind r f) = verdict (bind r' g).
Proof.
  intros A B r r' f g H K. unfold verdict in *. destruct r, r'; cbn [bind] in *; try discriminate; try reflexivity; [apply K; reflexivity|injection H as ->; reflexivity].
Qed.
Lemma verdict_mapM : forall {A B} (f g : A -> res B) l, (forall a, In a l -> verdict (f a) = verdict (g a)) -> verdict (mapM f l) = verdict (mapM g l).
Proof.
  intros A B f g l. induction l as [|a l IH]; intros H; [reflexivity|]. cbn [mapM]. apply verdict_bind; [apply H; left; reflexivity|]. intros b b' _ _.
  apply verdict_bind; [apply IH; intros x Hx; apply H; right; exact Hx|]. reflexivity.
Qed.
Lemma verdict_rnth : forall {A} (l l' : list A) i, length l = length l' -> verdict (rnth l i) = verdict (rnth l' i).
Proof.
  intros A l l' i H. unfold rnth. destruct (nth_error l i) eqn:Q, (nth_error l' i) eqn:Q'; try reflexivity; exfalso.
  - apply nth_error_None in Q'. assert (X : nth_error l i <> None) by congruence. apply nth_error_Some in X. lia.
  - apply nth_error_None in Q. assert (X : nth_error l' i <> None) by congruence. apply nth_error_Some in X. lia.
Qed.
Lemma verdict_terms : forall (a a' eq_t : list F) (comms comms' : list comm) points, length a = length a' -> length comms = length comms' -> verdict (batch_terms a eq_t comms points) = verdict (batch_terms a' eq_t comms' points).
Proof.
  intros a a' eq_t comms comms' points H Hc. unfold batch_terms. apply verdict_mapM. intros [i z] _. cbn [fst snd].
  apply verdict_bind; [unfold kzg_eq_eval; rewrite H; destruct (length a' =? length z); reflexivity|]. intros e e' _ _.
  apply verdict_bind; [reflexivity|]. intros x x' _ _. apply verdict_bind; [apply verdict_rnth; exact Hc|]. reflexivity.
Qed.
Lemma nth_error_firstn_lt : forall {A} (l : list A) i k, i < k -> nth_error (firstn k l) i = nth_error l i.
Proof. intros A l. induction l as [|a l IH]; intros i k H; [rewrite firstn_nil; reflexivity|]. destruct k as [|k]; [lia|]. destruct i as [|i]; [reflexivity|]. cbn. apply IH. lia. Qed.
Lemma sum_read : forall (eq_t e e' : list F) k, firstn k e = firstn k e' -> batch_sum eq_t e k = batch_sum eq_t e' k.
Proof.
  intros eq_t e e' k H. unfold batch_sum.
  assert (G : forall (l : list (nat * F)) s, (forall i, In i (map fst l) -> i < k) -> foldM (fun (s : F) (ie : nat * F) => v <- rnth e (fst ie) ;; Ok (s + snd ie * v)%F) s l = foldM (fun (s : F) (ie : nat * F) => v <- rnth e' (fst ie) ;; Ok (s + snd ie * v)%F) s l).
  { induction l as [|[i x] l IH]; intros s G; [reflexivity|]. cbn [foldM fst snd].
    assert (Q : rnth e i = rnth e' i). { unfold rnth. rewrite <- (nth_error_firstn_lt e i k), <- (nth_error_firstn_lt e' i k), H by (apply G; left; reflexivity). reflexivity. }
    rewrite Q. destruct (rnth e' i); cbn [bind]; [|reflexivity|reflexivity]. apply IH. intros j Hj. apply G. right. exact Hj. }
  apply G. intros i Hi. rewrite firstn_combine_seq in Hi. apply in_seq in Hi. lia.
Qed.
Lemma verdict_kzg : forall (vk : vparam E) c c' (a a' : list F) y y' prf prf', length a = length a' -> verdict (kzg_verify vk c a y prf) = verdict (kzg_verify vk c' a' y' prf').
Proof.
  intros vk c c' a a' y y' prf prf' H. unfold kzg_verify. rewrite H. destruct (vk_nv vk <? length a'); [reflexivity|].
  apply verdict_bind; [|reflexivity]. apply verdict_mapM. intros i _. apply verdict_bind; [reflexivity|]. intros b b' _ _.
  apply verdict_bind; [apply verdict_rnth; rewrite !map_length; exact H|]. reflexivity.
Qed.
Lemma verdict_batch : forall o vk (comms : list comm) points b b' t, same_opening (length comms) b b' -> verdict (batch_verify o vk comms points b t) = verdict (batch_verify o vk comms points b' t).
Proof.
  intros o vk comms points b b' t [H1 [H2 H3]]. unfold batch_verify. destruct (draw_vecT o "t" _ t) as [[ts t1]| |]; [cbn [bind]|reflexivity|reflexivity].
  destruct (build_eq_x_r_vec ts) as [eq_t| |]; [cbn [bind]|reflexivity|reflexivity].
  apply verdict_bind; [apply verdict_terms; [exact H1|reflexivity]|]. intros a a' _ _. rewrite (sum_read eq_t _ _ _ H3). destruct (batch_sum eq_t _ _) as [s| |]; [cbn [bind]|reflexivity|reflexivity].
  rewrite (sc_read o s (bp_sc b) (bp_sc b') 2 _ t1 H2), <- H1. destruct (map_err _ _) as [[sub t2]| |]; [cbn [bind]|reflexivity|reflexivity].
  apply verdict_bind; [apply verdict_kzg; exact H1|]. reflexivity.
Qed.

Lemma unread : forall o v cp, same_read (vt_proof v) cp -> verdict (verify_claims o (set_compiled_proof v cp)) = verdict (verify_claims o v).
Proof.
  intros o v cp [H1 [H2 [H3 [H4 H5]]]]. destruct (is_empty (vt_tr v)) eqn:He; [rewrite (answer_empty o v He), (answer_empty o (set_compiled_proof v cp) He); reflexivity|].
  destruct (run_draws o "zerocheck challenge" (length (vt_zc v)) (vt_tr v)) as [cz t1] eqn:R1.
  destruct (run_draws o "0check r" (cp_nv (vt_proof v)) t1) as [r t2] eqn:R2.
  destruct (run_draws o "sumcheck challenge" (length (vt_sc v) + 1) t2) as [cs t3] eqn:R3.
  destruct (verify_run o v He cz t1 r t2 cs t3 R1 R2 R3) as [v2 [_ ->]].
  pose proof R2 as R2'. rewrite H3 in R2'. destruct (verify_run o (set_compiled_proof v cp) He cz t1 r t2 cs t3 R1 R2' R3) as [v2' [_ ->]]. cbv zeta.
  cbn [set_compiled_proof vt_vk vt_tr vt_next vt_mat vt_virt vt_query vt_sc vt_zc vt_proof]. rewrite <- H1, <- H2, <- H3, <- (sc_read o _ (cp_sc (vt_proof v)) (cp_sc cp) _ _ t3 H4).
  destruct (map_err _ _) as [[sub t]| |]; [cbn [bind]|reflexivity|reflexivity].
  destruct (mapM _ (sort_ids _)) as [comms| |] eqn:Qm; [cbn [bind]|reflexivity|reflexivity].
  apply mapM_len in Qm. rewrite (Permutation.Permutation_length (sort_perm (map fst (cp_comms (vt_proof v))))), map_length in Qm.
  destruct (cp_pcs (vt_proof v)) as [|b rest], (cp_pcs cp) as [|b' rest']; try contradiction; [reflexivity|]. change (rnth (b :: rest) 0) with (Ok b). change (rnth (b' :: rest') 0) with (Ok b'). cbn [bind].
  apply verdict_bind; [symmetry; apply verdict_batch; rewrite Qm; exact H5|]. intros [b1 t4] [b2 t5] _ _. reflexivity.
Qed.

(** *** What an accepted proof looks like *)
Lemma accepted_shape : forall o v v', 2 < fsize p ->
  let cp := vt_proof v in let n := cp_nv cp in let k := length (cp_comms cp) in
  verify_claims o v = Ok v' ->
  (exists x y, sc_end o v = Ok (x, y)) /\ (forall id, In id (map fst (cp_comms cp)) -> mget (vt_mat v) id <> None) /\ 2 <= k /\ 1 <= n <= vk_nv (vt_vk v) /\
  exists b rest, cp_pcs cp = b :: rest /\ length (pf_point (bp_sc b)) = n /\ k <= length (bp_evals b) /\ n <= length (pf_msgs (bp_sc b)) /\ Forall (fun m => length m = 3) (firstn n (pf_msgs (bp_sc b))).
Proof.
  intros o v v' H2 cp n k H. unfold n, k, cp in *. clear n k cp.
  assert (He : is_empty (vt_tr v) = false) by (destruct (is_empty (vt_tr v)) eqn:Q; [rewrite (answer_empty o v Q) in H; discriminate|reflexivity]).
  destruct (run_draws o "zerocheck challenge" (length (vt_zc v)) (vt_tr v)) as [cz t1] eqn:R1.
  destruct (run_draws o "0check r" (cp_nv (vt_proof v)) t1) as [r t2] eqn:R2.
  destruct (run_draws o "sumcheck challenge" (length (vt_sc v) + 1) t2) as [cs t3] eqn:R3.
  destruct (verify_run o v He cz t1 r t2 cs t3 R1 R2 R3) as [v2 [_ V]]. rewrite V in H. clear V. rewrite (end_run o v He cz t1 r t2 cs t3 R1 R2 R3). cbv zeta in *.
  destruct (sc_verify _ _ (cp_sc (vt_proof v)) _ _ t3) as [[sub t]|e|] eqn:Qs; cbn [map_err bind] in *; try discriminate.
  split; [eauto|].
  assert (Hin : forall i, In i (sort_ids (map fst (cp_comms (vt_proof v)))) <-> In i (map fst (cp_comms (vt_proof v)))) by (intros i; apply sort_in).
  assert (Hlen : length (sort_ids (map fst (cp_comms (vt_proof v)))) = length (cp_comms (vt_proof v))).
  { rewrite (Permutation.Permutation_length (sort_perm (map fst (cp_comms (vt_proof v))))). apply map_length. }
  destruct (known_dec (vt_mat v) (sort_ids (map fst (cp_comms (vt_proof v))))) as [K|[i [K1 K2]]]; [|rewrite (ounwrap_none _ _ i K1 K2) in H; discriminate].
  split; [intros id Hid; apply K, Hin, Hid|].
  destruct (ounwrap_all _ _ K) as [comms [Qc Lc]]. rewrite Qc in H. cbn [bind] in H. rewrite Hlen in Lc.
  destruct (cp_pcs (vt_proof v)) as [|bp rest]; [discriminate|]. change (rnth (bp :: rest) 0) with (Ok bp) in H. cbn [bind] in H.
  destruct (sc_ok o _ _ _ _ _ _ _ Qs) as [Hn [Hl [Hx Ht]]].
  assert (Hsub : length (sub_point sub) = cp_nv (vt_proof v)) by (rewrite Hx, run_msgs_length, firstn_length; lia).
  assert (He3 : is_empty t = false) by (rewrite Ht; apply run_msgs_open; reflexivity).
  set (points := map (fun _ => sub_point sub) (sort_ids (map fst (cp_comms (vt_proof v))))) in *.
  assert (Lp : length points = length comms) by (unfold points; rewrite map_length; lia).
  assert (Hz : Forall (fun z => length z = cp_nv (vt_proof v)) points) by (unfold points; apply Forall_map, Forall_forall; intros; exact Hsub).
  destruct (batch_verify o (vt_vk v) comms points bp t) as [[b tb]| |] eqn:Qb; cbn [bind] in H; try discriminate. clear H.
  assert (G : 2 <= length comms /\ 1 <= cp_nv (vt_proof v) <= vk_nv (vt_vk v) /\ length (pf_point (bp_sc bp)) = cp_nv (vt_proof v) /\ length comms <= length (bp_evals bp) /\
    cp_nv (vt_proof v) <= length (pf_msgs (bp_sc bp)) /\ Forall (fun m => length m = 3) (firstn (cp_nv (vt_proof v)) (pf_msgs (bp_sc bp)))).
  { unfold batch_verify in Qb. rewrite draw_vecT_ok in Qb by exact He3.
    pose proof (run_draws_length o "t" (Nat.log2_up (length comms)) t) as Lt. destruct (run_draws o "t" _ t) as [ts t1']. cbn [fst] in Lt. cbn [bind] in Qb.
    destruct (Nat.le_gt_cases (length comms) 1) as [G|G]; [rewrite (Nat.log2_up_eqn0 _ G) in Lt; destruct ts; [|discriminate]; rewrite build_nil in Qb; discriminate|].
    assert (Hts : ts <> []) by (intros ->; cbn in Lt; pose proof (Nat.log2_up_pos (length comms) G); lia).
    rewrite build_eq_x_r_vec_spec in Qb by exact Hts. cbn [bind] in Qb.
    assert (Hq : length comms <= length (eq_table ts)) by (rewrite eq_table_length, Lt; apply Nat.log2_up_le_pow2; lia).
    destruct (batch_terms_shape (pf_point (bp_sc bp)) (eq_table ts) comms points (cp_nv (vt_proof v)) Hz ltac:(intros X; rewrite X in Lp; cbn in Lp; lia) ltac:(lia) ltac:(lia)) as [T1 T2].
    destruct (Nat.eq_dec (length (pf_point (bp_sc bp))) (cp_nv (vt_proof v))) as [Q|Q]; [|rewrite (T2 Q) in Qb; discriminate]. destruct (T1 Q) as [tl T]. rewrite T in Qb. cbn [bind] in Qb.
    destruct (batch_sum_panic (eq_table ts) (bp_evals bp) (length comms) Hq) as [S1 S2].
    destruct (Nat.le_gt_cases (length comms) (length (bp_evals bp))) as [J|J]; [|rewrite (S2 J) in Qb; discriminate]. destruct (S1 J) as [sum S]. rewrite S in Qb. cbn [bind] in Qb. rewrite Q in Qb.
    destruct (sc_verify o sum (bp_sc bp) 2 _ t1') as [[sb t2']| |] eqn:Qv; cbn [map_err bind] in Qb; try discriminate.
    destruct (sc_ok o _ _ _ _ _ _ _ Qv) as [_ [Hl' _]].
    split; [lia|]. split; [split; [lia|]|].
    - unfold kzg_verify in Qb. destruct (Nat.ltb_spec (vk_nv (vt_vk v)) (length (pf_point (bp_sc bp)))); [discriminate|]. lia.
    - split; [exact Q|]. split; [exact J|]. split; [exact Hl'|]. destruct (all_len 3 (firstn (cp_nv (vt_proof v)) (pf_msgs (bp_sc bp)))) as [G'|B]; [exact G'|].
      destruct (bp_sc bp) as [pt ms]. cbn [pf_msgs] in *. exfalso. exact (proj1 (sc_verify_bad_length Hp o sum pt ms 2 (cp_nv (vt_proof v)) t1' ltac:(lia) Hl' B) _ Qv). }
  rewrite Lc in G. destruct G as [G1 [G2 [G3 [G4 [G5 G6]]]]]. split; [exact G1|]. split; [exact G2|]. exists bp, rest. auto.
Qed.
End All.
End A.
