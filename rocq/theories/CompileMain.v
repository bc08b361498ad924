(** Compiling the proof of a history, and what its verification amounts to. *)
From Coq Require Import String List Arith Lia Bool ZArith Znumtheory.
Import ListNotations.
From Verif Require Import Res ResLemmas Fp FSum SpecMle SpecVp SpecKzg SpecPoly SpecSumcheck SpecBatch SpecTracker ModelMle MleLemmas MleProofs MleExtra ModelVp VpHist VpProofs VpExtra
  ModelTranscript ModelSumcheck SumcheckVerify ZerocheckProofs TranscriptProofs Pairing ModelKzg KzgProofs KzgExtra ModelBatch BatchProofs BatchExtra
  ModelProver ModelVerifier ProverHist VerifierHist CompileHist TmapLemmas ProverProofs ProverExtra ProverStep DegreeProofs EqualizeProofs CompileProofs CompileExtra NodeProofs HistExtra.
Local Open Scope string_scope.
Local Open Scope list_scope.
Local Open Scope nat_scope.

Lemma map_err_ok : forall {A} (x : res A) e a, map_err x e = Ok a -> x = Ok a.
Proof. intros A x e a H. destruct x; cbn in H; try discriminate. exact H. Qed.
Lemma mapM_total : forall {A B} (f : A -> res B) l, (forall a, In a l -> exists b, f a = Ok b) -> exists bs, mapM f l = Ok bs.
Proof.
  induction l as [|a l IH]; intros H; [exists []; reflexivity|]. destruct (H a (or_introl eq_refl)) as [b Hb].
  destruct IH as [bs Hbs]; [intros; apply H; right; assumption|]. exists (b :: bs). cbn [mapM]. rewrite Hb. cbn [bind]. rewrite Hbs. reflexivity.
Qed.

Section S.
Context {p : positive} {E : pairing p}.
Hypothesis HE : pairing_laws E.
Hypothesis Hp : prime (Zpos p).
Add Ring Fr : (@F_ring p).
Implicit Types s : ptrk E.
Local Notation comm := (gcar (PG1 E)).
Local Arguments mput : simpl never.

Lemma hist_nonempty : forall (o : oracle p comm) pp ops s hs, prun o pp ops = Ok (s, hs) -> 0 < commit_calls ops -> is_empty (pt_tr s) = false.
Proof.
  intros o pp ops s hs H Hc.
  assert (G : forall ops s hs s' hs', winv (s, hs) -> foldM (pstep o) (s, hs) ops = Ok (s', hs') -> is_empty (pt_tr s) = false \/ 0 < commit_calls ops -> is_empty (pt_tr s') = false).
  { clear. induction ops as [|op ops IH]; intros s hs s' hs' Hw H Hc; [inversion H; subst; destruct Hc as [Hc|Hc]; [exact Hc|cbn in Hc; lia]|].
    cbn [foldM] in H. apply bind_ok_inv in H. destruct H as [[s1 hs1] [H1 H2]]. destruct (pstep_inv o s hs op _ Hw H1) as [Hw1 _].
    eapply IH; [exact Hw1|exact H2|]. pose proof (pstep_shape o s hs op s1 hs1 Hw H1) as P.
    destruct op; cbn [step_post] in P; try (repeat match type of P with exists _, _ => destruct P as [? P] | _ /\ _ => destruct P as [? P] end;
         repeat match goal with X : pushed _ _ _ _ _ _ _ _ |- _ => destruct X as [? [? [? [-> [? [[? ?] ?]]]]]] end; exact Hc).
    - left. destruct P as [_ [_ [_ [_ [_ [[c [_ [-> _]]] _]]]]]]. reflexivity.
    - destruct P as [a [_ [-> [[_ [-> _]] _]]]]. exact Hc.
    - left. destruct P as [c [t [P [-> _]]]]. unfold drawT, draw in P. destruct (is_empty (pt_tr s)); [discriminate|]. inversion P; subst. reflexivity.
    - left. destruct P as [-> _]. reflexivity.
    - destruct P as [a [_ [-> _]]]. exact Hc.
    - destruct P as [a [_ [-> _]]]. exact Hc. }
  eapply G; [apply (winv_new pp)|exact H|right; exact Hc].
Qed.
Lemma hist_pp : forall (o : oracle p comm) pp ops s hs, prun o pp ops = Ok (s, hs) -> pt_pp s = pp.
Proof. intros o pp ops s hs H. destruct (steps_inv o ops _ _ (winv_new pp) H) as [_ [[A _] _]]. exact A. Qed.

(** A handle and the polynomial it stands for. *)
Lemma hist_at : forall (o : oracle p comm) pp ops s hs i, prun o pp ops = Ok (s, hs) -> i < length hs ->
  let d := poly_at ops i in
  In (nth i hs dh) hs /\ tp_nv (nth i hs dh) = fst d /\ known s (tp_id (nth i hs dh)) (fst d) /\
  ptab s (tp_id (nth i hs dh)) (fst d) = corners d /\
  (forall k, k < 2 ^ fst d -> pval s (tp_id (nth i hs dh)) (bpoint (fst d) k) = nth k (corners d) F0).
Proof.
  intros o pp ops s hs i H Hi d. pose proof (prun_den o pp ops s hs false H ltac:(discriminate)) as F2.
  assert (Hn : nth_error hs i = Some (nth i hs dh)) by (apply nth_error_nth'; exact Hi).
  destruct (Forall2_nth _ _ _ _ _ i _ (0, fun _ => F0) F2 Hn) as [_ [D2 D3]]. fold (poly_at ops i) in D2, D3. fold d in D2, D3.
  assert (Hin : In (nth i hs dh) hs) by (apply nth_In; exact Hi).
  split; [exact Hin|]. split; [exact D2|]. pose proof (w_handles _ (prun_inv _ _ _ _ H) _ Hin) as K. unfold hknown in K. cbn [fst] in K. rewrite D2 in K.
  split; [exact K|].
  assert (V : forall k, k < 2 ^ fst d -> pval s (tp_id (nth i hs dh)) (bpoint (fst d) k) = snd d (bpoint (fst d) k)).
  { intros k Hk. apply D3. unfold points, cube_points. rewrite D2. exists k. auto. }
  split.
  - unfold ptab, corners. apply map_ext_in. intros k Hk. apply in_seq in Hk. apply V. lia.
  - intros k Hk. rewrite V by exact Hk. unfold corners. rewrite (nth_map_seq (fun k => snd d (bpoint (fst d) k))) by exact Hk. reflexivity.
Qed.

Definition claimed_sums (ops : list (pop p)) (n : nat) : list (F p) := map (sum_at ops n) (sum_calls ops).
Definition claimed_zero (ops : list (pop p)) (n : nat) (cz r : list (F p)) : F p :=
  mle_ext n (fun k => weighted cz (map (corner_at ops k) (zero_calls ops))) r.

Lemma fold_sums : forall (l : list (nat * F p)) m id c, In (id, c) l -> (forall c', In (id, c') l -> c' = c) ->
  mget (fold_left (fun m (cl : nat * F p) => mput m (fst cl) (snd cl)) l m) id = Some c.
Proof.
  intros l. induction l as [|[j b] l IH] using rev_ind; intros m id c Hin Hu; [contradiction|].
  rewrite fold_left_app. cbn [fold_left fst snd]. rewrite mget_mput. destruct (Nat.eqb_spec j id) as [->|Hne].
  - f_equal. apply Hu. apply in_or_app. right. left. reflexivity.
  - apply IH.
    + apply in_app_or in Hin. destruct Hin as [Hin|[Hin|[]]]; [exact Hin|]. inversion Hin; subst. congruence.
    + intros c' Hc'. apply Hu. apply in_or_app. auto.
Qed.

Lemma hist_compile : forall (oh o : oracle p comm) sc sc' addr g h (tau : list (F p)) ops s hs D,
  prun oh (srs_pp (srs_of g h tau)) ops = Ok (s, hs) -> distinct_addresses addr ->
  (forall d, In d (degrees ops) -> d <= D) -> 1 <= D -> D + 1 < fsize p -> 2 < fsize p -> 2 <= commit_calls ops -> 0 < max_nv hs <= length tau ->
  let n := max_nv hs in
  exists cz t1 r t2 cs t3,
    run_draws o "zerocheck challenge" (length (zero_calls ops)) (pt_tr s) = (cz, t1) /\ run_draws o "0check r" n t1 = (r, t2) /\
    run_draws o "sumcheck challenge" (length (sum_calls ops) + 1) t2 = (cs, t3) /\
    let T := claimed_sums ops n in let X := claimed_zero ops n cz r in
    forall debug,
    (debug = true -> weighted cs (T ++ [X]) <> weighted cs (T ++ [F0]) -> compile_proof o sc sc' addr debug s = Err IOPInvalidProver) /\
    ((debug = true -> weighted cs (T ++ [X]) = weighted cs (T ++ [F0])) ->
     exists cp s', compile_proof o sc sc' addr debug s = Ok (cp, s') /\ cp_comms cp = pt_comm s /\ cp_nv cp = n /\ length (pf_point (cp_sc cp)) = n /\ proof_covers cp s /\
       (forall i, In i (sum_calls ops) -> mget (cp_sums cp) (tp_id (nth i hs dh)) = Some (sum_at ops n i)) /\
       (forall v, vt_proof v = cp -> vt_vk v = vk_of g h tau -> vt_tr v = pt_tr s -> vt_mat v = pt_comm s ->
         length (vt_zc v) = length (zero_calls ops) -> length (vt_sc v) = length (sum_calls ops) ->
         ((exists v', verify_claims o v = Ok v') -> weighted cs (map snd (vt_sc v) ++ [F0]) = weighted cs (T ++ [X])) /\
         (weighted cs (map snd (vt_sc v) ++ [F0]) = weighted cs (T ++ [X]) -> (off_nodes cp -> exists v', verify_claims o v = Ok v') /\ (~ off_nodes cp -> verify_claims o v = Panic))) /\
       cp_deg cp <= D + 1 /\ runs_on o t3 n (commit_calls ops) cp).
Proof.
  intros oh o sc sc' addr g h tau ops s hs D H Hadr Hdeg HD HDf H2f H2 Hn n.
  pose proof (prun_inv _ _ _ _ H) as Hw. pose proof (w_inv _ Hw) as Hi. cbn [fst] in Hi.
  destruct (hist_calls _ _ _ _ _ H) as [Zc [Sc [Cc Lc]]]. pose proof (hist_nonempty _ _ _ _ _ H ltac:(lia)) as He. pose proof (hist_pp _ _ _ _ _ H) as Hpp.
  assert (Hhs : hs <> []) by (intros ->; unfold max_nv in Hn; simpl in Hn; lia).
  destruct (hist_claims _ _ _ _ _ H) as [Cs Cz].
  destruct (equalize_spec s Hi (hist_mat _ _ _ _ _ H Hhs) Cs) as [n' [s1 [Q1 [Q2 [Q3 [Q4 [Q5 [Q6 [Q7 [Q8 [Q9 [Q10 Q11]]]]]]]]]]]].
  assert (n' = n).
  { apply (equal_max _ _ _ _ _ _ H Q9). intros hd Hh. apply (Q11 (tp_id hd)). apply (w_handles _ Hw hd Hh). }
  subst n'. pose proof (equalize_old _ _ _ Q1) as Vo.
  assert (Kn : forall i, i < length hs -> known s1 (tp_id (nth i hs dh)) n /\ deg_le s1 (tp_id (nth i hs dh)) D).
  { intros i Hlt. destruct (hist_at _ _ _ _ _ i H Hlt) as [I1 [I2 [I3 [I4 I5]]]]. split; [apply (Q11 _ _ I3)|].
    eapply vold_deg; [exact Vo|eapply known_lt; eassumption|]. pose proof (prun_degrees _ _ _ _ _ H) as F2.
    assert (Hne : nth_error hs i = Some (nth i hs dh)) by (apply nth_error_nth'; exact Hlt).
    destruct (Forall2_nth _ _ _ _ _ i _ 1 F2 Hne) as [D1 D2]. eapply deg_le_mono; [|exact D2]. apply Hdeg. eapply nth_error_In. exact D1. }
  assert (Sum : forall i, i < length hs -> Fsum (ptab s1 (tp_id (nth i hs dh)) n) = sum_at ops n i).
  { intros i Hlt. destruct (hist_at _ _ _ _ _ i H Hlt) as [I1 [I2 [I3 [I4 I5]]]]. destruct (Q11 _ _ I3) as [A1 [A2 A3]].
    rewrite (equalized_sum s s1 _ _ n A1 A3), I4. reflexivity. }
  assert (Cor : forall i k, i < length hs -> k < 2 ^ n -> pval s1 (tp_id (nth i hs dh)) (bpoint n k) = corner_at ops k i).
  { intros i k Hlt Hk. destruct (hist_at _ _ _ _ _ i H Hlt) as [I1 [I2 [I3 [I4 I5]]]]. destruct (Q11 _ _ I3) as [A1 [A2 A3]].
    rewrite A3 by exact Hk. rewrite I5; [reflexivity|]. apply Nat.mod_upper_bound. apply Nat.pow_nonzero. lia. }
  assert (Q8f : map fst (pt_sc s1) = map (fun i => tp_id (nth i hs dh)) (sum_calls ops)).
  { rewrite Q8, map_map. cbn [fst]. rewrite <- Sc. reflexivity. }
  assert (Q8s : map (fun cl : nat * F p => Fsum (ptab s1 (fst cl) n)) (pt_sc s1) = claimed_sums ops n).
  { rewrite <- (map_map fst (fun id => Fsum (ptab s1 id n))), Q8f, map_map. apply map_ext_in. intros i Hin. apply Sum. apply Lc. auto. }
  assert (Q8v : map snd (pt_sc s1) = claimed_sums ops n).
  { rewrite <- Q8s. rewrite Q8, !map_map. apply map_ext. intros cl. reflexivity. }
  assert (Ks : all_known s1 (map fst (pt_sc s1)) n D).
  { intros id Hin. rewrite Q8f in Hin. apply in_map_iff in Hin. destruct Hin as [i [<- Hin]]. apply Kn. apply Lc. auto. }
  assert (Kz : all_known s1 (pt_zc s1) n D).
  { intros id Hin. rewrite Q7, Zc in Hin. apply in_map_iff in Hin. destruct Hin as [i [<- Hin]]. apply Kn. apply Lc. auto. }
  destruct (claims_run o s1 n D Q2 ltac:(rewrite Q4; exact He) ltac:(lia) HD Ks Kz)
    as [cz [t1 [r [t2 [cs [t3 [s2 [agg [s3 [R1 [R2 [R3 [M1 [M2 [M3 [M4 [M5 [M6 [M7 [M8 [M9 [[zid [M10n M10]] M11]]]]]]]]]]]]]]]]]]]]]].
  exists cz, t1, r, t2, cs, t3.
  assert (Lz : length (pt_zc s1) = length (zero_calls ops)) by (rewrite Q7, Zc, map_length; reflexivity).
  assert (Ls : length (pt_sc s1) = length (sum_calls ops)).
  { rewrite <- (map_length fst), Q8f, map_length. reflexivity. }
  rewrite Lz, Q4 in R1. rewrite Ls in R3. split; [exact R1|]. split; [exact R2|]. split; [exact R3|]. intros T X.
  assert (TS : true_sums s1 n cz r = T ++ [X]).
  { unfold true_sums. rewrite Q8s. f_equal. f_equal. unfold X, claimed_zero. apply mle_ext_ext. intros k Hk. rewrite Q7, Zc, map_map. f_equal.
    apply map_ext_in. intros i Hin. apply Cor; [apply Lc; auto|exact Hk]. }
  rewrite TS in M11. rewrite Q8v in M2. fold T in M2.
  intros debug.
  assert (Step : compile_proof o sc sc' addr debug s =
    bind (if debug then ' (ev, s') <- evaluations s3 agg ;; _ <- ensure (Feqb (fold_left Fadd ev F0) (weighted cs (T ++ [F0]))) IOPInvalidProver ;; Ok s' else Ok s3)
      (fun s4 => tail o sc sc' addr s4 agg)).
  { unfold compile_proof. rewrite Q1. cbn [bind]. rewrite M1. cbn [bind]. rewrite M2. cbn [bind]. reflexivity. }
  destruct (evaluations_spec s3 agg n M3 M8) as [s4 [E1 [E2 [E3 [E4 [[ea [E5 [E6 E7]]] _]]]]]].
  assert (Esum : fold_left Fadd (ptab s3 agg n) F0 = weighted cs (T ++ [X])).
  { rewrite fold_left_Fadd, ptab_sum, M11. ring. }
  split.
  { intros Hd Hne. rewrite Step, Hd, E1. cbn [bind]. rewrite Esum, (proj2 (Feqb_neq _ _) Hne). reflexivity. }
  intros Heq.
  (* the state handed to the sum check *)
  assert (S4 : exists s5, (if debug then ' (ev, s') <- evaluations s3 agg ;; _ <- ensure (Feqb (fold_left Fadd ev F0) (weighted cs (T ++ [F0]))) IOPInvalidProver ;; Ok s' else Ok s3) = Ok s5 /\
     pinv s5 /\ ext s3 s5 /\ pt_tr s5 = t3 /\ pt_comm s5 = pt_comm s3 /\ same_claims s3 s5 /\ known s5 agg n /\ deg_le s5 agg (D + 1) /\ cube_sum n (pval s5 agg) = cube_sum n (pval s3 agg)).
  { destruct debug.
    - rewrite E1. cbn [bind]. rewrite Esum, (Heq eq_refl), Feqb_refl. cbn [ensure bind]. exists s4. split; [reflexivity|]. split; [exact E2|]. split; [exact E3|].
      destruct E4 as [_ [E4a [_ [E4b E4c]]]]. split; [congruence|]. split; [exact E4b|]. split; [exact E4c|]. split; [apply (proj1 (proj2 (proj2 E3)) _ _ M8)|].
      split; [eapply deg_le_mono; [|exact (evaluations_deg s3 agg n _ s4 M3 M8 E1)]; lia|].
      rewrite <- !ptab_sum. rewrite (ptab_ext s3 s4 agg n M8 E3). reflexivity.
    - exists s3. split; [reflexivity|]. split; [exact M3|]. split; [apply ext_refl|]. split; [exact M6|]. split; [reflexivity|]. split; [split; reflexivity|]. auto. }
  destruct S4 as [s5 [F1' [F2' [F3' [F4' [F5' [F6' [F7' [F8' F9']]]]]]]]].
  rewrite F1' in Step. cbn [bind] in Step.
  destruct (tail_spec HE Hp o sc sc' addr g h tau s5 agg n (D + 1) F2') as [cp [s6 [bp [P1 [P2 [P3 [P4 [P5 [P6 [P7 [P8 [P9 [P10 [P11 [P12 [P13 P14]]]]]]]]]]]]]]]]; try assumption; try lia.
  { rewrite F4'. exact M7. }
  { destruct F3' as [X1 _]. destruct M4 as [X2 _]. congruence. }
  { rewrite F5', M5, Q6, Cc. exact H2. }
  { intros id c Hc. rewrite F5', M5, Q6 in Hc. destruct (i_comm s Hi id c Hc) as [a Ha]. destruct (Q10 id a Ha) as [b [B1 [B2 [B3 _]]]].
    exists b. split; [|exact B3]. apply F3'. apply M4. exact B1. }
  rewrite F9', M11, F4' in *. destruct F6' as [F6a _]. rewrite F6a, M10 in P3. rewrite F5', M5, Q6 in P2, P10.
  assert (Hsum : forall i, In i (sum_calls ops) -> mget (cp_sums cp) (tp_id (nth i hs dh)) = Some (sum_at ops n i)).
  { intros i Hin. rewrite P3. assert (Hlt : i < length hs) by (apply Lc; auto).
    assert (Hcl : forall c, In (tp_id (nth i hs dh), c) (pt_sc s1) -> c = sum_at ops n i).
    { intros c Hc. rewrite Q8 in Hc. apply in_map_iff in Hc. destruct Hc as [cl [Hc _]]. inversion Hc as [[Hc1 Hc2]]. rewrite Hc1. apply Sum. exact Hlt. }
    assert (Hne : tp_id (nth i hs dh) <> zid).
    { (* the id of the converted claim is new *)
      destruct (Kn i Hlt) as [K1 _]. pose proof (known_lt s1 _ _ Q2 K1) as K2.
      lia. }
    apply fold_sums.
    - apply in_or_app. left. assert (Hin' : In (tp_id (nth i hs dh)) (map fst (pt_sc s1))) by (rewrite Q8f; apply (in_map (fun i => tp_id (nth i hs dh))); exact Hin).
      apply in_map_iff in Hin'. destruct Hin' as [[j c] [Hj Hc]]. cbn [fst] in Hj. subst j. rewrite <- (Hcl c Hc). exact Hc.
    - intros c' Hc'. apply in_app_or in Hc'. destruct Hc' as [Hc'|[Hc'|[]]]; [apply Hcl; exact Hc'|]. inversion Hc'. congruence. }
  exists cp, s6. split; [rewrite Step; exact P1|]. split; [exact P2|]. split; [exact P4|]. split; [exact P7|]. split.
  { split; [intros id c Hc; rewrite P2; exact Hc|]. intros id c Hc. assert (Hin : In id (map fst (pt_sc s))) by (apply (in_map fst) in Hc; exact Hc).
    rewrite Sc in Hin. apply in_map_iff in Hin. destruct Hin as [i [<- Hin]]. rewrite (Hsum i Hin). discriminate. }
  split; [exact Hsum|]. split; [|split; [lia|rewrite F5', M5, Q6, Cc in P12; exact P12]].
  intros v V1 V2 V3 V4 V5 V6.
  destruct (verify_run o v ltac:(rewrite V3; exact He) cz t1 r t2 cs t3) as [v2 [_ V7]].
  { rewrite V5, V3. exact R1. } { rewrite V1, P4. exact R2. } { rewrite V6. exact R3. }
  rewrite V7, V1, V2, V4. cbv zeta. rewrite P4, P9, P2. split.
  - intros [v' Hv]. apply bind_ok_inv in Hv. destruct Hv as [[sub t] [Hv _]].
    apply map_err_ok in Hv. apply (sc_verify_extract Hp) in Hv; [|lia|lia]. rewrite P6 in Hv. inversion Hv. reflexivity.
  - intros Heq2. rewrite Heq2.
    assert (Hm : exists comms, mapM (fun id => ounwrap (mget (pt_comm s) id)) (sort_ids (map fst (pt_comm s))) = Ok comms).
    { apply mapM_total. intros id Hin. apply (proj1 (sort_in _ _)) in Hin. apply mget_key in Hin. destruct Hin as [c Hc]. rewrite Hc. exists c. reflexivity. }
    destruct Hm as [comms Hm].
    assert (Lm : length comms = length (pt_comm s)).
    { apply mapM_length in Hm. rewrite Hm, (Permutation.Permutation_length (sort_perm _)), map_length. reflexivity. }
    split.
    + intros [N1 N2]. destruct (P10 N1) as [sub [t' [Y1 Y2]]]. rewrite Y1. cbn [map_err bind]. rewrite Hm. cbn [bind]. rewrite (rnth_ok [bp] 0 bp) by (simpl; lia). cbn [bind nth].
      destruct (proj1 (Y2 comms Lm)) as [b Y3]; [intros c Hc; apply (N2 bp c); [rewrite P9; left; reflexivity|exact Hc]|].
      rewrite Y3. cbn [bind]. eexists. reflexivity.
    + intros Hno. destruct (all_nonnode_dec (cp_deg cp + 1) (pf_point (cp_sc cp))) as [N1|N1]; [|rewrite (P11 N1); reflexivity].
      destruct (P10 N1) as [sub [t' [Y1 Y2]]]. rewrite Y1. cbn [map_err bind]. rewrite Hm. cbn [bind]. rewrite (rnth_ok [bp] 0 bp) by (simpl; lia). cbn [bind nth].
      destruct (all_nonnode_dec 3 (pf_point (bp_sc bp))) as [N2|N2]; [|rewrite (proj2 (Y2 comms Lm) N2); reflexivity].
      exfalso. apply Hno. split; [exact N1|]. intros b c Hb. rewrite P9 in Hb. destruct Hb as [<-|[]]. apply N2.
Qed.
End S.
