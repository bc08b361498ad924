(** Where the sum-check of an honest proof ends. *)
From Coq Require Import String List Arith Lia Bool ZArith Znumtheory.
Import ListNotations.
From Verif Require Import Res ResLemmas Fp FSum SpecMle SpecVp SpecKzg SpecPoly SpecBatch SpecTracker ModelMle MleLemmas MleProofs MleExtra ModelVp VpHist VpProofs VpExtra
  ModelTranscript ModelSumcheck SumcheckVerify ZerocheckProofs TranscriptProofs Pairing ModelKzg KzgProofs KzgExtra ModelBatch BatchProofs BatchExtra
  ModelProver ProverHist TmapLemmas ProverProofs ProverExtra ProverStep HistExtra DegreeProofs EqualizeProofs CompileProofs CompileHist CompileExtra CompileMain ModelVerifier VerifierHist VerifierExtra CompileSound SpecIop CheckProofs EndHist.
Local Open Scope string_scope.
Local Open Scope list_scope.
Local Open Scope nat_scope.

Section T.
Context {p : positive} {E : pairing p}.
Hypothesis HE : pairing_laws E.
Hypothesis Hp : prime (Zpos p).
Add Ring Fr : (@F_ring p).
Implicit Types s : ptrk E.
Local Notation comm := (gcar (PG1 E)).
Local Notation st := (ptrk E).

(** ** Equalizing, away from the corners *)
Lemma sums_loop2 : forall n (l : list (nat * F p)) acc s, pinv s -> (forall cl, In cl l -> known s (fst cl) n) ->
  forall acc' s', foldM (fun (acc : list (nat * F p) * st) (cl : nat * F p) =>
          ' (ev, s') <- evaluations (snd acc) (fst cl) ;;
          Ok (fst acc ++ [(fst cl, fold_left Fadd ev F0)], s')) (acc, s) l = Ok (acc', s') ->
    (forall id a, mget (pt_mat s) id = Some a -> mget (pt_mat s') id = Some a) /\
    (forall cl, In cl l -> exists a, mget (pt_mat s') (fst cl) = Some a /\ nv (snd a) = n) /\
    (forall j m, ~ In j (map fst l) -> known s j m -> forall x, pval s' j x = pval s j x).
Proof.
  intros n l. induction l as [|cl l IH]; intros acc s Hi Hl acc' s' H.
  - cbn [foldM] in H. inversion H; subst. split; [auto|]. split; [intros cl []|auto].
  - destruct (evaluations_spec s (fst cl) n Hi (Hl cl (or_introl eq_refl))) as [s1 [E1 [E2 [E3 [E4 [[a [E5 [E5n _]]] [E6 _]]]]]]].
    cbn [foldM fst snd] in H. rewrite E1 in H. cbn [bind] in H.
    destruct (IH _ s1 E2 ltac:(intros c Hc; apply (proj1 (proj2 (proj2 E3)) _ _ (Hl c (or_intror Hc)))) _ _ H) as [I1 [I2 I3]].
    split; [|split].
    + intros id b Hb. apply I1. apply (proj2 (proj2 (proj2 (proj2 E3)))). exact Hb.
    + intros c [<-|Hc]; [|apply I2; exact Hc]. exists a. split; [apply I1; exact E5|exact E5n].
    + intros j m Hj Hk x. cbn [map In] in Hj. destruct (E6 j m ltac:(intros ->; apply Hj; auto) Hk) as [K1 K2].
      rewrite (I3 j m ltac:(auto) K1), K2. reflexivity.
Qed.

Lemma equalize_off : forall s n s', pinv s -> (forall cl, In cl (pt_sc s) -> fst cl < pt_next s) -> equalize_materialized_poly_nv s = Ok (n, s') ->
  (forall cl, In cl (pt_sc s) -> exists a, mget (pt_mat s') (fst cl) = Some a /\ nv (snd a) = n) /\
  (forall j m, ~ In j (map fst (pt_sc s)) -> known s j m -> forall x y, length x = m -> length y = n - m -> pval s' j (x ++ y) = pval s j x).
Proof.
  intros s n s' Hi Hcl H. unfold equalize_materialized_poly_nv in H. set (n0 := fold_right Nat.max 0 (map (fun e => nv (snd (snd e))) (pt_mat s))) in H.
  destruct (pt_mat s) as [|e0 m0] eqn:Em; [discriminate|]. cbn [bind] in H.
  assert (Hmax : forall id a, mget (pt_mat s) id = Some a -> nv (snd a) <= n0).
  { intros id a G. rewrite Em in G. apply mget_in in G. unfold n0. apply max_ge. apply (in_map (fun e => nv (snd (snd e))) _ (id, a)). exact G. }
  rewrite <- Em in H.
  destruct (equalize_loop n0 (pt_mat s) s) as [s1 [L1 [L2 [L3 [L4 L5]]]]].
  { split; [apply (i_wf s Hi)|]. split; [apply (i_coh s Hi)|apply (i_nodup s Hi)]. }
  { apply (i_nodup s Hi). }
  { intros [id a] Hin. cbn [fst snd]. apply in_mget in Hin; [|apply (i_nodup s Hi)]. split; [exact Hin|eapply Hmax; exact Hin]. }
  rewrite L1 in H. cbn [bind] in H.
  assert (Hx : forall id a, mget (pt_mat s) id = Some a -> exists b, mget (pt_mat s1) id = Some b /\ extended n0 (snd a) (snd b)).
  { intros id a G. apply mget_in in G. apply (L5 (id, a) G). }
  destruct (all_extended n0 s s1 Hi L2 L3 Hx) as [I1 EQ].
  { intros id G. rewrite L4; [exact G|]. apply mget_none. exact G. }
  destruct L3 as [P1 [P2 [P3 [P4 [P5 [P6 P7]]]]]].
  apply bind_ok_inv in H. destruct H as [[acc s2] [H1 H2]]. cbn in H2. inversion H2; subst n s'. clear H2.
  rewrite P6 in H1. destruct (sums_loop2 n0 _ _ _ I1 ltac:(intros cl G; destruct (lt_known s (fst cl) Hi (Hcl cl G)) as [m Hm]; apply (EQ _ _ Hm)) _ _ H1) as [M1 [M2 M3]].
  split.
  - intros cl G. exact (M2 cl G).
  - intros j m Hj Hk x y Lx Ly. destruct (EQ j m Hk) as [E1 [E2 E3]]. rewrite <- (E3 x y Lx Ly). apply (M3 j n0 Hj E2).
Qed.

Lemma mat_flat : forall s id a x, mget (pt_mat s) id = Some a -> pval s id x = mle_ext (nv (snd a)) (fun k => pval s id (bpoint (nv (snd a)) k)) x.
Proof.
  intros s id a x H. unfold pval. rewrite H. unfold value. apply mle_ext_ext. intros k Hk. rewrite mle_ext_bpoint by exact Hk. reflexivity.
Qed.

(** ** The aggregate *)
Lemma claims_val : forall (o : oracle p comm) s1 n d, pinv s1 -> is_empty (pt_tr s1) = false -> 0 < n -> 1 <= d ->
  all_known s1 (map fst (pt_sc s1)) n d -> all_known s1 (pt_zc s1) n d ->
  forall cz t1 r t2 cs t3 s2 agg sum s3,
    run_draws o "zerocheck challenge" (length (pt_zc s1)) (pt_tr s1) = (cz, t1) -> run_draws o "0check r" n t1 = (r, t2) ->
    run_draws o "sumcheck challenge" (length (pt_sc s1) + 1) t2 = (cs, t3) ->
    convert_zerocheck_claims o n s1 = Ok s2 -> aggregate_sumcheck_claims o n s2 = Ok (agg, sum, s3) ->
    forall x, length x = n -> pval s3 agg x = weighted cs (map (fun cl => pval s1 (fst cl) x) (pt_sc s1) ++ [(weighted cz (map (fun i => pval s1 i x) (pt_zc s1)) * eqf x r)%F]).
Proof.
  intros o s1 n d Hi He Hn Hd Ks Kz cz t1 r t2 cs t3 s2 agg sum s3 R1 R2 R3 H1 H2 x Hx.
  destruct (convert_spec o n d s1 Hi He Hn Hd Kz) as [cz' [t1' [r' [t2' [id [s2' [C1 [C2 [C3 [C4 [C5 [C6 [C7 [C8 [C9 [C9n [C10 [C11 C12]]]]]]]]]]]]]]]]]].
  rewrite R1 in C1. injection C1 as <- <-. rewrite R2 in C2. injection C2 as <- <-. rewrite H1 in C3. injection C3 as <-.
  assert (He1 : is_empty t1 = false).
  { pose proof (proj1 (run_draws_nonempty o "zerocheck challenge" (length (pt_zc s1)) (pt_tr s1) He)) as X. rewrite R1 in X. exact X. }
  assert (He2 : is_empty t2 = false).
  { pose proof (proj1 (run_draws_nonempty o "0check r" n t1 He1)) as X. rewrite R2 in X. exact X. }
  destruct (aggregate_spec o n (d + 1) s2 C4) as [cs' [t3' [agg' [s3' [A1 [A2 [A3 [A4 [A5 [A6 [A7 [A8 [A9 [A10 A11]]]]]]]]]]]]]].
  { rewrite C8. exact He2. } { lia. }
  { intros j Hj. rewrite C9, map_app in Hj. apply in_app_or in Hj. destruct Hj as [Hj|Hj].
    - destruct (all_known_ext s1 s2 _ n d Hi C5 C6 Ks j Hj) as [X Y]. split; [exact X|]. eapply deg_le_mono; [|exact Y]. lia.
    - simpl in Hj. destruct Hj as [<-|[]]. split; [exact C10|exact C11]. }
  rewrite C8 in A1. rewrite C9, app_length in A1. cbn [length] in A1. rewrite R3 in A1. injection A1 as <- <-. rewrite H2 in A2. injection A2 as <- _ <-.
  rewrite A11 by exact Hx. f_equal. rewrite C9, map_app. cbn [map fst]. rewrite (C12 x Hx). f_equal.
  apply map_ext_in. intros cl Hcl. destruct (Ks (fst cl)) as [K _]; [apply in_map; exact Hcl|]. apply (proj2 (proj1 (proj2 (proj2 C5)) _ _ K)).
Qed.

Lemma tail_end : forall (o : oracle p comm) sc sc' addr s agg n d cp s',
  pinv s -> known s agg n -> deg_le s agg d -> d < fsize p -> 0 < n ->
  tail o sc sc' addr s agg = Ok (cp, s') -> (forall c, In c (pf_point (cp_sc cp)) -> nonnode (cp_deg cp + 1) c) ->
  cp_nv cp = n /\ length (pf_point (cp_sc cp)) = n /\ 1 <= cp_deg cp <= d /\ exists t',
    sc_verify o (cube_sum n (pval s agg)) (cp_sc cp) (cp_deg cp) n (pt_tr s) = Ok (mkSub (pf_point (cp_sc cp)) (pval s agg (pf_point (cp_sc cp))), t').
Proof.
  intros o sc sc' addr s agg n d cp s' Hi Hk Hd Hdf Hn H Hno. unfold tail in H.
  destruct (to_arith_spec s agg n d Hi Hk Hd) as [w [W1 [W2 [W3 [W4 W5]]]]]. rewrite W1 in H. cbn [bind] in H.
  destruct (sc_complete Hp o sc w (pt_tr s) W2) as [pf [t0 [P1 [P2 [P3 P4]]]]]; [lia|lia|lia|].
  rewrite P1 in H. cbn [unwrap bind] in H.
  apply bind_ok_inv in H. destruct H as [polys [_ H]]. apply bind_ok_inv in H. destruct H as [evals [_ H]]. apply bind_ok_inv in H. destruct H as [[bp t''] [_ H]].
  cbv beta iota zeta in H. injection H as <- <-. cbn [cp_nv cp_sc cp_deg] in *.
  split; [exact W3|]. split; [congruence|]. split; [exact W5|]. exists t0. rewrite <- W4, <- W3, <- P4.
  2:{ exact Hno. }
  f_equal. apply cube_sum_ext'. intros x _. symmetry. apply W4.
Qed.

(** ** The verifier's side *)
Lemma end_run : forall (o : oracle p comm) (v : vtrk E), is_empty (vt_tr v) = false ->
  forall cz t1 r t2 cs t3,
    run_draws o "zerocheck challenge" (length (vt_zc v)) (vt_tr v) = (cz, t1) -> run_draws o "0check r" (cp_nv (vt_proof v)) t1 = (r, t2) ->
    run_draws o "sumcheck challenge" (length (vt_sc v) + 1) t2 = (cs, t3) ->
  sc_end o v =
    (let cp := vt_proof v in
     ' (sub, _) <- map_err (sc_verify o (weighted cs (map snd (vt_sc v) ++ [F0])) (cp_sc cp) (cp_deg cp) (cp_nv cp) t3) IOPInvalidVerifier ;;
     Ok (sub_point sub, sub_eval sub)).
Proof.
  intros o v He cz t1 r t2 cs t3 R1 R2 R3. unfold sc_end, v_convert_zerocheck_claims.
  assert (He1 : is_empty t1 = false).
  { pose proof (proj1 (run_draws_nonempty o "zerocheck challenge" (length (vt_zc v)) (vt_tr v) He)) as X. rewrite R1 in X. exact X. }
  assert (He2 : is_empty t2 = false).
  { pose proof (proj1 (run_draws_nonempty o "0check r" (cp_nv (vt_proof v)) t1 He1)) as X. rewrite R2 in X. exact X. }
  cbn [track_virtual_comm track_virtual v_gen_id]. set (v0 := put_virt _ _ _).
  change (vt_zc v0) with (vt_zc v).
  destruct (v_convert_loop o (vt_zc v) v0 (vt_next v) He) as [agg [v1 [A1 [A2 [A3 A4]]]]].
  unfold track_virtual_comm, track_virtual, v_gen_id. fold v0. rewrite A1. cbn [bind].
  change (vt_tr v0) with (vt_tr v) in A4. rewrite R1 in A4. cbn [snd] in A4. rewrite A4.
  rewrite draw_vecT_ok by exact He1. rewrite R2. cbn [unwrap bind].
  cbn [set_vtr put_virt mul_comms track_virtual v_gen_id v_add_sumcheck_claim vt_vk vt_tr vt_next vt_mat vt_virt vt_query vt_sc vt_zc vt_proof bind].
  unfold mul_comms, track_virtual, v_gen_id, v_add_sumcheck_claim, set_vtr, put_virt. cbn [vt_vk vt_tr vt_next vt_mat vt_virt vt_query vt_sc vt_zc vt_proof bind].
  unfold v_aggregate_sumcheck_claims, track_virtual_comm, track_virtual, v_gen_id, put_virt. cbn [vt_vk vt_tr vt_next vt_mat vt_virt vt_query vt_sc vt_zc vt_proof].
  rewrite A3. change (vt_sc v0) with (vt_sc v).
  match goal with |- context [foldM _ (?a, ?b, ?w) (vt_sc v ++ ?l)] => destruct (v_aggregate_loop o (vt_sc v ++ l) w a b He2) as [agg' [v2 [B1 [B2 [B3 B4]]]]] end.
  rewrite B1. cbn [bind]. rewrite app_length in B1, B4 |- *. cbn [length] in B1, B4 |- *. cbn [vt_tr] in B4 |- *. rewrite R3 in B4 |- *. cbn [fst snd] in *.
  rewrite B4, map_app. cbn [map snd]. replace (F0 + weighted cs (map snd (vt_sc v) ++ [F0]))%F with (weighted cs (map snd (vt_sc v) ++ [F0])) by ring.
  destruct (sc_verify _ _ _ _ _ _) as [[sub t]| |]; reflexivity.
Qed.

Lemma at_value : forall (o : oracle p comm) pp ops s hs i x, prun o pp ops = Ok (s, hs) -> i < length hs -> linear_calls [] ops -> length x = fst (poly_at ops i) ->
  pval s (tp_id (nth i hs dh)) x = snd (poly_at ops i) x.
Proof.
  intros o pp ops s hs i x H Hi Hl Hx. pose proof (prun_den o pp ops s hs true H (fun _ => Hl)) as F2.
  destruct (Forall2_nth _ _ _ _ _ i _ (0, fun _ => F0) F2 (nth_error_nth' hs dh Hi)) as [_ [D2 D3]]. fold (poly_at ops i) in D2, D3. apply D3. change (length x = tp_nv (nth i hs dh)). rewrite D2. exact Hx.
Qed.

Lemma debug_degree : forall (o : oracle p comm) sc sc' addr s cp s', compile_proof o sc sc' addr true s = Ok (cp, s') -> cp_deg cp = 1.
Proof.
  intros o sc sc' addr s cp s' H. unfold compile_proof in H.
  apply bind_ok_inv in H. destruct H as [[n s1] [_ H]]. apply bind_ok_inv in H. destruct H as [s2 [_ H]]. apply bind_ok_inv in H. destruct H as [[[agg sum] s3] [_ H]].
  apply bind_ok_inv in H. destruct H as [s4 [H4 H]]. apply bind_ok_inv in H4. destruct H4 as [[ev s4'] [H4 H5]]. apply bind_ok_inv in H5. destruct H5 as [[] [_ H5]]. injection H5 as ->.
  apply bind_ok_inv in H. destruct H as [w [Hw H]]. apply bind_ok_inv in H. destruct H as [[pf t] [_ H]].
  apply bind_ok_inv in H. destruct H as [polys [_ H]]. apply bind_ok_inv in H. destruct H as [evals [_ H]]. apply bind_ok_inv in H. destruct H as [[bp t''] [_ H]].
  cbv beta iota zeta in H. injection H as <- _. cbn [cp_deg].
  unfold evaluations in H4. apply bind_ok_inv in H4. destruct H4 as [s5 [_ H4]]. apply bind_ok_inv in H4. destruct H4 as [a [Ha H4]]. injection H4 as _ ->.
  destruct (mget (pt_mat s4) agg) as [b|] eqn:Em; [|discriminate]. unfold to_arithmatic_virtual_poly in Hw. rewrite Em in Hw. injection Hw as <-. reflexivity.
Qed.

Lemma hist_runs : forall (o : oracle p comm) sc sc' addr debug vdebug g h rnd N k srs ck vk ops vops s hs D cp s' v v',
  1 <= N -> k <= N -> gen_srs E g h rnd N = Ok srs -> kzg_trim srs None (Some k) = Ok (ck, vk) -> distinct_addresses addr ->
  prun o ck ops = Ok (s, hs) -> mirror false ck ops vops ->
  (forall d, In d (degrees ops) -> d <= D) -> 1 <= D -> D + 1 < fsize p -> 2 < fsize p ->
  2 <= commit_calls ops -> 0 < max_nv hs <= k ->
  compile_proof o sc sc' addr debug s = Ok (cp, s') -> vrun o vdebug vk cp vops = Ok (v, map tp_id hs) -> verify_claims o v = Ok v' ->
  exists zs r cs x y rest, (exists t1 t2 t3, run_draws o "zerocheck challenge" (length (vt_zc v)) (vt_tr v) = (zs, t1) /\ run_draws o "0check r" (cp_nv (vt_proof v)) t1 = (r, t2) /\
      run_draws o "sumcheck challenge" (length (vt_sc v) + 1) t2 = (cs, t3)) /\ proof_covers cp s /\ length zs = length (zero_calls ops) /\ length r = max_nv hs /\ length cs = length (sum_calls ops) + 1 /\ length x = max_nv hs /\
    SpecIop.drawn (vt_tr v) (vt_tr v') = zs ++ r ++ cs ++ x ++ rest /\ sc_end o v = Ok (x, y) /\
    (debug = true -> y = end_debug ops (max_nv hs) zs r cs x) /\
    (debug = false -> linear_calls [] ops -> (forall i, In i (zero_calls ops) -> ~ In i (sum_calls ops)) -> y = end_release ops (max_nv hs) zs r cs x).
Proof.
  intros o sc sc' addr debug vdebug g h rnd N k srs ck vk ops vops s hs D cp s' v v' HN Hk Hg Ht Hadr H Hm Hdeg HD HDf H2f H2 Hn Hc Hv Hver.
  destruct (kzg_trim_srs HE g h rnd N k HN Hk) as [srs' [ck' [vk' [G1 [G2 [G3 G4]]]]]]. rewrite Hg in G1. inversion G1; subst srs'. rewrite Ht in G2. inversion G2; subst ck' vk'. clear G1 G2.
  set (tau := suffix k (trapdoor rnd N)) in *. subst ck vk.
  assert (Lt : length tau = k) by (unfold tau; apply suffix_length; rewrite trapdoor_length; exact Hk).
  destruct (hist_compile HE Hp o o sc sc' addr g h tau ops s hs D H Hadr Hdeg HD HDf H2f H2 ltac:(lia)) as [cz [t1 [r [t2 [cs [t3 [R1 [R2 [R3 HC]]]]]]]]].
  cbv zeta in HC. set (n := max_nv hs) in *. set (T := claimed_sums ops n) in *. set (X := claimed_zero ops n cz r) in *.
  destruct (HC debug) as [HC1 HC2].
  assert (Hw : debug = true -> weighted cs (T ++ [X]) = weighted cs (T ++ [F0])).
  { intros Hd. destruct (Feqb (weighted cs (T ++ [X])) (weighted cs (T ++ [F0]))) eqn:Eq; [apply Feqb_eq; exact Eq|]. apply Feqb_neq in Eq. rewrite (HC1 Hd Eq) in Hc. discriminate. }
  destruct (HC2 Hw) as [cp' [s6 [C1 [C2 [C3 [C3p [C4 [C5 [C6 _]]]]]]]]]. rewrite Hc in C1. injection C1 as <- <-. clear HC HC1 HC2.
  destruct (hist_lockstep o vdebug false _ (vk_of g h tau) cp ops vops s hs Hm H C4) as [v0 [L1 [L2 [L3 [L4 [L5 [L6 _]]]]]]].
  rewrite Hv in L1. injection L1 as <-.
  destruct (vrun_sc _ _ _ _ _ _ _ Hv) as [V1 [V2 _]]. cbn in V1, V2.
  destruct (hist_calls _ _ _ _ _ H) as [Zc [Sc [Cc Lc]]]. pose proof (hist_nonempty _ _ _ _ _ H ltac:(lia)) as He.
  assert (Lz : length (vt_zc v) = length (zero_calls ops)) by (rewrite L5, Zc, map_length; reflexivity).
  assert (Ls : length (vt_sc v) = length (sum_calls ops)) by (rewrite <- (map_length fst), L6, Sc, map_length; reflexivity).
  destruct (C6 v V1 V2 L3 L4 Lz Ls) as [C7 C8]. pose proof (C7 (ex_intro _ v' Hver)) as Hsum.
  assert (Hno : off_nodes cp).
  { destruct (off_nodes_dec cp) as [Q|Q]; [exact Q|]. rewrite (proj2 (C8 Hsum) Q) in Hver. discriminate. }
  clear C6 C7 C8.
  (* the prover's side again *)
  pose proof (prun_inv _ _ _ _ H) as Hwi. pose proof (w_inv _ Hwi) as Hi. cbn [fst] in Hi.
  assert (Hhs : hs <> []) by (intros ->; unfold n, max_nv in Hn; simpl in Hn; lia).
  destruct (hist_claims _ _ _ _ _ H) as [Cs Cz].
  destruct (equalize_spec s Hi (hist_mat _ _ _ _ _ H Hhs) Cs) as [n' [s1 [Q1 [Q2 [Q3 [Q4 [Q5 [Q6 [Q7 [Q8 [Q9 [Q10 Q11]]]]]]]]]]]].
  assert (n' = n).
  { apply (equal_max _ _ _ _ _ _ H Q9). intros hd Hh. apply (Q11 (tp_id hd)). apply (w_handles _ Hwi hd Hh). }
  subst n'. destruct (equalize_off s n s1 Hi Cs Q1) as [O1 O2]. pose proof (equalize_old _ _ _ Q1) as Vo.
  assert (Kn : forall i, i < length hs -> known s1 (tp_id (nth i hs dh)) n /\ deg_le s1 (tp_id (nth i hs dh)) D).
  { intros i Hlt. destruct (hist_at _ _ _ _ _ i H Hlt) as [I1 [I2 [I3 [I4 I5]]]]. split; [apply (Q11 _ _ I3)|].
    eapply vold_deg; [exact Vo|eapply known_lt; eassumption|]. pose proof (prun_degrees _ _ _ _ _ H) as F2.
    assert (Hne : nth_error hs i = Some (nth i hs dh)) by (apply nth_error_nth'; exact Hlt).
    destruct (Forall2_nth _ _ _ _ _ i _ 1 F2 Hne) as [D1 D2]. eapply deg_le_mono; [|exact D2]. apply Hdeg. eapply nth_error_In. exact D1. }
  assert (Cor : forall i k, i < length hs -> k < 2 ^ n -> pval s1 (tp_id (nth i hs dh)) (bpoint n k) = corner_at ops k i).
  { intros i k0 Hlt Hk0. destruct (hist_at _ _ _ _ _ i H Hlt) as [I1 [I2 [I3 [I4 I5]]]]. destruct (Q11 _ _ I3) as [A1 [A2 A3]].
    rewrite A3 by exact Hk0. rewrite I5; [reflexivity|]. apply Nat.mod_upper_bound. apply Nat.pow_nonzero. lia. }
  assert (Sf : map fst (pt_sc s1) = map (fun i => tp_id (nth i hs dh)) (sum_calls ops)) by (rewrite Q8, map_map; cbn [fst]; rewrite <- Sc; reflexivity).
  assert (Sv : forall x, map (fun cl : nat * F p => pval s1 (fst cl) x) (pt_sc s1) = map (fun i => pval s1 (tp_id (nth i hs dh)) x) (sum_calls ops)).
  { intros x. rewrite <- (map_map fst (fun id => pval s1 id x)), Sf, map_map. reflexivity. }
  assert (Zv : forall x, map (fun i => pval s1 i x) (pt_zc s1) = map (fun i => pval s1 (tp_id (nth i hs dh)) x) (zero_calls ops)).
  { intros x. rewrite Q7, Zc, map_map. reflexivity. }
  assert (Ks : all_known s1 (map fst (pt_sc s1)) n D).
  { intros id Hin. rewrite Sf in Hin. apply in_map_iff in Hin. destruct Hin as [i [<- Hin]]. apply Kn. apply Lc. auto. }
  assert (Kz : all_known s1 (pt_zc s1) n D).
  { intros id Hin. rewrite Q7, Zc in Hin. apply in_map_iff in Hin. destruct Hin as [i [<- Hin]]. apply Kn. apply Lc. auto. }
  assert (He' : is_empty (pt_tr s1) = false) by (rewrite Q4; exact He).
  destruct (claims_run o s1 n D Q2 He' ltac:(lia) HD Ks Kz)
    as [cz0 [u1 [r0 [u2 [cs0 [u3 [s2 [agg [s3 [S1 [S2 [S3 [M1 [M2 [M3 [M4 [M5 [M6 [M7 [M8 [M9 [_ M11]]]]]]]]]]]]]]]]]]]]]].
  pose proof (claims_val o s1 n D Q2 He' ltac:(lia) HD Ks Kz _ _ _ _ _ _ _ _ _ _ S1 S2 S3 M1 M2) as Val.
  assert (Lz1 : length (pt_zc s1) = length (zero_calls ops)) by (rewrite Q7, Zc, map_length; reflexivity).
  assert (Ls1 : length (pt_sc s1) = length (sum_calls ops)) by (rewrite <- (map_length fst), Sf, map_length; reflexivity).
  rewrite Lz1, Q4, R1 in S1. injection S1 as <- <-. rewrite R2 in S2. injection S2 as <- <-. rewrite Ls1, R3 in S3. injection S3 as <- <-.
  assert (Val' : forall x, length x = n -> pval s3 agg x = combination (map (fun i => pval s1 (tp_id (nth i hs dh)) x) (sum_calls ops)) (map (fun i => pval s1 (tp_id (nth i hs dh)) x) (zero_calls ops)) cz r cs x).
  { intros x Hx. rewrite (Val x Hx), Sv, Zv. reflexivity. }
  assert (Dbg : forall x, mle_ext n (fun k => pval s3 agg (bpoint n k)) x = end_debug ops n cz r cs x).
  { intros x. unfold end_debug. apply mle_ext_ext. intros j Hj. rewrite Val' by apply bpoint_length. f_equal; apply map_ext_in; intros i Hin; (apply Cor; [apply Lc; auto|exact Hj]). }
  assert (Rel : linear_calls [] ops -> (forall i, In i (zero_calls ops) -> ~ In i (sum_calls ops)) -> forall x, length x = n -> pval s3 agg x = end_release ops n cz r cs x).
  { intros Hlin Hdis x Hx. rewrite (Val' x Hx). unfold end_release. f_equal; apply map_ext_in; intros i Hin; (assert (Hlt : i < length hs) by (apply Lc; auto)).
    - assert (Hcl : exists cl, In cl (pt_sc s) /\ fst cl = tp_id (nth i hs dh)).
      { assert (Hin' : In (tp_id (nth i hs dh)) (map fst (pt_sc s))) by (rewrite Sc; apply (in_map (fun i => tp_id (nth i hs dh))); exact Hin). apply in_map_iff in Hin'. destruct Hin' as [cl [Hx1 Hx2]]. exists cl. auto. }
      destruct Hcl as [cl [Hcl1 Hcl2]]. destruct (O1 cl Hcl1) as [a [A1 A2]]. rewrite Hcl2 in A1. rewrite (mat_flat s1 _ a x A1), A2. unfold flat_point. apply mle_ext_ext. intros j Hj. apply Cor; assumption.
    - destruct (hist_at _ _ _ _ _ i H Hlt) as [I1 [I2 [I3 _]]]. unfold at_point. set (m := fst (poly_at ops i)) in *.
      destruct (Q11 _ _ I3) as [A1 _].
      rewrite <- (firstn_skipn m x) at 1. rewrite (O2 _ m); [|  |exact I3|rewrite firstn_length; lia|rewrite skipn_length; lia].
      + apply (at_value _ _ _ _ _ i _ H Hlt Hlin). rewrite firstn_length. fold m. lia.
      + rewrite Sc. intros Hc2. apply in_map_iff in Hc2. destruct Hc2 as [j [Hj1 Hj2]]. assert (Hltj : j < length hs) by (apply Lc; auto).
        assert (j = i). { pose proof (w_fresh _ Hwi) as Hf. cbn [snd] in Hf. apply (proj1 (NoDup_nth_error _) Hf j i); [rewrite map_length; exact Hltj|]. rewrite !nth_error_map, (nth_error_nth' hs dh Hltj), (nth_error_nth' hs dh Hlt). cbn. congruence. }
        subst j. exact (Hdis i Hin Hj2). }
  (* the state handed to the sum check *)
  destruct (evaluations_spec s3 agg n M3 M8) as [s4 [E1 [E2 [E3 [E4 [[ea [E5 [E6 E7]]] _]]]]]].
  assert (S4 : exists s5, tail o sc sc' addr s5 agg = Ok (cp, s') /\ pinv s5 /\ known s5 agg n /\ deg_le s5 agg (D + 1) /\ pt_tr s5 = t3 /\ cube_sum n (pval s5 agg) = cube_sum n (pval s3 agg) /\
     (debug = true -> forall x, pval s5 agg x = mle_ext n (fun k => pval s3 agg (bpoint n k)) x) /\ (debug = false -> s5 = s3)).
  { unfold compile_proof in Hc. rewrite Q1 in Hc. cbn [bind] in Hc. rewrite M1 in Hc. cbn [bind] in Hc. rewrite M2 in Hc. cbn [bind] in Hc. destruct debug.
    - rewrite E1 in Hc. cbn [bind] in Hc. destruct (ensure _ _) as [[]| |] in Hc; try discriminate Hc. cbn [bind] in Hc. exists s4. split; [exact Hc|]. split; [exact E2|].
      split; [apply (proj1 (proj2 (proj2 E3)) _ _ M8)|]. split; [eapply deg_le_mono; [|exact (evaluations_deg s3 agg n _ s4 M3 M8 E1)]; lia|].
      split; [destruct E4 as [_ [E4 _]]; congruence|]. split; [rewrite <- !ptab_sum; rewrite (ptab_ext s3 s4 agg n M8 E3); reflexivity|]. split; [|discriminate].
      intros _ x. rewrite (mat_flat s4 agg ea x E5), E6. apply mle_ext_ext. intros j Hj. apply (proj2 (proj1 (proj2 (proj2 E3)) _ _ M8)). exact Hj.
    - cbn [bind] in Hc. exists s3. split; [exact Hc|]. split; [exact M3|]. split; [exact M8|]. split; [exact M9|]. split; [exact M6|]. split; [reflexivity|]. split; [discriminate|]. auto. }
  destruct S4 as [s5 [T1 [T2 [T3 [T4 [T5 [T6 [T7 T8]]]]]]]].
  destruct (tail_end o sc sc' addr s5 agg n (D + 1) cp s' T2 T3 T4 HDf ltac:(lia) T1) as [U1 [U2 [Ud [t4 U3]]]].
  { exact (proj1 Hno). }
  rewrite T6, M11, T5 in U3.
  assert (TS : true_sums s1 n cz r = T ++ [X]).
  { unfold true_sums. f_equal.
    - rewrite <- (map_map fst (fun id => Fsum (ptab s1 id n))), Sf, map_map. apply map_ext_in. intros i Hin. assert (Hlt : i < length hs) by (apply Lc; auto).
      destruct (hist_at _ _ _ _ _ i H Hlt) as [I1 [I2 [I3 [I4 I5]]]]. destruct (Q11 _ _ I3) as [A1 [A2 A3]]. rewrite (equalized_sum s s1 _ _ n A1 A3), I4. reflexivity.
    - f_equal. unfold X, claimed_zero. apply mle_ext_ext. intros j Hj. rewrite Zv. f_equal. apply map_ext_in. intros i Hin. apply Cor; [apply Lc; auto|exact Hj]. }
  rewrite TS, <- Hsum in U3. set (x := pf_point (cp_sc cp)) in *.
  pose proof (run_draws_length o "zerocheck challenge" (length (zero_calls ops)) (pt_tr s)) as B1. rewrite R1 in B1. pose proof (run_draws_length o "0check r" n t1) as B2. rewrite R2 in B2.
  pose proof (run_draws_length o "sumcheck challenge" (length (sum_calls ops) + 1) t2) as B3. rewrite R3 in B3. cbn [fst] in B1, B2, B3.
  assert (HeV : is_empty (vt_tr v) = false) by (rewrite L3; exact He).
  assert (R1' : run_draws o "zerocheck challenge" (length (vt_zc v)) (vt_tr v) = (cz, t1)) by (rewrite Lz, L3; exact R1).
  assert (R2' : run_draws o "0check r" (cp_nv (vt_proof v)) t1 = (r, t2)) by (rewrite V1, U1; exact R2).
  assert (R3' : run_draws o "sumcheck challenge" (length (vt_sc v) + 1) t2 = (cs, t3)) by (rewrite Ls; exact R3).
  assert (Hend : sc_end o v = Ok (x, pval s5 agg x)).
  { rewrite (end_run o v HeV cz t1 r t2 cs t3 R1' R2' R3'). cbv zeta. rewrite V1, U1, U3. reflexivity. }
  assert (Hr : exists rest, SpecIop.drawn (vt_tr v) (vt_tr v') = cz ++ r ++ cs ++ x ++ rest).
  { destruct (verify_run o v HeV cz t1 r t2 cs t3 R1' R2' R3') as [v2 [_ Ew]]. rewrite Ew in Hver. cbn zeta in Hver. rewrite V1, U1, U3 in Hver. cbn [map_err bind] in Hver.
    apply bind_ok_inv in Hver. destruct Hver as [co [_ Hw2]]. apply bind_ok_inv in Hw2. destruct Hw2 as [bp [_ Hw2]]. apply bind_ok_inv in Hw2. destruct Hw2 as [[b t5] [Hbv Hw2]]. injection Hw2 as <-.
    destruct (grows_batch _ _ _ _ _ _ _ _ Hbv) as [rest G5]. exists rest. cbn [set_vtr vt_tr]. apply grows_drawn.
    pose proof (grows_draws o "zerocheck challenge" (length (vt_zc v)) (vt_tr v)) as G1. rewrite R1' in G1. pose proof (grows_draws o "0check r" n t1) as G2. rewrite R2 in G2. pose proof (grows_draws o "sumcheck challenge" (length (vt_sc v) + 1) t2) as G3. rewrite R3' in G3.
    assert (Rm : exists ms, run_msgs o ms (append "aux info" (PAux (cp_deg cp) n) t3) = (x, t4)).
    { apply (sc_verify_ok Hp) in U3; [|lia|lia]. destruct U3 as [_ [_ [Rm _]]]. eexists. exact Rm. }
    destruct Rm as [ms Rm]. pose proof (grows_msgs o ms (append "aux info" (PAux (cp_deg cp) n) t3)) as G4. rewrite Rm in G4. cbn [fst snd] in *.
    eapply grows_trans; [exact G1|]. eapply grows_trans; [exact G2|]. eapply grows_trans; [exact G3|]. eapply grows_trans; [|exact G5]. apply (grows_trans t3 (append "aux info" (PAux (cp_deg cp) n) t3) t4 [] x); [apply grows_msg; discriminate|exact G4]. }
  destruct Hr as [rest Hr]. exists cz, r, cs, x, (pval s5 agg x), rest. split; [exists t1, t2, t3; auto|]. split; [exact C4|].
  split; [exact B1|]. split; [exact B2|]. split; [exact B3|]. split; [exact U2|]. split; [exact Hr|]. split; [exact Hend|]. split.
  - intros Hd. rewrite (T7 Hd x). apply Dbg.
  - intros Hd Hlin Hdis. rewrite (T8 Hd). apply Rel; assumption.
Qed.

Lemma hist_end : forall (o : oracle p comm) sc sc' addr debug vdebug g h rnd N k srs ck vk ops vops s hs D cp s' v v',
  1 <= N -> k <= N -> gen_srs E g h rnd N = Ok srs -> kzg_trim srs None (Some k) = Ok (ck, vk) -> distinct_addresses addr ->
  prun o ck ops = Ok (s, hs) -> mirror false ck ops vops ->
  (forall d, In d (degrees ops) -> d <= D) -> 1 <= D -> D + 1 < fsize p -> 2 < fsize p ->
  2 <= commit_calls ops -> 0 < max_nv hs <= k ->
  compile_proof o sc sc' addr debug s = Ok (cp, s') -> vrun o vdebug vk cp vops = Ok (v, map tp_id hs) -> verify_claims o v = Ok v' ->
  exists zs r cs x y rest, length zs = length (zero_calls ops) /\ length r = max_nv hs /\ length cs = length (sum_calls ops) + 1 /\ length x = max_nv hs /\
    SpecIop.drawn (vt_tr v) (vt_tr v') = zs ++ r ++ cs ++ x ++ rest /\ sc_end o v = Ok (x, y) /\
    (debug = true -> y = end_debug ops (max_nv hs) zs r cs x) /\
    (debug = false -> linear_calls [] ops -> (forall i, In i (zero_calls ops) -> ~ In i (sum_calls ops)) -> y = end_release ops (max_nv hs) zs r cs x).
Proof.
  intros o sc sc' addr debug vdebug g h rnd N k srs ck vk ops vops s hs D cp s' v v' HN Hk Hg Ht Hadr H Hm Hdeg HD HDf H2f H2 Hn Hc Hv Hver.
  destruct (hist_runs o sc sc' addr debug vdebug g h rnd N k srs ck vk ops vops s hs D cp s' v v' HN Hk Hg Ht Hadr H Hm Hdeg HD HDf H2f H2 Hn Hc Hv Hver) as [zs [r [cs [x [y [rest [_ [_ A]]]]]]]].
  exists zs, r, cs, x, y, rest. exact A.
Qed.

(** ** The polynomials that the verifier combines *)
Lemma mle_ext_mod : forall m n (f : nat -> F p) x y, m <= n -> length x = m -> length y = n - m -> mle_ext n (fun k => f (k mod 2 ^ m)) (x ++ y) = mle_ext m f x.
Proof.
  intros m n f x y Hmn Hx Hy. replace n with (m + (n - m)) by lia. rewrite mle_ext_app by exact Hx.
  rewrite <- (mle_ext_const (n - m) (mle_ext m f x) y Hy). apply mle_ext_ext. intros k _.
  apply mle_ext_ext. intros j Hj. f_equal. rewrite (Nat.mul_comm (2 ^ m) k), Nat.mod_add by (apply Nat.pow_nonzero; lia). apply Nat.mod_small. exact Hj.
Qed.
Lemma flat_at : forall (ops : list (pop p)) n x i, multilinear (poly_at ops i) -> fst (poly_at ops i) <= n -> length x = n -> flat_point ops n x i = at_point ops x i.
Proof.
  intros ops n x i Hm Hle Hx. unfold flat_point, at_point, corner_at. set (m := fst (poly_at ops i)) in *.
  rewrite (Hm (firstn m x)) by (fold m; rewrite firstn_length; lia). fold m.
  rewrite <- (firstn_skipn m x) at 1. apply (mle_ext_mod m n (tab (corners (poly_at ops i)))); [exact Hle|rewrite firstn_length; lia|rewrite skipn_length; lia].
Qed.
Lemma end_multilinear : forall (o : oracle p comm) pp ops s hs zs r cs x, prun o pp ops = Ok (s, hs) -> (forall i, In i (sum_calls ops) -> multilinear (poly_at ops i)) -> length x = max_nv hs ->
  end_release ops (max_nv hs) zs r cs x = end_true ops zs r cs x.
Proof.
  intros o pp ops s hs zs r cs x H Hm Hx. unfold end_release, end_true. f_equal. apply map_ext_in. intros i Hi. apply flat_at; [apply Hm; exact Hi| |exact Hx].
  destruct (hist_calls _ _ _ _ _ H) as [_ [_ [_ Lc]]]. destruct (hist_at _ _ _ _ _ i H ltac:(apply Lc; auto)) as [I1 [I2 _]]. rewrite <- I2.
  unfold max_nv. apply max_ge. apply in_map. exact I1.
Qed.
End T.
