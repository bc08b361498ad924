(** Sessions with several proofs: one proof and its verification, from any state of the two trackers. *)
From Coq Require Import String List Arith Lia Bool ZArith Znumtheory.
Import ListNotations.
From Verif Require Import Res ResLemmas Fp FSum SpecMle SpecVp SpecKzg SpecPoly SpecSumcheck SpecBatch SpecTracker ModelMle MleLemmas MleProofs MleExtra ModelVp VpHist VpProofs VpExtra
  ModelTranscript ModelSumcheck SumcheckVerify ZerocheckProofs TranscriptProofs Pairing ModelKzg KzgProofs KzgExtra ModelBatch BatchProofs BatchExtra
  ModelProver ModelVerifier ProverHist VerifierHist CompileHist TmapLemmas ProverProofs ProverExtra ProverStep DegreeProofs EqualizeProofs CompileProofs CompileExtra NodeProofs HistExtra CompileMain CompileSound LockProofs.
Local Open Scope string_scope.
Local Open Scope list_scope.
Local Open Scope nat_scope.

Section S.
Context {p : positive} {E : pairing p}.
Hypothesis HE : pairing_laws E.
Hypothesis Hp : prime (Zpos p).
Add Ring Fr : (@F_ring p).
Implicit Types s : ptrk E.
Implicit Types v : vtrk E.
Local Notation comm := (gcar (PG1 E)).
Local Arguments mput : simpl never.

(** Every materialized polynomial has [n] variables. *)
Definition matflat s (n : nat) : Prop := forall id a, mget (pt_mat s) id = Some a -> nv (snd a) = n.

Lemma matflat_known : forall s n id m, matflat s n -> known s id m -> m = n.
Proof.
  clear HE Hp. intros s n id m Hf [[a [A <-]]|[w [A [B C]]]]; [apply (Hf id a A)|].
  destruct w as [|[c pr] w]; [congruence|]. destruct (C c pr (or_introl eq_refl)) as [C1 C2]. destruct pr as [|i pr]; [congruence|].
  destruct (C2 i (or_introl eq_refl)) as [a [C3 C4]]. rewrite <- C4. symmetry. exact (eq_sym (Hf i a C3)).
Qed.

(** ** Ids *)
Definition bumps (k : nat) s s' : Prop :=
  pt_next s' = k + pt_next s /\ pt_mat s' = pt_mat s /\ pt_zc s' = pt_zc s /\ pt_sc s' = pt_sc s.

Lemma mul_scalar_bumps : forall s id c i s', mul_scalar s id c = Ok (i, s') -> i = pt_next s /\ bumps 1 s s'.
Proof.
  clear HE Hp. intros s id c i s' H. unfold mul_scalar in H. destruct (mget (pt_mat s) id).
  - inversion H; subst. repeat split.
  - destruct (mget (pt_virt s) id); [|discriminate]. cbn [ounwrap bind] in H. inversion H; subst. repeat split.
Qed.
Lemma add_polys_bumps : forall s a b i s', add_polys s a b = Ok (i, s') -> i = pt_next s /\ bumps 1 s s'.
Proof.
  clear HE Hp. intros s a b i s' H. unfold add_polys, add_sub_polys in H. destruct (get_rep s a); try discriminate. destruct (get_rep s b); try discriminate.
  cbn [bind] in H. inversion H; subst. repeat split.
Qed.
Lemma mul_polys_bumps : forall s a b i s', mul_polys s a b = Ok (i, s') -> i = pt_next s /\ bumps 1 s s'.
Proof.
  clear HE Hp. intros s a b i s' H. unfold mul_polys in H. destruct (get_rep s a); try discriminate. destruct (get_rep s b); try discriminate.
  cbn [bind] in H. inversion H; subst. repeat split.
Qed.

Lemma track_bumps : forall s m n i s', matflat s n -> nv m = n -> track_mat_poly s m = (i, s') ->
  i = pt_next s /\ pt_next s' = 1 + pt_next s /\ pt_zc s' = pt_zc s /\ pt_sc s' = pt_sc s /\ matflat s' n.
Proof.
  clear HE Hp. intros s m n i s' Hf Hm H. unfold track_mat_poly, new_arc, track_mat_arc_poly, gen_id, put_mat in H. inversion H; subst. cbn. repeat split.
  intros i a Ha. cbn in Ha. rewrite mget_mput in Ha. destruct (Nat.eqb _ _); [inversion Ha; reflexivity|apply (Hf i a Ha)].
Qed.
Lemma bumps_flat : forall k s s' n, bumps k s s' -> matflat s n -> matflat s' n.
Proof. clear HE Hp. intros k s s' n [_ [H _]] Hf i a Ha. rewrite H in Ha. exact (Hf i a Ha). Qed.
Lemma bumps_trans : forall j k a b c, bumps j a b -> bumps k b c -> bumps (j + k) a c.
Proof. clear HE Hp. intros j k a b c [A1 [A2 [A3 A4]]] [B1 [B2 [B3 B4]]]. repeat split; try congruence. lia. Qed.

Lemma convert_loop_ids : forall (o : oracle p comm) ids agg s r, foldM (fun (acc : nat * ptrk E) (cl : nat) =>
        ' (c, s') <- unwrap (pt_challenge o "zerocheck challenge" (snd acc)) ;;
        ' (id, s'') <- mul_scalar s' cl c ;;
        add_polys s'' (fst acc) id) (agg, s) ids = Ok r -> bumps (2 * length ids) s (snd r).
Proof.
  clear HE Hp. intros o ids. induction ids as [|i ids IH]; intros agg s r H; cbn [foldM] in H; [inversion H; subst; repeat split|].
  apply bind_ok_inv in H. destruct H as [[a s3] [H H2]]. cbn [fst snd] in H. unfold pt_challenge in H. destruct (drawT o _ (pt_tr s)) as [[c t]| |]; try discriminate. cbn [bind unwrap] in H.
  apply bind_ok_inv in H. destruct H as [[j s2] [M1 M2]]. apply mul_scalar_bumps in M1. apply add_polys_bumps in M2. apply IH in H2.
  replace (2 * length (i :: ids)) with (1 + 1 + 2 * length ids) by (cbn [length]; lia). eapply bumps_trans; [|exact H2]. eapply bumps_trans; [|apply M2].
  destruct M1 as [_ M1]. exact M1.
Qed.

Lemma convert_ids : forall (o : oracle p comm) n s s', matflat s n -> convert_zerocheck_claims o n s = Ok s' ->
  let id := 2 + 2 * length (pt_zc s) + pt_next s in
  pt_next s' = S id /\ pt_zc s' = pt_zc s /\ pt_sc s' = pt_sc s ++ [(id, F0)] /\ matflat s' n.
Proof.
  clear HE. intros o n s s' Hf H id. unfold convert_zerocheck_claims in H. unfold zero_mle in H. rewrite from_evaluations_ok in H by apply repeat_length. cbn [bind] in H.
  destruct (track_mat_poly s (mkMle n (repeat F0 (2 ^ n)))) as [agg0 s0] eqn:T0. apply (track_bumps _ _ n) in T0; [|exact Hf|reflexivity]. destruct T0 as [_ [A1 [A2 [A3 A4]]]].
  apply bind_ok_inv in H. destruct H as [[agg s1] [L H]]. apply convert_loop_ids in L. cbn [snd] in L. pose proof (bumps_flat _ _ _ _ L A4) as F1'. destruct L as [L1 [L2 [L3 L4]]].
  apply bind_ok_inv in H. destruct H as [[r t] [R H]].
  assert (Lr : length r = n).
  { destruct (is_empty (pt_tr s1)) eqn:He; [rewrite draw_vecT_empty in R by exact He; discriminate|]. rewrite draw_vecT_ok in R by exact He.
    pose proof (run_draws_length o "0check r" n (pt_tr s1)) as X. cbn [unwrap] in R. inversion R as [Q]. rewrite Q in X. exact X. }
  apply bind_ok_inv in H. destruct H as [eq [Eq H]].
  assert (Le : nv eq = n).
  { unfold build_eq_x_r in Eq. destruct (build_eq_x_r_vec r) as [ev| |]; cbn [bind unwrap] in Eq; try discriminate. unfold from_evaluations in Eq.
    destruct (length ev =? 2 ^ length r); cbn [unwrap] in Eq; [|discriminate]. inversion Eq; subst. reflexivity. }
  destruct (track_mat_poly (set_tr s1 t) eq) as [eqid s3] eqn:T3. apply (track_bumps _ _ n) in T3; [|exact F1'|exact Le]. destruct T3 as [_ [B1 [B2 [B3 B4]]]].
  apply bind_ok_inv in H. destruct H as [[i s4] [M H]]. apply mul_polys_bumps in M. destruct M as [-> M]. pose proof (bumps_flat _ _ _ _ M B4) as F4. destruct M as [M1 [M2 [M3 M4]]].
  inversion H; subst s'. cbn [add_sumcheck_claim pt_next pt_zc pt_sc set_tr] in *. unfold id. rewrite A2 in *.
  split; [lia|]. split; [congruence|]. split; [|exact F4]. rewrite M4, B3, L4, A3. do 3 f_equal. lia.
Qed.

Lemma aggregate_loop_ids : forall (o : oracle p comm) cls agg sum s r, foldM (fun (acc : nat * F p * ptrk E) (cl : nat * F p) =>
        let '(agg, sum, s) := acc in
        ' (c, s') <- unwrap (pt_challenge o "sumcheck challenge" s) ;;
        ' (id, s'') <- mul_scalar s' (fst cl) c ;;
        ' (agg', s''') <- add_polys s'' agg id ;;
        Ok (agg', (sum + snd cl * c)%F, s''')) (agg, sum, s) cls = Ok r -> bumps (2 * length cls) s (snd r).
Proof.
  clear HE Hp. intros o cls. induction cls as [|i cls IH]; intros agg sum s r H; cbn [foldM] in H; [inversion H; subst; repeat split|].
  apply bind_ok_inv in H. destruct H as [[[a su] s3] [H H2]]. cbn [fst snd] in H. unfold pt_challenge in H. destruct (drawT o _ (pt_tr s)) as [[c t]| |]; try discriminate. cbn [bind unwrap] in H.
  apply bind_ok_inv in H. destruct H as [[j s2] [M1 M2]]. apply mul_scalar_bumps in M1. apply bind_ok_inv in M2. destruct M2 as [[j' s4] [M2 M3]]. apply add_polys_bumps in M2. inversion M3; subst. apply IH in H2.
  replace (2 * length (i :: cls)) with (1 + 1 + 2 * length cls) by (cbn [length]; lia). eapply bumps_trans; [|exact H2]. eapply bumps_trans; [|apply M2].
  destruct M1 as [_ M1]. exact M1.
Qed.
Lemma aggregate_ids : forall (o : oracle p comm) n s agg sum s', matflat s n -> aggregate_sumcheck_claims o n s = Ok (agg, sum, s') ->
  pt_next s' = 1 + 2 * length (pt_sc s) + pt_next s /\ pt_zc s' = pt_zc s /\ pt_sc s' = pt_sc s /\ matflat s' n.
Proof.
  clear HE Hp. intros o n s agg sum s' Hf H. unfold aggregate_sumcheck_claims in H. unfold zero_mle in H. rewrite from_evaluations_ok in H by apply repeat_length. cbn [bind] in H.
  destruct (track_mat_poly s (mkMle n (repeat F0 (2 ^ n)))) as [agg0 s0] eqn:T0. apply (track_bumps _ _ n) in T0; [|exact Hf|reflexivity]. destruct T0 as [_ [A1 [A2 [A3 A4]]]].
  apply aggregate_loop_ids in H. cbn [snd] in H. pose proof (bumps_flat _ _ _ _ H A4) as F1'. destruct H as [L1 [L2 [L3 L4]]]. rewrite A3 in *.
  split; [lia|]. split; [congruence|]. split; [congruence|exact F1'].
Qed.

(** The same on the verifier's side. *)
Lemma v_convert_ids : forall (o : oracle p comm) n v v', v_convert_zerocheck_claims o n v = Ok v' ->
  let id := 2 + 2 * length (vt_zc v) + vt_next v in
  vt_next v' = S id /\ vt_zc v' = vt_zc v /\ vt_sc v' = vt_sc v ++ [(id, F0)].
Proof.
  clear HE Hp. intros o n v v' H id. unfold v_convert_zerocheck_claims in H.
  cbn [track_virtual_comm track_virtual v_gen_id] in H.
  assert (L : forall ids agg v r, foldM (fun (acc : nat * vtrk E) (cl : nat) =>
        ' (c, v') <- unwrap (vt_challenge o "zerocheck challenge" (snd acc)) ;;
        let '(id, v'') := v_mul_scalar v' cl c in
        Ok (add_comms v'' (fst acc) id)) (agg, v) ids = Ok r ->
      vt_next (snd r) = 2 * length ids + vt_next v /\ vt_zc (snd r) = vt_zc v /\ vt_sc (snd r) = vt_sc v).
  { clear. induction ids as [|i ids IH]; intros agg v r H; cbn [foldM] in H; [inversion H; subst; auto|].
    apply bind_ok_inv in H. destruct H as [[a v1] [H H2]]. cbn [fst snd] in H. unfold vt_challenge in H. destruct (drawT o _ (vt_tr v)) as [[c t]| |]; try discriminate. cbn [bind unwrap] in H.
    cbn [v_mul_scalar track_virtual v_gen_id add_comms] in H. apply IH in H2. inversion H; subst. destruct H2 as [A [B C]]. cbn in A, B, C. cbn [length]. split; [lia|]. auto. }
  apply bind_ok_inv in H. destruct H as [[agg v1] [H1 H]]. apply L in H1. cbn in H1. destruct H1 as [A [B C]].
  apply bind_ok_inv in H. destruct H as [[r t] [_ H]]. cbn in H. inversion H; subst. cbn. unfold id. rewrite B, C, A. split; [lia|]. split; [reflexivity|]. do 3 f_equal. lia.
Qed.
Lemma v_aggregate_ids : forall (o : oracle p comm) v agg sum v', v_aggregate_sumcheck_claims o v = Ok (agg, sum, v') ->
  vt_next v' = 1 + 2 * length (vt_sc v) + vt_next v /\ vt_zc v' = vt_zc v /\ vt_sc v' = vt_sc v.
Proof.
  clear HE Hp. intros o v agg sum v' H. unfold v_aggregate_sumcheck_claims in H.
  cbn [track_virtual_comm track_virtual v_gen_id] in H.
  assert (L : forall cls agg sum v r, foldM (fun (acc : nat * F p * vtrk E) (cl : nat * F p) =>
        let '(agg, sum, v) := acc in
        ' (c, v') <- unwrap (vt_challenge o "sumcheck challenge" v) ;;
        let '(id, v'') := v_mul_scalar v' (fst cl) c in
        let '(agg', v''') := add_comms v'' agg id in
        Ok (agg', (sum + snd cl * c)%F, v''')) (agg, sum, v) cls = Ok r ->
      vt_next (snd r) = 2 * length cls + vt_next v /\ vt_zc (snd r) = vt_zc v /\ vt_sc (snd r) = vt_sc v).
  { clear. induction cls as [|i cls IH]; intros agg sum v r H; cbn [foldM] in H; [inversion H; subst; auto|].
    apply bind_ok_inv in H. destruct H as [[[a su] v1] [H H2]]. cbn [fst snd] in H. unfold vt_challenge in H. destruct (drawT o _ (vt_tr v)) as [[c t]| |]; try discriminate. cbn [bind unwrap] in H.
    cbn [v_mul_scalar track_virtual v_gen_id add_comms] in H. apply IH in H2. inversion H; subst. destruct H2 as [A [B C]]. cbn in A, B, C. cbn [length]. split; [lia|]. auto. }
  apply L in H. cbn in H. destruct H as [A [B C]]. split; [lia|]. auto.
Qed.
Lemma verify_ids : forall (o : oracle p comm) v v', verify_claims o v = Ok v' ->
  let id := 2 + 2 * length (vt_zc v) + vt_next v in
  vt_next v' = 1 + 2 * (length (vt_sc v) + 1) + S id /\ vt_zc v' = vt_zc v /\ vt_sc v' = vt_sc v ++ [(id, F0)].
Proof.
  clear HE Hp. intros o v v' H id. unfold verify_claims in H. apply bind_ok_inv in H. destruct H as [v1 [H1 H]]. apply v_convert_ids in H1. cbv zeta in H1. destruct H1 as [A1 [A2 A3]].
  apply bind_ok_inv in H. destruct H as [[[agg sum] v2] [H1 H]]. apply v_aggregate_ids in H1. destruct H1 as [B1 [B2 B3]].
  apply bind_ok_inv in H. destruct H as [[sub t] [_ H]]. apply bind_ok_inv in H. destruct H as [comms [_ H]]. apply bind_ok_inv in H. destruct H as [bp [_ H]].
  apply bind_ok_inv in H. destruct H as [[b t'] [_ H]]. inversion H; subst. cbn. rewrite A3 in B3. rewrite A3, app_length in B1. cbn [length] in B1. unfold id. split; [lia|]. split; [congruence|exact B3].
Qed.

(** ** Compiling from a state whose polynomials all have [n] variables *)
Lemma sums_mat : forall n (l : list (nat * F p)) acc s r, pinv s -> (forall cl, In cl l -> known s (fst cl) n) ->
  foldM (fun (acc : list (nat * F p) * ptrk E) (cl : nat * F p) =>
          ' (ev, s') <- evaluations (snd acc) (fst cl) ;;
          Ok (fst acc ++ [(fst cl, fold_left Fadd ev F0)], s')) (acc, s) l = Ok r ->
  (forall id a, mget (pt_mat s) id = Some a -> mget (pt_mat (snd r)) id = Some a) /\ forall cl, In cl l -> exists a, mget (pt_mat (snd r)) (fst cl) = Some a.
Proof.
  clear HE Hp. intros n l. induction l as [|cl l IH]; intros acc s r Hi Hl H; [inversion H; subst; split; [auto|intros cl []]|].
  destruct (evaluations_spec s (fst cl) n Hi (Hl cl (or_introl eq_refl))) as [s1 [E1 [E2 [E3 [E4 [[a [E5 _]] _]]]]]].
  cbn [foldM fst snd] in H. rewrite E1 in H. cbn [bind] in H. destruct (IH _ _ _ E2 ltac:(intros c Hc; apply (proj1 (proj2 (proj2 E3)) _ _ (Hl c (or_intror Hc)))) H) as [A B].
  split; [intros id b Hb; apply A; apply (proj2 (proj2 (proj2 (proj2 E3)))); exact Hb|]. intros c [<-|Hc]; [exists a; apply A; exact E5|apply B; exact Hc].
Qed.

Lemma flat_step : forall n s s', pinv s -> pinv s' -> pt_next s' = pt_next s -> (forall id m, known s id m -> m = n /\ known s' id n) -> matflat s' n.
Proof.
  clear HE Hp. intros n s s' Hi Hi' Hn Hk id a Ha.
  assert (K : known s' id (nv (snd a))) by (left; exists a; auto).
  pose proof (known_lt s' id _ Hi' K) as Hlt. rewrite Hn in Hlt. destruct (lt_known s id Hi Hlt) as [m Hm].
  exact (known_unique s' id _ _ Hi' K (proj2 (Hk id m Hm))).
Qed.

(** What equalizing does to a flat state. *)
Lemma equalize_flat : forall s n, pinv s -> pt_mat s <> [] -> (forall cl, In cl (pt_sc s) -> fst cl < pt_next s) -> matflat s n ->
  exists s', equalize_materialized_poly_nv s = Ok (n, s') /\ pinv s' /\ pt_tr s' = pt_tr s /\ pt_next s' = pt_next s /\ pt_comm s' = pt_comm s /\ pt_zc s' = pt_zc s /\
    pt_sc s' = map (fun cl => (fst cl, Fsum (ptab s (fst cl) n))) (pt_sc s) /\ ext s s' /\ vold s s' /\ matflat s' n /\
    (forall cl, In cl (pt_sc s) -> exists a, mget (pt_mat s') (fst cl) = Some a).
Proof.
  clear HE Hp. intros s n Hi Hne Hcl Hf.
  destruct (equalize_spec s Hi Hne Hcl) as [n' [s1 [Q1 [Q2 [Q3 [Q4 [Q5 [Q6 [Q7 [Q8 [[i0 [a0 [Q9 Q9n]]] [Q10 Q11]]]]]]]]]]]].
  assert (n' = n) by (rewrite <- Q9n; apply (Hf i0 a0 Q9)). clear Q9 Q9n i0 a0. subst n'.
  assert (Kn : forall id m, known s id m -> m = n /\ known s1 id n) by (intros id m Hk; split; [apply (matflat_known s n id m Hf Hk)|apply (Q11 id m Hk)]).
  pose proof (flat_step n s s1 Hi Q2 Q5 Kn) as Hf1.
  assert (Same : forall id m, known s id m -> forall k, k < 2 ^ m -> pval s1 id (bpoint m k) = pval s id (bpoint m k)).
  { intros id m Hk k Hlt. destruct (Kn id m Hk) as [-> K]. destruct (Q11 id n Hk) as [_ [_ V]]. rewrite (V k Hlt), Nat.mod_small by exact Hlt. reflexivity. }
  assert (Mat : (forall id a, mget (pt_mat s) id = Some a -> mget (pt_mat s1) id = Some a) /\ forall cl, In cl (pt_sc s) -> exists a, mget (pt_mat s1) (fst cl) = Some a).
  { clear Q3 Q4 Q5 Q6 Q7 Q8 Q10 Q11 Kn Hf1 Same. unfold equalize_materialized_poly_nv in Q1.
    destruct (match pt_mat s with [] => Panic | _ => _ end) as [m| |]; try discriminate. cbn [bind] in Q1.
    assert (L : forall (l : list (nat * arc p)) (st0 : ptrk E), (forall e : nat * arc p, In e l -> nv (snd (snd e)) = n) -> m = n -> foldM (fun (s : ptrk E) (e : nat * arc p) =>
          if nv (snd (snd e)) =? m then Ok s
          else m0 <- dmle_increase_nv_back (snd (snd e)) m ;;
               let '(a, s') := new_arc s m0 in Ok (put_mat s' (fst e) a)) st0 l = Ok st0).
    { intros l st0 Hl Hm. clear - Hl Hm. revert st0 Hl. subst m. induction l as [|e l IHl]; intros st0 Hl; [reflexivity|]. cbn [foldM]. rewrite (Hl e (or_introl eq_refl)), Nat.eqb_refl. cbn [bind]. apply IHl. intros; apply Hl; right; assumption. }
    assert (Hmn : m = n).
    { match type of Q1 with bind ?x _ = _ => destruct x as [w| |]; try discriminate end. cbn [bind] in Q1.
      match type of Q1 with bind ?x _ = _ => destruct x as [[sums w2]| |]; try discriminate end. cbn [bind] in Q1. inversion Q1. reflexivity. }
    rewrite L in Q1; [|intros [id a] Hin; cbn [snd]; apply (Hf id a); apply in_mget; [apply (i_nodup s Hi)|exact Hin]|exact Hmn]. cbn [bind] in Q1.
    match type of Q1 with bind ?x _ = _ => destruct x as [[sums w2]| |] eqn:Ef; try discriminate end. cbn [bind] in Q1.
    destruct (sums_mat n _ _ _ _ Hi ltac:(intros cl Hin; destruct (lt_known s (fst cl) Hi (Hcl cl Hin)) as [m' Hm']; rewrite (matflat_known s n _ _ Hf Hm') in Hm'; exact Hm') Ef) as [A B].
    cbn [snd] in A, B. inversion Q1; subst. cbn [pt_mat]. auto. }
  assert (X : ext s s1).
  { split; [exact Q3|]. split; [lia|]. split; [|split; [intros id c Hc; rewrite Q6; exact Hc|apply Mat]].
    intros id m Hk. destruct (Kn id m Hk) as [-> K]. split; [exact K|apply Same; exact Hk]. }
  exists s1. split; [exact Q1|]. split; [exact Q2|]. split; [exact Q4|]. split; [exact Q5|]. split; [exact Q6|]. split; [exact Q7|]. split.
  { rewrite Q8. apply map_ext_in. intros cl Hin. f_equal. destruct (lt_known s (fst cl) Hi (Hcl cl Hin)) as [m Hm]. pose proof (matflat_known s n _ _ Hf Hm). subst m.
    rewrite (ptab_ext s s1 _ n Hm X). reflexivity. }
  split; [exact X|]. split; [exact (equalize_old _ _ _ Q1)|]. split; [exact Hf1|apply Mat].
Qed.

Lemma fold_sums_other : forall (l : list (nat * F p)) m id, ~ In id (map fst l) -> mget (fold_left (fun m (cl : nat * F p) => mput m (fst cl) (snd cl)) l m) id = mget m id.
Proof.
  clear HE Hp. induction l as [|[j b] l IH]; intros m id Hn; [reflexivity|]. cbn [fold_left fst snd]. cbn [map fst In] in Hn. rewrite IH by tauto. rewrite mget_mput. destruct (Nat.eqb_spec j id); [exfalso; tauto|reflexivity].
Qed.

Lemma round_compile : forall (o : oracle p comm) sc sc' addr debug g h (tau : list (F p)) s n D,
  pinv s -> pt_mat s <> [] -> matflat s n -> is_empty (pt_tr s) = false -> pt_pp s = srs_pp (srs_of g h tau) -> distinct_addresses addr ->
  (forall cl, In cl (pt_sc s) -> fst cl < pt_next s) -> (forall i, In i (pt_zc s) -> i < pt_next s /\ deg_le s i D /\ forall k, k < 2 ^ n -> pval s i (bpoint n k) = F0) ->
  1 <= D -> D + 1 < fsize p -> 2 < fsize p -> 2 <= length (pt_comm s) -> 0 < n <= length tau ->
  let zid := 2 + 2 * length (pt_zc s) + pt_next s in
  exists cp s', compile_proof o sc sc' addr debug s = Ok (cp, s') /\
    pinv s' /\ ext s s' /\ vold s s' /\ matflat s' n /\ pt_comm s' = pt_comm s /\ pt_zc s' = pt_zc s /\ is_empty (pt_tr s') = false /\
    pt_sc s' = map (fun cl => (fst cl, Fsum (ptab s (fst cl) n))) (pt_sc s) ++ [(zid, F0)] /\ Fsum (ptab s' zid n) = F0 /\
    pt_next s' = 1 + 2 * (length (pt_sc s) + 1) + S zid /\
    cp_comms cp = pt_comm s /\ cp_nv cp = n /\ cp_deg cp <= D + 1 /\
    (forall id, In id (map fst (pt_sc s)) -> mget (cp_sums cp) id = Some (Fsum (ptab s id n))) /\
    (forall v, vt_proof v = cp -> vt_vk v = vk_of g h tau -> vt_tr v = pt_tr s -> vt_mat v = pt_comm s -> length (vt_zc v) = length (pt_zc s) ->
       map snd (vt_sc v) = map (fun cl => Fsum (ptab s (fst cl) n)) (pt_sc s) ->
       (off_nodes cp -> exists v', verify_claims o v = Ok v' /\ vt_tr v' = pt_tr s') /\ (~ off_nodes cp -> verify_claims o v = Panic)).
Proof.
  intros o sc sc' addr debug g h tau s n D Hi Hne Hf He Hpp Hadr Hsc Hzc HD HDf H2f H2 Hn zid.
  destruct (equalize_flat s n Hi Hne Hsc Hf) as [s1 [Q1 [Q2 [Q4 [Q5 [Q6 [Q7 [Q8 [Q9 [Q10 [Q11 Q12]]]]]]]]]]].
  assert (Kn : forall id, id < pt_next s -> known s id n).
  { intros id Hlt. destruct (lt_known s id Hi Hlt) as [m Hm]. rewrite <- (matflat_known s n id m Hf Hm). exact Hm. }
  assert (Ks : all_known s1 (map fst (pt_sc s1)) n D).
  { intros id Hin. rewrite Q8, map_map in Hin. apply in_map_iff in Hin. destruct Hin as [cl [<- Hin]]. cbn [fst]. destruct (Q12 cl Hin) as [a Ha]. split.
    - left. exists a. split; [exact Ha|apply (Q11 _ _ Ha)].
    - split; [exact HD|]. intros w Hw. exfalso. eapply (i_disj s1); eassumption. }
  assert (Kz : all_known s1 (pt_zc s1) n D).
  { intros id Hin. rewrite Q7 in Hin. destruct (Hzc id Hin) as [Z1 [Z2 _]]. split; [apply (proj1 (proj2 (proj2 Q9)) id n (Kn id Z1))|]. eapply vold_deg; eassumption. }
  assert (He1 : is_empty (pt_tr s1) = false) by (rewrite Q4; exact He).
  destruct (claims_run o s1 n D Q2 He1 ltac:(lia) HD Ks Kz)
    as [cz [t1 [r [t2 [cs [t3 [s2 [agg [s3 [R1 [R2 [R3 [M1 [M2 [M3 [M4 [M5 [M6 [M7 [M8 [M9 [_ M11]]]]]]]]]]]]]]]]]]]]]].
  destruct (convert_ids o n s1 s2 Q11 M1) as [I1 [I2 [I3 I4]]]. destruct (aggregate_ids o n s2 agg _ s3 I4 M2) as [J1 [J2 [J3 J4]]].
  rewrite Q7, Q5 in I1, I3. fold zid in I1, I3.
  (* the converted claim *)
  destruct (convert_spec o n D s1 Q2 He1 ltac:(lia) HD Kz) as [cz' [t1' [r' [t2' [id' [s2' [C1 [C2 [C3 [C4 [C5 [C6 [C7 [C8 [C9 [C9n [C10 [C11 C12]]]]]]]]]]]]]]]]]].
  rewrite M1 in C3. injection C3 as <-. assert (id' = zid). { rewrite I3 in C9. apply app_inj_tail in C9. destruct C9 as [_ C9]. inversion C9. reflexivity. } subst id'.
  destruct (aggregate_spec o n (D + 1) s2 C4) as [cs' [t3' [agg' [s3' [A1 [A2 [A3 [A4 [A5 [A6 [A7 [A8 [A9 [A10 A11]]]]]]]]]]]]]].
  { rewrite C8. assert (He1' : is_empty t1' = false).
    { pose proof (proj1 (run_draws_nonempty o "zerocheck challenge" (length (pt_zc s1)) (pt_tr s1) He1)) as X. rewrite C1 in X. exact X. }
    pose proof (proj1 (run_draws_nonempty o "0check r" n t1' He1')) as X. rewrite C2 in X. exact X. }
  { lia. }
  { intros j Hj. rewrite C9, map_app in Hj. apply in_app_or in Hj. destruct Hj as [Hj|Hj].
    - destruct (all_known_ext s1 s2 _ n D Q2 C5 C6 Ks j Hj) as [X Y]. split; [exact X|]. eapply deg_le_mono; [|exact Y]. lia.
    - simpl in Hj. destruct Hj as [<-|[]]. split; [exact C10|exact C11]. }
  rewrite M2 in A2. injection A2 as <- _ <-.
  assert (Vz : forall i k, In i (pt_zc s1) -> k < 2 ^ n -> pval s1 i (bpoint n k) = F0).
  { intros i k Hin Hk. rewrite Q7 in Hin. destruct (Hzc i Hin) as [Z1 [_ Z3]]. rewrite (proj2 (proj1 (proj2 (proj2 Q9)) i n (Kn i Z1)) k Hk). apply Z3. exact Hk. }
  assert (Zs : forall k, k < 2 ^ n -> pval s2 zid (bpoint n k) = F0).
  { intros k Hk. rewrite C12 by apply bpoint_length. rewrite weighted_zeros; [ring|]. intros d Hd. apply in_map_iff in Hd. destruct Hd as [i [<- Hin]]. apply Vz; assumption. }
  assert (Zs3 : Fsum (ptab s3 zid n) = F0).
  { rewrite (ptab_ext s2 s3 zid n C10 (sext_ext _ _ A4)). unfold ptab. rewrite (map_ext_in _ (fun _ => F0)); [|intros k Hk; apply in_seq in Hk; apply Zs; lia].
    clear. induction (seq 0 (2 ^ n)) as [|x l IH]; [reflexivity|]. cbn [map]. rewrite Fsum_cons, IH. ring. }
  (* the sums *)
  set (T := map (fun cl => Fsum (ptab s (fst cl) n)) (pt_sc s)).
  assert (Sn : map snd (pt_sc s1) = T) by (rewrite Q8, map_map; reflexivity).
  assert (TS : true_sums s1 n cz r = T ++ [F0]).
  { unfold true_sums. f_equal.
    - rewrite Q8, map_map. cbn [fst]. apply map_ext_in. intros cl Hin. rewrite (ptab_ext s s1 _ n (Kn _ (Hsc cl Hin)) Q9). reflexivity.
    - f_equal. apply mle_ext_zero. intros k Hk. apply weighted_zeros. intros d Hd. apply in_map_iff in Hd. destruct Hd as [i [<- Hin]]. apply Vz; assumption. }
  rewrite TS in M11. rewrite Sn in M2.
  assert (Step : compile_proof o sc sc' addr debug s =
    bind (if debug then ' (ev, s') <- evaluations s3 agg ;; _ <- ensure (Feqb (fold_left Fadd ev F0) (weighted cs (T ++ [F0]))) IOPInvalidProver ;; Ok s' else Ok s3)
      (fun s4 => tail o sc sc' addr s4 agg)).
  { unfold compile_proof. rewrite Q1. cbn [bind]. rewrite M1. cbn [bind]. rewrite M2. cbn [bind]. reflexivity. }
  destruct (evaluations_spec s3 agg n M3 M8) as [s4 [E1 [E2 [E3 [E4 [[ea [E5 [E6 E7]]] _]]]]]].
  assert (Esum : fold_left Fadd (ptab s3 agg n) F0 = weighted cs (T ++ [F0])).
  { rewrite fold_left_Fadd, ptab_sum, M11. ring. }
  assert (S4 : exists s5, (if debug then ' (ev, s') <- evaluations s3 agg ;; _ <- ensure (Feqb (fold_left Fadd ev F0) (weighted cs (T ++ [F0]))) IOPInvalidProver ;; Ok s' else Ok s3) = Ok s5 /\
     pinv s5 /\ ext s3 s5 /\ vold s3 s5 /\ matflat s5 n /\ pt_next s5 = pt_next s3 /\ pt_tr s5 = t3 /\ pt_comm s5 = pt_comm s3 /\ same_claims s3 s5 /\ known s5 agg n /\ deg_le s5 agg (D + 1) /\ cube_sum n (pval s5 agg) = cube_sum n (pval s3 agg)).
  { destruct debug.
    - rewrite E1. cbn [bind]. rewrite Esum, Feqb_refl. cbn [ensure bind]. exists s4. split; [reflexivity|]. split; [exact E2|]. split; [exact E3|].
      destruct E4 as [_ [E4a [E4n [E4b E4c]]]]. split; [apply vsub_old; apply (evaluations_sub _ _ _ _ E1)|]. split.
      { apply (flat_step n s3 s4 M3 E2 E4n). intros id m Hk. pose proof (matflat_known s3 n id m J4 Hk). subst m. split; [reflexivity|apply (proj1 (proj2 (proj2 E3)) id n Hk)]. }
      split; [exact E4n|]. split; [congruence|]. split; [exact E4b|]. split; [exact E4c|]. split; [apply (proj1 (proj2 (proj2 E3)) _ _ M8)|].
      split; [eapply deg_le_mono; [|exact (evaluations_deg s3 agg n _ s4 M3 M8 E1)]; lia|].
      rewrite <- !ptab_sum. rewrite (ptab_ext s3 s4 agg n M8 E3). reflexivity.
    - exists s3. split; [reflexivity|]. split; [exact M3|]. split; [apply ext_refl|]. split; [apply vold_refl|]. split; [exact J4|]. split; [reflexivity|]. split; [exact M6|]. split; [reflexivity|]. split; [split; reflexivity|]. auto. }
  destruct S4 as [s5 [F1' [F2' [F3' [F3v [F3f [F3n [F4' [F5' [F6' [F7' [F8' F9']]]]]]]]]]]].
  rewrite F1' in Step. cbn [bind] in Step.
  destruct (tail_spec HE Hp o sc sc' addr g h tau s5 agg n (D + 1) F2') as [cp [s6 [bp [P1 [P2 [P3 [P4 [P5 [P6 [P7 [P8 [P9 [P10 [P11 [P12 [P13 P14]]]]]]]]]]]]]]]]; try assumption; try lia.
  { rewrite F4'. exact M7. }
  { destruct F3' as [X1 _]. destruct M4 as [X2 _]. destruct Q9 as [X3 _]. congruence. }
  { rewrite F5', M5, Q6. exact H2. }
  { intros id c Hc. rewrite F5', M5, Q6 in Hc. destruct (i_comm s Hi id c Hc) as [a Ha]. exists a.
    pose proof (proj2 (proj2 (proj2 (proj2 F3'))) _ _ (proj2 (proj2 (proj2 (proj2 (sext_ext _ _ M4)))) _ _ (proj2 (proj2 (proj2 (proj2 Q9))) _ _ Ha))) as Ha5.
    split; [exact Ha5|apply (F3f _ _ Ha5)]. }
  assert (X05 : ext s s5) by (eapply ext_trans; [exact Q9|]; eapply ext_trans; [apply sext_ext; exact M4|exact F3']).
  assert (Fsc : pt_sc s5 = map (fun cl => (fst cl, Fsum (ptab s (fst cl) n))) (pt_sc s) ++ [(zid, F0)]).
  { destruct F6' as [F6a _]. rewrite F6a, J3, I3, Q8. reflexivity. }
  exists cp, s6. split; [rewrite Step; exact P1|]. rewrite P13.
  split; [apply (pinv_set_tr s5 (pt_tr s6) F2')|].
  split; [eapply ext_trans; [exact X05|]; apply sext_ext; apply (pinv_set_tr s5 (pt_tr s6) F2')|].
  split. { assert (V5 : vold s s5) by (eapply vold_trans; [exact Q10|]; eapply vold_trans; [exact C6|]; eapply vold_trans; [exact A5|exact F3v]). exact V5. }
  split; [exact F3f|]. split; [cbn [set_tr pt_comm]; congruence|]. split; [cbn [set_tr pt_zc]; destruct F6' as [_ F6b]; congruence|]. split; [exact P14|].
  split; [exact Fsc|]. split.
  { change (ptab (set_tr s5 (pt_tr s6)) zid n) with (ptab s5 zid n). rewrite (ptab_ext s3 s5 zid n); [exact Zs3| |exact F3']. apply (proj1 (proj2 (proj2 (sext_ext _ _ A4))) zid n C10). }
  split. { cbn [set_tr pt_next]. rewrite F3n, J1, I1, I3, app_length, Q8, map_length. cbn [length]. lia. }
  split; [congruence|]. split; [exact P4|]. split; [lia|]. split.
  { intros id Hin. rewrite P3, Fsc. apply fold_sums.
    - apply in_or_app. left. apply in_map_iff in Hin. destruct Hin as [cl [<- Hin]]. apply in_map_iff. exists cl. auto.
    - intros c' Hc'. apply in_app_or in Hc'. destruct Hc' as [Hc'|[Hc'|[]]].
      + apply in_map_iff in Hc'. destruct Hc' as [cl [Hc' _]]. inversion Hc'. reflexivity.
      + inversion Hc'; subst. exfalso. apply in_map_iff in Hin. destruct Hin as [cl [Hcl Hin]]. pose proof (Hsc cl Hin). unfold zid in Hcl. lia. }
  rewrite F9', M11, F4' in *. rewrite F5', M5, Q6 in P2, P10.
  intros v V1 V2 V3 V4 V5 V6.
  assert (Lsc : length (vt_sc v) = length (pt_sc s1)) by (rewrite <- (map_length snd (vt_sc v)), V6; unfold T; rewrite map_length, Q8, map_length; reflexivity).
  destruct (verify_run o v ltac:(rewrite V3; exact He) cz t1 r t2 cs t3) as [v2 [_ V7]].
  { rewrite V5, V3, <- Q7, <- Q4. exact R1. } { rewrite V1, P4. exact R2. } { rewrite Lsc. exact R3. }
  rewrite V7, V1, V2, V4. cbv zeta. rewrite P4, P9, P2, V6.
  assert (Hm : exists comms, mapM (fun id => ounwrap (mget (pt_comm s) id)) (sort_ids (map fst (pt_comm s))) = Ok comms).
  { apply mapM_total. intros id Hin. apply (proj1 (sort_in _ _)) in Hin. apply mget_key in Hin. destruct Hin as [c Hc]. rewrite Hc. exists c. reflexivity. }
  destruct Hm as [comms Hm].
  assert (Lm : length comms = length (pt_comm s)).
  { apply mapM_length in Hm. rewrite Hm, (Permutation.Permutation_length (sort_perm _)), map_length. reflexivity. }
  split.
  - intros [N1 N2]. destruct (P10 N1) as [sub [t' [Y1 Y2]]]. rewrite Y1. cbn [map_err bind]. rewrite Hm. cbn [bind]. rewrite (rnth_ok [bp] 0 bp) by (simpl; lia). cbn [bind nth].
    destruct (proj1 (Y2 comms Lm)) as [b Y3]; [intros c Hc; apply (N2 bp c); [rewrite P9; left; reflexivity|exact Hc]|].
    rewrite Y3. cbn [bind]. eexists. split; [reflexivity|]. reflexivity.
  - intros Hno. destruct (all_nonnode_dec (cp_deg cp + 1) (pf_point (cp_sc cp))) as [N1|N1]; [|rewrite (P11 N1); reflexivity].
    destruct (P10 N1) as [sub [t' [Y1 Y2]]]. rewrite Y1. cbn [map_err bind]. rewrite Hm. cbn [bind]. rewrite (rnth_ok [bp] 0 bp) by (simpl; lia). cbn [bind nth].
    destruct (all_nonnode_dec 3 (pf_point (bp_sc bp))) as [N2|N2]; [|rewrite (proj2 (Y2 comms Lm) N2); reflexivity].
    exfalso. apply Hno. split; [exact N1|]. intros b c Hb. rewrite P9 in Hb. destruct Hb as [<-|[]]. apply N2.
Qed.
End S.
