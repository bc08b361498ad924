(** Main lemmas on batch opening: completeness, exact acceptance condition, soundness counts, reduction to the opening scheme. *)
From Coq Require Import String List Arith Lia Bool ZArith Znumtheory Field.
Import ListNotations.
From Verif Require Import Res ResLemmas Fp FSum SpecMle SpecPoly SpecVp SpecKzg SpecSumcheck ModelMle MleLemmas MleProofs MleExtra
  PolyLemmas ModelVp VpHist VpProofs VpExtra ModelTranscript ModelSumcheck SumcheckHist SumcheckProofs SumcheckVerify TranscriptProofs SumcheckExtra
  Pairing ModelKzg KzgHist KzgProofs KzgExtra SpecBatch ZerocheckProofs ModelBatch BatchProofs BatchHist.
Local Open Scope string_scope.
Local Open Scope list_scope.
Local Open Scope nat_scope.

Section K.
Context {p : positive} {C : Type} {E : pairing p}.
Add Ring Fr : (@F_ring p).
Hypothesis HE : pairing_laws E.
Hypothesis Hp : prime (Zpos p).
Add Field Ff : (F_field Hp).
Local Notation dm := (mkMle 0 (@nil (F p))).

Lemma batch_poly_eq : forall (polys : list (mle p)) points ts x, length points = length polys -> length polys <= 2 ^ length ts ->
  batch_poly polys points ts x = batched polys points ts x.
Proof.
  intros polys points ts x Hl Hk. unfold batch_poly. rewrite (combination_sum ts _ (length polys)); [|rewrite map_length, combine_length; lia|exact Hk].
  unfold batched, tsum, terms, sumN. rewrite map_map. cbn [fst snd]. apply Fsum_map_ext. intros i Hi. apply in_seq in Hi.
  rewrite (combine_idx dm [] polys points (length polys)) by lia. rewrite map_map. cbn [fst snd].
  rewrite (nth_map_seq (fun i => value (nth i polys dm) x * eqf x (nth i points []))%F) by lia. ring.
Qed.

Lemma sc_verify_extract : forall (o : oracle p C) claimed pf deg n t s t', deg + 1 <= fsize p -> 1 <= deg ->
  sc_verify o claimed pf deg n t = Ok (s, t') -> extract_sum pf = Ok claimed.
Proof.
  intros o claimed pf deg n t s t' Hd H1 H. apply (sc_verify_ok Hp) in H; [|exact Hd|exact H1]. destruct H as [Hn [Hl [_ Hf]]].
  unfold extract_sum. destruct (pf_msgs pf) as [|m ms]; [simpl in Hl; lia|]. destruct n as [|n]; [lia|]. cbn [firstn final] in Hf.
  destruct (sub_point s); [discriminate|].
  destruct (length m =? deg + 1) eqn:L; [|discriminate]. apply Nat.eqb_eq in L. cbn [andb] in Hf.
  destruct (Feqb (nth 0 m F0 + nth 1 m F0)%F claimed) eqn:Fq; [|discriminate]. apply Feqb_eq in Fq.
  rewrite (rnth_ok (m :: ms) 0 []) by (simpl; lia). cbn [bind nth]. rewrite (rnth_ok m 0 F0) by lia. cbn [bind].
  rewrite (rnth_ok m 1 F0) by lia. cbn [bind]. rewrite Fq. reflexivity.
Qed.

Lemma sc_verify_point : forall (o : oracle p C) claimed pf deg n t s t', deg + 1 <= fsize p -> 1 <= deg ->
  sc_verify o claimed pf deg n t = Ok (s, t') -> length (sub_point s) = n.
Proof.
  intros o claimed pf deg n t s t' Hd H1 H. apply (sc_verify_ok Hp) in H; [|exact Hd|exact H1]. destruct H as [Hn [Hl [R _]]].
  pose proof (run_msgs_length o (firstn n (pf_msgs pf)) (append "aux info" (PAux deg n) t)) as L. rewrite R in L. cbn [fst] in L.
  rewrite L, firstn_length. lia.
Qed.

Lemma commits_ok : forall g h (tau : list (F p)) n polys points, n <= length tau -> batch_wf n polys points ->
  mapM (kzg_commit (srs_pp (srs_of (E:=E) g h tau))) polys = Ok (map (fun f => gmul (value f (suffix n tau)) g) polys).
Proof.
  intros g h tau n polys points Hn [_ [Hf _]]. apply mapM_ok. intros f Hin. destruct (Hf f Hin) as [W En].
  rewrite (commit_ok HE) by (auto; lia). unfold value, suffix. rewrite En. reflexivity.
Qed.

(** The honest prover, with any values vs in the proof. *)
Lemma batch_honest : forall o sc addr g h (tau : list (F p)) n polys points (t : tr p C) ts t1,
  distinct_addresses addr -> 0 < n -> n <= length tau -> 2 <= length polys -> batch_wf n polys points -> is_empty t = false -> 2 < fsize p ->
  draw_vecT o "t" (Nat.log2_up (length polys)) t = Ok (ts, t1) ->
  exists pf pfo t2, length (pf_point pf) = n /\
    (forall vs, multi_open o sc addr (srs_pp (srs_of (E:=E) g h tau)) polys points vs t = Ok (mkBatch pf vs pfo, t2)) /\
    (forall vs, length vs = length polys -> combination ts vs = combination ts (open_values polys points) ->
       (forall c, In c (pf_point pf) -> nonnode 3 c) ->
       batch_verify o (vk_of g h tau) (map (fun f => gmul (value f (suffix n tau)) g) polys) points (mkBatch pf vs pfo) t = Ok (true, t2)) /\
    (forall vs b t', length vs = length polys ->
       batch_verify o (vk_of g h tau) (map (fun f => gmul (value f (suffix n tau)) g) polys) points (mkBatch pf vs pfo) t = Ok (b, t') ->
       combination ts vs = combination ts (open_values polys points)).
Proof.
  intros o sc addr g h tau n polys points t ts t1 Hinj Hn Htau Hk Hwf Ht Hf Hd0.
  assert (Hd : run_draws o "t" (Nat.log2_up (length polys)) t = (ts, t1)) by (rewrite draw_vecT_ok in Hd0 by exact Ht; congruence).
  destruct (multi_open_run HE Hp o sc addr g h tau n polys points t ts t1 Hinj Hn Htau Hk Hwf Ht Hf Hd)
    as [Lts [Hpow [Hne [v [e [pf [t2 [gp [pfo [V1 [V2 [V3 [V4 [V5 [S1 [S2 [G1 [G2 [G3 [-> M]]]]]]]]]]]]]]]]]]]].
  exists pf, (map (fun q => gmul q g) (qexps (evs gp) (suffix n tau) (pf_point pf))), t2.
  split; [exact S2|]. split; [exact M|].
  destruct (sc_complete_built Hp o sc v e t1 V1) as [pf' [t2' [S1' [_ [X Y]]]]]; [rewrite V3; exact Hf|rewrite V2; exact Hn|exact V4|].
  rewrite S1 in S1'. injection S1' as <- <-. rewrite V2, V3 in Y. rewrite V2 in X.
  assert (Sum : cube_sum n (pden e) = combination ts (open_values polys points)).
  { rewrite <- (batched_sum n polys points ts Hwf Hpow). unfold cube_sum. apply sumN_ext. intros k _. apply V5. apply bpoint_length. }
  split.
  - intros vs Hv Hc Hnn. rewrite (batch_verify_run HE o g h tau n polys points t ts t1) by assumption.
    cbn [bp_evals bp_sc bp_open]. rewrite Hc, <- Sum. destruct (Y Hnn) as [-> _]. cbn [map_err bind sub_eval].
    rewrite <- (G3 (suffix n tau)).
    pose proof (verify_honest HE g h tau gp (pf_point pf) (pden e (pf_point pf)) G1 ltac:(lia) ltac:(lia)) as VH.
    unfold value. rewrite G2 in *. fold (suffix n tau) in VH. rewrite VH. cbn [bind].
    assert (Z : (pden e (pf_point pf) - mle_ext n (tab (evs gp)) (pf_point pf))%F = F0).
    { pose proof (G3 (pf_point pf)) as G. unfold value in G. rewrite G2 in G. rewrite G, V5 by exact S2. unfold batched. ring. }
    rewrite Z, (g_mul_0 (pl_T _ HE)), (g_eqb_refl (pl_T _ HE)). reflexivity.
  - intros vs b t' Hv H. rewrite (batch_verify_run HE o g h tau n polys points t ts t1) in H by assumption. cbn [bp_evals bp_sc bp_open] in H.
    destruct (sc_verify o (combination ts vs) pf 2 n t1) as [[s ts']| |] eqn:Sv; cbn [map_err bind] in H; try discriminate.
    apply sc_verify_extract in Sv; [|lia|lia]. congruence.
Qed.

Lemma batch_complete : forall o sc addr (g : gcar (PG1 E)) (h : gcar (PG2 E)) rnd N n m polys points (t : tr p C),
  1 <= N -> n <= N -> distinct_addresses addr -> 0 < m -> m <= n -> 2 <= length polys -> batch_wf m polys points -> is_empty t = false -> 2 < fsize p ->
  exists s ck vk comms bp t', gen_srs E g h rnd N = Ok s /\ kzg_trim s None (Some n) = Ok (ck, vk) /\ mapM (kzg_commit ck) polys = Ok comms /\
    multi_open o sc addr ck polys points (open_values polys points) t = Ok (bp, t') /\
    bp_evals bp = open_values polys points /\ length (pf_point (bp_sc bp)) = m /\
    ((forall c, In c (pf_point (bp_sc bp)) -> nonnode 3 c) -> batch_verify o vk comms points bp t = Ok (true, t')).
Proof.
  intros o sc addr g h rnd N n m polys points t HN Hn Hinj Hm Hmn Hk Hwf Ht Hf.
  destruct (kzg_trim_srs HE g h rnd N n HN Hn) as [s [ck [vk [S [T [-> ->]]]]]].
  set (tau := suffix n (trapdoor rnd N)) in *.
  assert (Ltau : length tau = n) by (unfold tau; apply suffix_length; rewrite trapdoor_length; exact Hn).
  destruct (run_draws o "t" (Nat.log2_up (length polys)) t) as [ts t1] eqn:D.
  destruct (batch_honest o sc addr g h tau m polys points t ts t1 Hinj Hm ltac:(lia) Hk Hwf Ht Hf) as [pf [pfo [t2 [L [M [A _]]]]]].
  { rewrite draw_vecT_ok by exact Ht. rewrite D. reflexivity. }
  exists s, (srs_pp (srs_of g h tau)), (vk_of g h tau), (map (fun f => gmul (value f (suffix m tau)) g) polys), (mkBatch pf (open_values polys points) pfo), t2.
  split; [exact S|]. split; [exact T|]. split; [apply (commits_ok g h tau m polys points); [lia|exact Hwf]|]. split; [apply M|]. split; [reflexivity|].
  split; [exact L|]. intros Hnn. apply A; [apply open_values_length; apply Hwf|reflexivity|exact Hnn].
Qed.

(** A single polynomial cannot be batch-opened. *)
Lemma batch_single : forall o sc addr (ck : pparam E) vk (f : mle p) z (c : gcar (PG1 E)) vs bp (t : tr p C), is_empty t = false ->
  multi_open o sc addr ck [f] [z] vs t = Err ArithInvalidParameters /\ batch_verify o vk [c] [z] bp t = Err ArithInvalidParameters.
Proof.
  intros o sc addr ck vk f z c vs bp t Ht. unfold multi_open, batch_verify. cbn [length]. change (Nat.log2_up 1) with 0.
  rewrite draw_vecT_ok by exact Ht. cbn [run_draws bind]. split; reflexivity.
Qed.

Lemma batch_values_iff : forall o sc addr (g : gcar (PG1 E)) (h : gcar (PG2 E)) rnd N n m polys points vs (t : tr p C) ts t1,
  1 <= N -> n <= N -> distinct_addresses addr -> 0 < m -> m <= n -> 2 <= length polys -> batch_wf m polys points -> is_empty t = false -> 2 < fsize p ->
  length vs = length polys -> draw_vecT o "t" (Nat.log2_up (length polys)) t = Ok (ts, t1) ->
  exists s ck vk comms bp t', gen_srs E g h rnd N = Ok s /\ kzg_trim s None (Some n) = Ok (ck, vk) /\ mapM (kzg_commit ck) polys = Ok comms /\
    multi_open o sc addr ck polys points vs t = Ok (bp, t') /\ bp_evals bp = vs /\
    ((forall c, In c (pf_point (bp_sc bp)) -> nonnode 3 c) ->
     (exists t'', batch_verify o vk comms points bp t = Ok (true, t'')) <-> combination ts vs = combination ts (open_values polys points)) /\
    (combination ts vs <> combination ts (open_values polys points) -> forall b t'', batch_verify o vk comms points bp t <> Ok (b, t'')).
Proof.
  intros o sc addr g h rnd N n m polys points vs t ts t1 HN Hn Hinj Hm Hmn Hk Hwf Ht Hf Hv D.
  destruct (kzg_trim_srs HE g h rnd N n HN Hn) as [s [ck [vk [S [T [-> ->]]]]]].
  set (tau := suffix n (trapdoor rnd N)) in *.
  assert (Ltau : length tau = n) by (unfold tau; apply suffix_length; rewrite trapdoor_length; exact Hn).
  destruct (batch_honest o sc addr g h tau m polys points t ts t1 Hinj Hm ltac:(lia) Hk Hwf Ht Hf D) as [pf [pfo [t2 [L [M [A B]]]]]].
  exists s, (srs_pp (srs_of g h tau)), (vk_of g h tau), (map (fun f => gmul (value f (suffix m tau)) g) polys), (mkBatch pf vs pfo), t2.
  split; [exact S|]. split; [exact T|]. split; [apply (commits_ok g h tau m polys points); [lia|exact Hwf]|]. split; [apply M|]. split; [reflexivity|].
  split.
  - intros Hnn. split.
    + intros [t'' H]. eapply B; [exact Hv|exact H].
    + intros H. exists t2. apply A; assumption.
  - intros Hc b t'' H. apply Hc. eapply B; [exact Hv|exact H].
Qed.

(** Number of batching challenges for which two different vectors have the same combination. *)
Lemma combination_count : forall l (vs ws : list (F p)), length vs = length ws -> length ws <= 2 ^ l -> vs <> ws ->
  count (fun ts => Feqb (combination ts vs) (combination ts ws)) (allV p l) <= l * fsize p ^ (l - 1).
Proof.
  intros l vs ws Hl Hk Hne.
  assert (Hx : exists k, k < 2 ^ l /\ (tab vs k - tab ws k)%F <> F0).
  { assert (Hd : exists k, k < length ws /\ nth k vs F0 <> nth k ws F0).
    { clear Hk. revert ws Hl Hne. induction vs as [|a vs IH]; intros [|b ws] Hl Hne; try discriminate; [congruence|].
      destruct (Feqb a b) eqn:Eab.
      - apply Feqb_eq in Eab. subst b. destruct (IH ws) as [k [K1 K2]]; [simpl in Hl; lia|congruence|]. exists (S k). cbn. split; [lia|exact K2].
      - apply Feqb_neq in Eab. exists 0. cbn. split; [lia|exact Eab]. }
    destruct Hd as [k [K1 K2]]. exists k. split; [lia|]. intros Z. apply K2. unfold tab in Z. apply sub_eq_0. exact Z. }
  eapply Nat.le_trans; [|apply (mle_zero_count Hp l _ Hx)]. apply Nat.eq_le_incl. apply count_ext. intros ts Hts.
  apply allV_in_length in Hts. unfold combination. rewrite Hts, mle_ext_sub.
  destruct (Feqb (mle_ext l (tab vs) ts) (mle_ext l (tab ws) ts)) eqn:E1.
  - apply Feqb_eq in E1. rewrite E1. symmetry. apply Feqb_eq. ring.
  - apply Feqb_neq in E1. symmetry. apply Feqb_neq. intros Z. apply E1. apply sub_eq_0. exact Z.
Qed.

Lemma batch_values_count : forall sc addr (g : gcar (PG1 E)) (h : gcar (PG2 E)) rnd N n m polys points vs (t : tr p C),
  1 <= N -> n <= N -> distinct_addresses addr -> 0 < m -> m <= n -> 2 <= length polys -> batch_wf m polys points -> is_empty t = false -> 2 < fsize p ->
  length vs = length polys -> vs <> open_values polys points ->
  exists s ck vk comms, gen_srs E g h rnd N = Ok s /\ kzg_trim s None (Some n) = Ok (ck, vk) /\ mapM (kzg_commit ck) polys = Ok comms /\
    let l := Nat.log2_up (length polys) in
    count (accepts_values sc addr ck vk comms polys points vs t) (allV p (l + m)) <= l * fsize p ^ (l - 1) * fsize p ^ m.
Proof.
  intros sc addr g h rnd N n m polys points vs t HN Hn Hinj Hm Hmn Hk Hwf Ht Hf Hv Hne.
  destruct (kzg_trim_srs HE g h rnd N n HN Hn) as [s [ck [vk [S [T [-> ->]]]]]].
  set (tau := suffix n (trapdoor rnd N)) in *.
  assert (Ltau : length tau = n) by (unfold tau; apply suffix_length; rewrite trapdoor_length; exact Hn).
  exists s, (srs_pp (srs_of g h tau)), (vk_of g h tau), (map (fun f => gmul (value f (suffix m tau)) g) polys).
  split; [exact S|]. split; [exact T|]. split; [apply (commits_ok g h tau m polys points); [lia|exact Hwf]|].
  cbn zeta. set (l := Nat.log2_up (length polys)).
  assert (Lo : length (open_values polys points) = length polys) by (apply open_values_length; apply Hwf).
  pose proof (combination_count l vs (open_values polys points) ltac:(congruence) ltac:(rewrite Lo; apply log2_up_pow) Hne) as Hc.
  eapply Nat.le_trans.
  - apply (count_two_phase l m 0 _ _ _ Hc). intros ts Hts Hbad. apply Nat.eq_le_incl. apply count_false. intros ch Hch.
    destruct (accepts_values sc addr _ _ _ polys points vs t (ts ++ ch)) eqn:Acc; [|reflexivity]. exfalso.
    apply Feqb_neq in Hbad. apply Hbad. clear Hbad. unfold accepts_values in Acc. apply allV_in_length in Hts. apply allV_in_length in Hch.
    destruct (run_draws_script (C:=C) (ts ++ ch) "t" (nchal (hist t)) l t 0) as [R1 _]; [lia|rewrite app_length; lia|].
    destruct (run_draws (script (nchal (hist t)) (ts ++ ch)) "t" l t) as [ts' t1] eqn:D. cbn [fst skipn] in R1.
    rewrite <- Hts, firstn_app, firstn_all, Nat.sub_diag in R1. cbn [firstn] in R1. rewrite app_nil_r in R1. subst ts'.
    destruct (batch_honest (script (nchal (hist t)) (ts ++ ch)) sc addr g h tau m polys points t ts t1 Hinj Hm ltac:(lia) Hk Hwf Ht Hf) as [pf [pfo [t2 [L [M [A B]]]]]].
    { rewrite draw_vecT_ok by exact Ht. fold l. rewrite D. reflexivity. }
    rewrite M in Acc.
    destruct (batch_verify _ _ _ points (mkBatch pf vs pfo) t) as [[b t']| |] eqn:V; try discriminate. apply (B vs b t' Hv V).
  - lia.
Qed.

(** Wrong values on the hyperplane are accepted. *)
Lemma hyperplane : forall (ts ws : list (F p)), 2 <= length ws -> length ws <= 2 ^ length ts -> exists vs, length vs = length ws /\ vs <> ws /\
  combination ts vs = combination ts ws.
Proof.
  intros ts ws H2 Hk. destruct ws as [|w0 [|w1 ws]]; [simpl in H2; lia|simpl in H2; lia|].
  set (e0 := eqk (bits (length ts) 0) ts). set (e1 := eqk (bits (length ts) 1) ts).
  assert (S : forall a b, combination ts (a :: b :: ws) = (e0 * a + (e1 * b + sumN (length ws) (fun i => eqk (bits (length ts) (S (S i))) ts * nth i ws F0)))%F).
  { intros a b. rewrite (combination_sum ts _ (S (S (length ws)))) by (simpl in *; auto). rewrite !sumN_S_l. reflexivity. }
  destruct (Feqb e0 F0) eqn:E0.
  - apply Feqb_eq in E0. exists ((w0 + F1)%F :: w1 :: ws). split; [reflexivity|]. split; [|rewrite !S, E0; ring].
    intros Z. injection Z as Z. apply (F1_neq_0 Hp). transitivity ((w0 + F1) - w0)%F; [ring|]. rewrite Z. ring.
  - apply Feqb_neq in E0. exists ((w0 - e1)%F :: (w1 + e0)%F :: ws). split; [reflexivity|]. split; [|rewrite !S; ring].
    intros Z. injection Z as _ Z. apply E0. transitivity ((w1 + e0) - w1)%F; [ring|]. rewrite Z. ring.
Qed.

Lemma batch_forge : forall o sc addr (g : gcar (PG1 E)) (h : gcar (PG2 E)) rnd N n m polys points (t : tr p C),
  1 <= N -> n <= N -> distinct_addresses addr -> 0 < m -> m <= n -> 2 <= length polys -> batch_wf m polys points -> is_empty t = false -> 2 < fsize p ->
  exists s ck vk comms vs bp t', gen_srs E g h rnd N = Ok s /\ kzg_trim s None (Some n) = Ok (ck, vk) /\ mapM (kzg_commit ck) polys = Ok comms /\
    length vs = length polys /\ vs <> open_values polys points /\
    multi_open o sc addr ck polys points vs t = Ok (bp, t') /\ bp_evals bp = vs /\
    ((forall c, In c (pf_point (bp_sc bp)) -> nonnode 3 c) -> batch_verify o vk comms points bp t = Ok (true, t')).
Proof.
  intros o sc addr g h rnd N n m polys points t HN Hn Hinj Hm Hmn Hk Hwf Ht Hf.
  destruct (kzg_trim_srs HE g h rnd N n HN Hn) as [s [ck [vk [S [T [-> ->]]]]]].
  set (tau := suffix n (trapdoor rnd N)) in *.
  assert (Ltau : length tau = n) by (unfold tau; apply suffix_length; rewrite trapdoor_length; exact Hn).
  destruct (run_draws o "t" (Nat.log2_up (length polys)) t) as [ts t1] eqn:D.
  assert (Lts : length ts = Nat.log2_up (length polys)).
  { pose proof (run_draws_length o "t" (Nat.log2_up (length polys)) t) as L. rewrite D in L. exact L. }
  assert (Lo : length (open_values polys points) = length polys) by (apply open_values_length; apply Hwf).
  destruct (hyperplane ts (open_values polys points)) as [vs [V1 [V2 V3]]]; [lia|rewrite Lo, Lts; apply log2_up_pow|].
  destruct (batch_honest o sc addr g h tau m polys points t ts t1 Hinj Hm ltac:(lia) Hk Hwf Ht Hf) as [pf [pfo [t2 [L [M [A _]]]]]].
  { rewrite draw_vecT_ok by exact Ht. rewrite D. reflexivity. }
  exists s, (srs_pp (srs_of g h tau)), (vk_of g h tau), (map (fun f => gmul (value f (suffix m tau)) g) polys), vs, (mkBatch pf vs pfo), t2.
  split; [exact S|]. split; [exact T|]. split; [apply (commits_ok g h tau m polys points); [lia|exact Hwf]|]. split; [lia|]. split; [exact V2|].
  split; [apply M|]. split; [reflexivity|]. intros Hnn. apply A; [lia|exact V3|exact Hnn].
Qed.

(** Any table of combined values. *)
Lemma comb_mle : forall n (polys : list (mle p)) points ts (w : list (F p) -> F p), batch_wf n polys points ->
  exists gp, wf_mle gp /\ nv gp = n /\ forall x, value gp x = tsum w x (terms polys points ts).
Proof.
  intros n polys points ts w [Hl [Hf _]].
  exists (mkMle n (map (fun k => sumN (length polys) (fun i => (eqk (bits (length ts) i) ts * w (nth i points [])) * tab (evs (nth i polys dm)) k)%F) (seq 0 (2 ^ n)))).
  split; [unfold wf_mle; cbn [nv evs]; rewrite map_length, seq_length; reflexivity|]. split; [reflexivity|].
  intros x. unfold value at 1. cbn [nv evs].
  rewrite (mle_ext_ext n _ (fun k => sumN (length polys) (fun i => (eqk (bits (length ts) i) ts * w (nth i points [])) * tab (evs (nth i polys dm)) k)%F)).
  2:{ intros k Hk. unfold tab at 1. rewrite (nth_map_seq (fun k => sumN (length polys) (fun i => (eqk (bits (length ts) i) ts * w (nth i points [])) * tab (evs (nth i polys dm)) k)%F)) by exact Hk. reflexivity. }
  rewrite (mle_ext_sumN n (length polys) (fun i k => (eqk (bits (length ts) i) ts * w (nth i points [])) * tab (evs (nth i polys dm)) k)%F).
  unfold tsum, terms, sumN. rewrite map_map. cbn [fst snd]. apply Fsum_map_ext. intros i Hi. apply in_seq in Hi. rewrite mle_ext_scale. unfold value.
  destruct (Hf (nth i polys dm)) as [_ ->]; [apply nth_In; lia|]. ring.
Qed.

Lemma batch_poly_degree : forall n (polys : list (mle p)) points ts, batch_wf n polys points -> length polys <= 2 ^ length ts -> 
  ind_degree n 2 (batch_poly polys points ts).
Proof.
  intros n polys points ts Hwf Hk pre post Hpp. destruct Hwf as [Hl [Hf Hz]].
  apply (polyfun_ext 2 (fun x => Fsum (map (fun i => eqk (bits (length ts) i) ts * (value (nth i polys dm) (pre ++ x :: post) * eqf (pre ++ x :: post) (nth i points [])))%F (seq 0 (length polys))))).
  - intros x. rewrite batch_poly_eq by assumption. unfold batched, tsum, terms. rewrite map_map. cbn [fst snd]. apply Fsum_map_ext. intros i _. ring.
  - apply polyfun_Fsum. intros i Hi. apply in_seq in Hi. apply polyfun_scale.
    destruct (Hf (nth i polys dm)) as [W En]; [apply nth_In; lia|].
    assert (Lz : length (nth i points []) = n) by (apply Hz; apply nth_In; lia).
    apply (hat_degree Hp n 1 (value (nth i polys dm)) (nth i points []) Lz); [|exact Hpp].
    intros pre' post' Hp'. unfold value. rewrite En. destruct (mle_coord Hp n (tab (evs (nth i polys dm))) pre' post' Hp') as [a [b Hab]]. apply (polyfun_ext 1 (fun x => a + x * b)%F); [intros x; symmetry; apply Hab|apply polyfun_linear].
Qed.

(** What an accepted batch proof shows, when the point in the proof is the point of the sum check. *)
Lemma batch_binding : forall o (g : gcar (PG1 E)) (h : gcar (PG2 E)) rnd N n m s ck vk polys points comms bp (t : tr p C) t',
  gen_srs E g h rnd N = Ok s -> kzg_trim s None (Some n) = Ok (ck, vk) -> mapM (kzg_commit ck) polys = Ok comms ->
  1 <= N -> n <= N -> 0 < m -> m <= n -> 2 <= length polys -> batch_wf m polys points -> 2 < fsize p ->
  length (bp_evals bp) = length polys -> length (pf_point (bp_sc bp)) = m ->
  batch_verify o vk comms points bp t = Ok (true, t') ->
  exists ts t1 sub, draw_vecT o "t" (Nat.log2_up (length polys)) t = Ok (ts, t1) /\
    sc_verify o (combination ts (bp_evals bp)) (bp_sc bp) 2 m t1 = Ok (sub, t') /\
    (sub_point sub = pf_point (bp_sc bp) ->
     combination ts (bp_evals bp) = combination ts (open_values polys points) \/
     (exists j, j < m /\ lucky m 2 (batch_poly polys points ts) (nth j (pf_msgs (bp_sc bp)) []) (firstn j (sub_point sub)) (nth j (sub_point sub) F0)) \/
     (exists f c, wf_mle f /\ nv f = m /\ kzg_commit ck f = Ok c /\ sub_eval sub <> value f (sub_point sub) /\
        kzg_verify vk c (sub_point sub) (sub_eval sub) (bp_open bp) = Ok true)).
Proof.
  intros o g h rnd N n m s ck vk polys points comms bp t t' HS HT HC HN Hn Hm Hmn Hk Hwf Hf He Hpt H.
  destruct (kzg_trim_srs HE g h rnd N n HN Hn) as [s' [ck' [vk' [S [T [Ec Ev]]]]]]. rewrite HS in S. injection S as <-.
  rewrite HT in T. injection T as <- <-. subst ck vk.
  set (tau := suffix n (trapdoor rnd N)) in *.
  assert (Ltau : length tau = n) by (unfold tau; apply suffix_length; rewrite trapdoor_length; exact Hn).
  rewrite (commits_ok g h tau m polys points ltac:(lia) Hwf) in HC. injection HC as <-.
  destruct (is_empty t) eqn:Ht.
  { unfold batch_verify in H. rewrite draw_vecT_empty in H by exact Ht. discriminate. }
  destruct (run_draws o "t" (Nat.log2_up (length polys)) t) as [ts t1] eqn:D.
  assert (Lts : length ts = Nat.log2_up (length polys)).
  { pose proof (run_draws_length o "t" (Nat.log2_up (length polys)) t) as L. rewrite D in L. exact L. }
  assert (Hpow : length polys <= 2 ^ length ts) by (rewrite Lts; apply log2_up_pow).
  rewrite (batch_verify_run HE o g h tau m polys points t ts t1) in H by (auto; lia).
  destruct (sc_verify o (combination ts (bp_evals bp)) (bp_sc bp) 2 m t1) as [[sub t2]| |] eqn:Sv; cbn [map_err bind] in H; try discriminate.
  destruct (kzg_verify _ _ _ _ _) as [b| |] eqn:Kv in H; cbn [bind] in H; try discriminate. injection H as -> <-.
  exists ts, t1, sub. split; [rewrite draw_vecT_ok by exact Ht; rewrite D; reflexivity|]. split; [exact Sv|]. intros Hpp.
  destruct (Feqb (sub_eval sub) (batch_poly polys points ts (sub_point sub))) eqn:Eq.
  - apply Feqb_eq in Eq.
    destruct (sc_sound Hp o _ _ m 2 t1 sub t2 _ (batch_poly_degree m polys points ts Hwf Hpow) ltac:(lia) ltac:(lia) Sv Eq) as [E1|E1].
    + left. rewrite E1. rewrite <- (batched_sum m polys points ts Hwf Hpow). unfold cube_sum. apply sumN_ext. intros k _. apply batch_poly_eq; [apply Hwf|exact Hpow].
    + right. left. exact E1.
  - apply Feqb_neq in Eq. right. right. destruct (comb_mle m polys points ts (eqf (pf_point (bp_sc bp))) Hwf) as [gp [G1 [G2 G3]]].
    exists gp, (gmul (value gp (suffix m tau)) g). split; [exact G1|]. split; [exact G2|]. split.
    + rewrite (commit_ok HE) by (auto; lia). unfold value, suffix. rewrite G2. reflexivity.
    + split; [|rewrite Hpp, G3; exact Kv]. intros Z. apply Eq. rewrite Z, G3. rewrite batch_poly_eq by (auto; apply Hwf). unfold batched. rewrite Hpp. reflexivity.
Qed.

(** The point in the proof is not tied to the challenges of the sum check. *)
Lemma batch_point_free : forall o (g : gcar (PG1 E)) (h : gcar (PG2 E)) rnd N n m s ck vk polys points comms vs pf (t : tr p C) ts t1 sub t',
  gen_srs E g h rnd N = Ok s -> kzg_trim s None (Some n) = Ok (ck, vk) -> mapM (kzg_commit ck) polys = Ok comms ->
  1 <= N -> n <= N -> 0 < m -> m <= n -> 2 <= length polys -> batch_wf m polys points ->
  length vs = length polys -> length (pf_point pf) = m -> is_empty t = false ->
  draw_vecT o "t" (Nat.log2_up (length polys)) t = Ok (ts, t1) ->
  sc_verify o (combination ts vs) pf 2 m t1 = Ok (sub, t') ->
  sub_eval sub = batch_poly polys points ts (pf_point pf) ->
  exists opening, batch_verify o vk comms points (mkBatch pf vs opening) t = Ok (true, t').
Proof.
  intros o g h rnd N n m s ck vk polys points comms vs pf t ts t1 sub t' HS HT HC HN Hn Hm Hmn Hk Hwf He Hpt Ht D Sv Hev.
  destruct (kzg_trim_srs HE g h rnd N n HN Hn) as [s' [ck' [vk' [S [T [Ec Ev]]]]]]. rewrite HS in S. injection S as <-.
  rewrite HT in T. injection T as <- <-. subst ck vk.
  set (tau := suffix n (trapdoor rnd N)) in *.
  assert (Ltau : length tau = n) by (unfold tau; apply suffix_length; rewrite trapdoor_length; exact Hn).
  rewrite (commits_ok g h tau m polys points ltac:(lia) Hwf) in HC. injection HC as <-.
  assert (Dr : run_draws o "t" (Nat.log2_up (length polys)) t = (ts, t1)) by (rewrite draw_vecT_ok in D by exact Ht; congruence).
  assert (Lts : length ts = Nat.log2_up (length polys)).
  { pose proof (run_draws_length o "t" (Nat.log2_up (length polys)) t) as L. rewrite Dr in L. exact L. }
  assert (Hpow : length polys <= 2 ^ length ts) by (rewrite Lts; apply log2_up_pow).
  destruct (comb_mle m polys points ts (eqf (pf_point pf)) Hwf) as [gp [G1 [G2 G3]]].
  exists (map (fun q => gmul q g) (qexps (evs gp) (suffix m tau) (pf_point pf))).
  rewrite (batch_verify_run HE o g h tau m polys points t ts t1) by (auto; lia). cbn [bp_evals bp_sc bp_open]. rewrite Sv. cbn [map_err bind].
  rewrite <- (G3 (suffix m tau)).
  pose proof (verify_honest HE g h tau gp (pf_point pf) (sub_eval sub) G1 ltac:(lia) ltac:(lia)) as VH.
  unfold value. rewrite G2 in *. fold (suffix m tau) in VH. rewrite VH. cbn [bind].
  assert (Z : (sub_eval sub - mle_ext m (tab (evs gp)) (pf_point pf))%F = F0).
  { pose proof (G3 (pf_point pf)) as G. unfold value in G. rewrite G2 in G. rewrite G, Hev, batch_poly_eq by (auto; apply Hwf). unfold batched. ring. }
  rewrite Z, (g_mul_0 (pl_T _ HE)), (g_eqb_refl (pl_T _ HE)). reflexivity.
Qed.
End K.
