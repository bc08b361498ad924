(** Compiling a proof: conversion and aggregation of the claims. *)
From Coq Require Import String List Arith Lia Bool ZArith.
Import ListNotations.
From Verif Require Import Res ResLemmas Fp FSum SpecMle SpecVp SpecKzg SpecTracker ModelMle MleLemmas MleProofs MleExtra ModelVp VpHist VpProofs VpExtra
  ModelTranscript ModelSumcheck SumcheckVerify ZerocheckProofs TranscriptProofs Pairing ModelKzg ModelBatch
  ModelProver ProverHist TmapLemmas ProverProofs ProverExtra ProverStep DegreeProofs EqualizeProofs.
Local Open Scope string_scope.
Local Open Scope list_scope.
Local Open Scope nat_scope.

Section S.
Context {p : positive} {E : pairing p}.
Add Ring Fr : (@F_ring p).
Local Notation st := (ptrk E).
Local Notation virt := (list (F p * list nat)).
Implicit Types s : ptrk E.
Local Arguments mput : simpl never.

Lemma weighted_cons : forall (c v : F p) cs vs, weighted (c :: cs) (v :: vs) = (c * v + weighted cs vs)%F.
Proof. intros. unfold weighted. cbn [combine map fst snd]. apply Fsum_cons. Qed.

(** *** The arithmetic form of a tracked polynomial *)
Definition live s (l : list (arc p)) : Prop := forall m, In m l -> exists i, mget (pt_mat s) i = Some m.
Lemma live_coherent : forall s l, pinv s -> live s l -> coherent l.
Proof.
  intros s l Hi H m1 m2 H1 H2 Hf. destruct (H _ H1) as [i1 G1]. destruct (H _ H2) as [i2 G2]. eapply i_coh; eassumption.
Qed.
Lemma live_app : forall s a b, live s a -> live s b -> live s (a ++ b).
Proof. intros s a b Ha Hb m Hm. apply in_app_or in Hm. destruct Hm; auto. Qed.

Lemma arith_loop : forall s n (v : virt) w, pinv s ->
  (forall c pr, In (c, pr) v -> pr <> [] /\ forall i, In i pr -> exists a, mget (pt_mat s) i = Some a /\ nv (snd a) = n) ->
  vp_inv w -> num_variables w = n -> live s (flat w) ->
  exists w', foldM (fun (w : vp p) (cp : F p * list nat) =>
        l <- mapM (fun i => ounwrap (mget (pt_mat s) i)) (snd cp) ;;
        match add_mle_list w l (fst cp) with
        | (w', Ok _) => Ok w'
        | _ => Panic
        end) w v = Ok w' /\ vp_inv w' /\ num_variables w' = n /\
    (forall x, vp_val w' x = vp_val w x + vval (pt_mat s) v x)%F /\
    max_degree w <= max_degree w' /\ (v <> [] -> 1 <= max_degree w') /\ (forall d, max_degree w <= d -> vdeg v d -> max_degree w' <= d).
Proof.
  intros s n v. induction v as [|[c pr] v IH]; intros w Hi Hok Hw Hn Hl.
  { exists w. split; [reflexivity|]. split; [exact Hw|]. split; [exact Hn|]. split; [intros x; unfold vval; cbn [map]; rewrite ?Fsum_nil; unfold Fsum; cbn [fold_right]; ring|].
    split; [lia|]. split; [congruence|auto]. }
  destruct (Hok c pr (or_introl eq_refl)) as [Hpr Hmem].
  set (dm := (0, mkMle 0 []) : arc p). set (arcs := map (fun i => match mget (pt_mat s) i with Some a => a | None => dm end) pr).
  assert (HM : mapM (fun i => ounwrap (mget (pt_mat s) i)) pr = Ok arcs).
  { apply mapM_ok. intros i Hin. destruct (Hmem i Hin) as [a [Ha _]]. rewrite Ha. reflexivity. }
  assert (Hlive : live s arcs).
  { intros m Hm. apply in_map_iff in Hm. destruct Hm as [i [<- Hin]]. destruct (Hmem i Hin) as [a [Ha _]]. rewrite Ha. exists i. exact Ha. }
  assert (Hwf : wf_arcs arcs).
  { intros m Hm. destruct (Hlive m Hm) as [i Hmi]. apply (i_wf s Hi _ _ Hmi). }
  assert (Hnv : forall m, In m arcs -> nv (snd m) = n).
  { intros m Hm. apply in_map_iff in Hm. destruct Hm as [i [<- Hin]]. destruct (Hmem i Hin) as [a [Ha Hna]]. rewrite Ha. exact Hna. }
  assert (Hne : arcs <> []) by (unfold arcs; destruct pr; [congruence|discriminate]).
  pose proof (add_mle_list_spec w arcs c Hw Hwf (live_coherent s _ Hi (live_app s _ _ Hl Hlive))) as H.
  cbn [foldM fst snd]. rewrite HM. cbn [bind]. destruct (add_mle_list w arcs c) as [w1 r1].
  destruct H as [I1 [X1 [F1 [[_ [_ [-> [D1 V1]]]]|[[C|[m [Hm Hmn]]] _]]]]]; [|congruence|exfalso; apply Hmn; rewrite Hn; apply Hnv; exact Hm].
  cbn [bind].
  destruct (IH w1 Hi) as [w' [R1 [R2 [R3 [R4 [R5 [R6 R7]]]]]]].
  { intros c' pr' Hin. apply (Hok c' pr'). right. exact Hin. }
  { exact I1. }
  { rewrite (proj1 X1). exact Hn. }
  { intros m Hm. apply F1 in Hm. revert m Hm. apply live_app; assumption. }
  assert (La : length arcs = length pr) by (unfold arcs; apply map_length).
  exists w'. split; [exact R1|]. split; [exact R2|]. split; [exact R3|]. split; [|split; [lia|split]].
  - intros x. rewrite R4, V1. unfold vval. cbn [map fst snd]. rewrite Fsum_cons.
    replace (map (fun m : arc p => mle_ext (num_variables w) (tab (evs (snd m))) x) arcs) with (map (fun i => mval (pt_mat s) i x) pr); [ring|].
    unfold arcs. rewrite map_map. apply map_ext_in. intros i Hin. destruct (Hmem i Hin) as [a [Ha Hna]]. unfold mval. rewrite Ha. unfold value.
    rewrite Hn, Hna. reflexivity.
  - intros _. assert (1 <= length pr) by (destruct pr; [congruence|simpl; lia]). lia.
  - intros d Hd Hv. apply R7; [|intros cp Hc; apply Hv; right; exact Hc]. pose proof (Hv (c, pr) (or_introl eq_refl)) as Hl1. simpl in Hl1. lia.
Qed.

Lemma to_arith_spec : forall s id n d, pinv s -> known s id n -> deg_le s id d ->
  exists w, to_arithmatic_virtual_poly s id = Ok w /\ vp_inv w /\ num_variables w = n /\ (forall x, vp_val w x = pval s id x) /\ 1 <= max_degree w <= d.
Proof.
  intros s id n d Hi Hk [D1 D2]. unfold to_arithmatic_virtual_poly. destruct (mget (pt_mat s) id) as [a|] eqn:Ea.
  - exists (vp_new_from_mle a F1). assert (Hn : nv (snd a) = n) by (apply (known_unique s id); [exact Hi|left; exists a; auto|exact Hk]).
    split; [reflexivity|]. destruct (i_wf s Hi _ _ Ea) as [Hw _]. split; [|split; [exact Hn|split; [|simpl; lia]]].
    + constructor; simpl.
      * intros m [<-|[]]. auto.
      * intros c idx [H|[]]. inversion H; subst. split; [discriminate|]. split; [simpl; lia|]. intros i [<-|[]]. lia.
      * intros b i H. destruct (Nat.eqb_spec b (fst a)) as [->|]; [|discriminate]. inversion H; subst. exists (snd a). destruct a; reflexivity.
    + intros x. unfold vp_val, prod_val, flat_val, pval. simpl. rewrite Ea. unfold value. ring.
  - destruct Hk as [[a [Ha _]]|[v [Hv Hok]]]; [congruence|]. rewrite Hv. cbn [ounwrap bind]. rewrite (virt_nv_ok s v n Hok). cbn [bind].
    destruct Hok as [Hne Hok]. destruct (arith_loop s n v (vp_new n) Hi Hok (vp_new_inv n) eq_refl) as [w [R1 [R2 [R3 [R4 [R5 [R6 R7]]]]]]].
    { intros m []. }
    exists w. split; [exact R1|]. split; [exact R2|]. split; [exact R3|]. split; [|split; [apply R6; exact Hne|]].
    + intros x. rewrite R4. unfold pval. rewrite Ea, Hv. unfold vp_val. cbn [products vp_new map]. unfold Fsum at 1. cbn [fold_right]. ring.
    + apply R7; [simpl; lia|]. apply D2. exact Hv.
Qed.
(** *** Drawing challenges and accumulating *)
Lemma challenge_ok : forall (o : oracle p (gcar (PG1 E))) l s, is_empty (pt_tr s) = false ->
  pt_challenge o l s = Ok (o (hist (pt_tr s)) l, set_tr s (tdraw l (o (hist (pt_tr s)) l) (pt_tr s))).
Proof. intros o l s H. unfold pt_challenge. rewrite drawT_ok by exact H. reflexivity. Qed.

(** One step: draw a challenge, scale a polynomial with it and add it to the accumulator. *)
Lemma acc_step : forall (o : oracle p (gcar (PG1 E))) l s agg cl n d, pinv s -> is_empty (pt_tr s) = false -> known s agg n -> known s cl n ->
  deg_le s agg d -> deg_le s cl d ->
  exists s1 id s2 agg' s3,
    pt_challenge o l s = Ok (o (hist (pt_tr s)) l, s1) /\ mul_scalar s1 cl (o (hist (pt_tr s)) l) = Ok (id, s2) /\ add_polys s2 agg id = Ok (agg', s3) /\
    pinv s3 /\ sext s s3 /\ vold s s3 /\ same_claims s s3 /\ pt_comm s3 = pt_comm s /\ pt_next s3 = 2 + pt_next s /\
    pt_tr s3 = tdraw l (o (hist (pt_tr s)) l) (pt_tr s) /\ known s3 agg' n /\ deg_le s3 agg' d /\
    (forall x, pval s3 agg' x = pval s agg x + o (hist (pt_tr s)) l * pval s cl x)%F.
Proof.
  intros o l s agg cl n d Hi He Ka Kc Da Dc. set (c := o (hist (pt_tr s)) l). set (s1 := set_tr s (tdraw l c (pt_tr s))).
  destruct (pinv_set_tr s (tdraw l c (pt_tr s)) Hi) as [Hi1 X1]. fold s1 in Hi1, X1.
  assert (V1 : vold s s1) by (split; auto).
  destruct (mul_scalar_spec s1 cl n c Hi1 Kc) as [s2 [M1 [M2 [M3 [M4 [M5 [M6 [M7 [M8 M9]]]]]]]]].
  destruct (mul_scalar_deg _ _ _ _ _ d M1 (vold_deg _ _ _ _ V1 (known_lt _ _ _ Hi Kc) Dc)) as [V2 D2].
  assert (Ka2 : known s2 agg n) by (apply (proj1 (proj2 (proj2 M3)) agg n Ka)).
  destruct (add_sub_spec s2 agg (pt_next s1) n false M2 Ka2 M8) as [s3 [N1 [N2 [N3 [N4 [N5 [N6 [N7 [N8 N9]]]]]]]]].
  assert (Va : vold s s2) by (exact (vold_trans _ _ _ V1 V2)).
  destruct (add_sub_deg s2 agg (pt_next s1) false _ _ d d N1 (vold_deg _ _ _ _ Va (known_lt _ _ _ Hi Ka) Da) D2) as [V3 D3].
  rewrite Nat.max_id in D3.
  exists s1, (pt_next s1), s2, (pt_next s2), s3.
  split; [apply challenge_ok; exact He|]. split; [exact M1|]. split; [exact N1|]. split; [exact N2|].
  split; [eapply sext_trans; [exact X1|]; eapply sext_trans; eassumption|]. split; [eapply vold_trans; eassumption|].
  split; [destruct M4, N4; split; simpl in *; congruence|]. split; [simpl in *; congruence|]. split; [rewrite N7, M7; reflexivity|].
  split; [rewrite N5, M5; reflexivity|]. split; [exact N8|]. split; [exact D3|].
  intros x. rewrite N9. rewrite M9. rewrite (proj2 (proj1 (proj2 (proj2 M3)) agg n Ka) x).
  change (pval s1 agg x) with (pval s agg x). change (pval s1 cl x) with (pval s cl x). ring.
Qed.

Definition all_known s (ids : list nat) (n d : nat) : Prop := forall id, In id ids -> known s id n /\ deg_le s id d.
Lemma all_known_ext : forall s s' ids n d, pinv s -> sext s s' -> vold s s' -> all_known s ids n d -> all_known s' ids n d.
Proof.
  intros s s' ids n d Hi X V H id Hin. destruct (H id Hin) as [K D]. split; [apply (proj1 (proj2 (proj2 X)) id n K)|].
  eapply vold_deg; [exact V|eapply known_lt; eassumption|exact D].
Qed.

Lemma convert_loop : forall (o : oracle p (gcar (PG1 E))) l ids n d s agg, pinv s -> is_empty (pt_tr s) = false -> known s agg n -> deg_le s agg d -> all_known s ids n d ->
  exists agg' s', foldM (fun (acc : nat * st) (cl : nat) =>
        ' (c, s') <- unwrap (pt_challenge o l (snd acc)) ;;
        ' (id, s'') <- mul_scalar s' cl c ;;
        add_polys s'' (fst acc) id) (agg, s) ids = Ok (agg', s') /\
    pinv s' /\ sext s s' /\ vold s s' /\ same_claims s s' /\ pt_comm s' = pt_comm s /\ pt_next s' = pt_next s + 2 * length ids /\
    pt_tr s' = snd (run_draws o l (length ids) (pt_tr s)) /\ known s' agg' n /\ deg_le s' agg' d /\
    (forall x, pval s' agg' x = pval s agg x + weighted (fst (run_draws o l (length ids) (pt_tr s))) (map (fun id => pval s id x) ids))%F.
Proof.
  intros o l ids n d. induction ids as [|cl ids IH]; intros s agg Hi He Ka Da Hall.
  { exists agg, s. split; [reflexivity|]. split; [exact Hi|]. split; [apply sext_refl|]. split; [apply vold_refl|]. split; [split; reflexivity|].
    split; [reflexivity|]. split; [simpl; lia|]. split; [reflexivity|]. split; [exact Ka|]. split; [exact Da|]. intros x. unfold weighted. simpl. unfold Fsum. simpl. ring. }
  destruct (Hall cl (or_introl eq_refl)) as [Kc Dc].
  destruct (acc_step o l s agg cl n d Hi He Ka Kc Da Dc) as [s1 [id [s2 [agg1 [s3 [A1 [A2 [A3 [A4 [A5 [A6 [A7 [A8 [A9 [A10 [A11 [A12 A13]]]]]]]]]]]]]]]]].
  cbn [foldM fst snd]. rewrite A1. cbn [unwrap bind]. rewrite A2. cbn [bind]. rewrite A3. cbn [bind].
  destruct (IH s3 agg1 A4) as [agg' [s' [B1 [B2 [B3 [B4 [B5 [B6 [B7 [B8 [B9 [B10 B11]]]]]]]]]]]].
  { rewrite A10. reflexivity. }
  { exact A11. }
  { exact A12. }
  { apply (all_known_ext s s3 ids n d Hi A5 A6). intros j Hj. apply Hall. right. exact Hj. }
  exists agg', s'. split; [exact B1|]. split; [exact B2|]. split; [eapply sext_trans; eassumption|]. split; [eapply vold_trans; eassumption|].
  split; [destruct A7, B5; split; congruence|]. split; [congruence|]. split; [simpl length; lia|].
  rewrite A10 in B8, B11. cbn [length run_draws]. destruct (run_draws o l (length ids) (tdraw l (o (hist (pt_tr s)) l) (pt_tr s))) as [cs t'] eqn:R.
  cbn [fst snd] in *. split; [exact B8|]. split; [exact B9|]. split; [exact B10|]. intros x. rewrite B11, A13. cbn [map]. rewrite weighted_cons.
  replace (map (fun id0 => pval s3 id0 x) ids) with (map (fun id0 => pval s id0 x) ids); [ring|].
  apply map_ext_in. intros j Hj. symmetry. destruct (Hall j (or_intror Hj)) as [Kj _]. apply (proj2 (proj1 (proj2 (proj2 A5)) j n Kj)).
Qed.

Lemma aggregate_loop : forall (o : oracle p (gcar (PG1 E))) l cls n d s agg sum, pinv s -> is_empty (pt_tr s) = false -> known s agg n -> deg_le s agg d -> all_known s (map fst cls) n d ->
  exists agg' s', foldM (fun (acc : nat * F p * st) (cl : nat * F p) =>
        let '(agg, sum, s) := acc in
        ' (c, s') <- unwrap (pt_challenge o l s) ;;
        ' (id, s'') <- mul_scalar s' (fst cl) c ;;
        ' (agg', s''') <- add_polys s'' agg id ;;
        Ok (agg', (sum + snd cl * c)%F, s''')) (agg, sum, s) cls =
      Ok (agg', (sum + weighted (fst (run_draws o l (length cls) (pt_tr s))) (map snd cls))%F, s') /\
    pinv s' /\ sext s s' /\ vold s s' /\ same_claims s s' /\ pt_comm s' = pt_comm s /\ pt_next s' = pt_next s + 2 * length cls /\
    pt_tr s' = snd (run_draws o l (length cls) (pt_tr s)) /\ known s' agg' n /\ deg_le s' agg' d /\
    (forall x, pval s' agg' x = pval s agg x + weighted (fst (run_draws o l (length cls) (pt_tr s))) (map (fun cl => pval s (fst cl) x) cls))%F.
Proof.
  intros o l cls n d. induction cls as [|[cl v] cls IH]; intros s agg sum Hi He Ka Da Hall.
  { exists agg, s. split; [simpl; do 3 f_equal; unfold weighted; simpl; unfold Fsum; simpl; ring|]. split; [exact Hi|]. split; [apply sext_refl|]. split; [apply vold_refl|]. split; [split; reflexivity|].
    split; [reflexivity|]. split; [simpl; lia|]. split; [reflexivity|]. split; [exact Ka|]. split; [exact Da|]. intros x. unfold weighted. simpl. unfold Fsum. simpl. ring. }
  destruct (Hall cl (or_introl eq_refl)) as [Kc Dc].
  destruct (acc_step o l s agg cl n d Hi He Ka Kc Da Dc) as [s1 [id [s2 [agg1 [s3 [A1 [A2 [A3 [A4 [A5 [A6 [A7 [A8 [A9 [A10 [A11 [A12 A13]]]]]]]]]]]]]]]]].
  cbn [foldM fst snd]. rewrite A1. cbn [unwrap bind]. rewrite A2. cbn [bind]. rewrite A3. cbn [bind].
  destruct (IH s3 agg1 (sum + v * o (hist (pt_tr s)) l)%F A4) as [agg' [s' [B1 [B2 [B3 [B4 [B5 [B6 [B7 [B8 [B9 [B10 B11]]]]]]]]]]]].
  { rewrite A10. reflexivity. }
  { exact A11. }
  { exact A12. }
  { apply (all_known_ext s s3 (map fst cls) n d Hi A5 A6). intros j Hj. apply Hall. right. exact Hj. }
  exists agg', s'. rewrite A10 in B1, B8, B11. cbn [length run_draws map].
  destruct (run_draws o l (length cls) (tdraw l (o (hist (pt_tr s)) l) (pt_tr s))) as [cs t'] eqn:R.
  cbn [fst snd] in *. split; [rewrite B1; do 3 f_equal; rewrite weighted_cons; ring|].
  split; [exact B2|]. split; [eapply sext_trans; eassumption|]. split; [eapply vold_trans; eassumption|].
  split; [destruct A7, B5; split; congruence|]. split; [congruence|]. split; [lia|].
  split; [exact B8|]. split; [exact B9|]. split; [exact B10|]. intros x. rewrite B11, A13. cbn [map]. rewrite weighted_cons.
  replace (map (fun cl0 : nat * F p => pval s3 (fst cl0) x) cls) with (map (fun cl0 : nat * F p => pval s (fst cl0) x) cls); [ring|].
  apply map_ext_in. intros j Hj. symmetry. destruct (Hall (fst j)) as [Kj _]; [right; apply in_map; exact Hj|]. apply (proj2 (proj1 (proj2 (proj2 A5)) (fst j) n Kj)).
Qed.

(** A zero table. *)
Lemma track_zero : forall s n, pinv s -> exists z agg s0, zero_mle (p:=p) n = Ok z /\ track_mat_poly s z = (agg, s0) /\ pinv s0 /\ sext s s0 /\ vold s s0 /\
  same_claims s s0 /\ pt_tr s0 = pt_tr s /\ pt_comm s0 = pt_comm s /\ pt_next s0 = S (pt_next s) /\ known s0 agg n /\ deg_le s0 agg 1 /\
  (forall x, length x = n -> pval s0 agg x = F0).
Proof.
  intros s n Hi. unfold zero_mle. rewrite from_evaluations_ok by apply repeat_length.
  destruct (track_mat_spec s (mkMle n (repeat F0 (2 ^ n))) Hi) as [s1 [H1 [H2 [H3 [H4 [H5 [H6 [H7 [H8 [H9 H10]]]]]]]]]].
  { unfold wf_mle. simpl. apply repeat_length. }
  destruct (track_mat_deg _ _ _ _ Hi H1) as [V D].
  exists (mkMle n (repeat F0 (2 ^ n))), (pt_next s), s1. split; [reflexivity|]. split; [exact H1|]. split; [exact H2|]. split; [exact H3|].
  split; [exact V|]. split; [exact H4|]. split; [exact H5|]. split; [exact H7|]. split; [exact H6|]. split; [exact H9|]. split; [exact D|].
  intros x Hx. rewrite H10. apply const_value. exact Hx.
Qed.
Lemma deg_le_mono : forall s id d e, d <= e -> deg_le s id d -> deg_le s id e.
Proof. intros s id d e H [D1 D2]. split; [lia|]. intros v Hv. eapply vdeg_le; [exact H|apply D2; exact Hv]. Qed.

Lemma convert_spec : forall (o : oracle p (gcar (PG1 E))) n d s, pinv s -> is_empty (pt_tr s) = false -> 0 < n -> 1 <= d -> all_known s (pt_zc s) n d ->
  exists cz t1 r t2 id s', run_draws o "zerocheck challenge" (length (pt_zc s)) (pt_tr s) = (cz, t1) /\ run_draws o "0check r" n t1 = (r, t2) /\
    convert_zerocheck_claims o n s = Ok s' /\ pinv s' /\ sext s s' /\ vold s s' /\ pt_comm s' = pt_comm s /\ pt_tr s' = t2 /\
    pt_sc s' = pt_sc s ++ [(id, F0)] /\ pt_next s <= id /\ known s' id n /\ deg_le s' id (d + 1) /\
    (forall x, length x = n -> pval s' id x = weighted cz (map (fun i => pval s i x) (pt_zc s)) * eqf x r)%F.
Proof.
  intros o n d s Hi He Hn Hd Hall. unfold convert_zerocheck_claims.
  destruct (track_zero s n Hi) as [z [agg0 [s0 [Z1 [Z2 [Z3 [Z4 [Z5 [Z6 [Z7 [Z8 [Z9 [Z10 [Z11 Z12]]]]]]]]]]]]]].
  rewrite Z1. cbn [bind]. rewrite Z2. destruct Z6 as [Z6a Z6b]. rewrite Z6b.
  destruct (convert_loop o "zerocheck challenge" (pt_zc s) n d s0 agg0 Z3) as [agg [s1 [A1 [A2 [A3 [A4 [A5 [A6 [A7 [A8 [A9 [A10 A11]]]]]]]]]]]].
  { rewrite Z7. exact He. } { exact Z10. } { eapply deg_le_mono; [|exact Z11]. exact Hd. }
  { exact (all_known_ext s s0 _ n d Hi Z4 Z5 Hall). }
  rewrite A1. cbn [bind]. rewrite Z7 in A8, A11.
  pose proof (proj1 (run_draws_nonempty o "zerocheck challenge" (length (pt_zc s)) (pt_tr s) He)) as He1.
  destruct (run_draws o "zerocheck challenge" (length (pt_zc s)) (pt_tr s)) as [cz t1] eqn:R1. cbn [fst snd] in *.
  rewrite A8. rewrite draw_vecT_ok by exact He1. pose proof (run_draws_length o "0check r" n t1) as Lr.
  destruct (run_draws o "0check r" n t1) as [r t2] eqn:R2. cbn [unwrap bind fst] in *.
  destruct (build_eq_all r) as [te [_ [T1 [T2 [T3 T4]]]]]; [destruct r; [simpl in Lr; lia|discriminate]|].
  rewrite T4. cbn [unwrap bind].
  destruct (pinv_set_tr s1 t2 A2) as [I2 X2]. set (s2 := set_tr s1 t2) in *.
  destruct (track_mat_spec s2 (mkMle (length r) te) I2) as [s3 [B1 [B2 [B3 [B4 [B5 [B6 [B7 [B8 [B9 B10]]]]]]]]]]; [exact T1|].
  rewrite B1. destruct (track_mat_deg _ _ _ _ I2 B1) as [VB DB].
  assert (Ka3 : known s3 agg n) by (apply (proj1 (proj2 (proj2 B3)) agg n A9)).
  cbn [nv] in B9. rewrite Lr in B9.
  destruct (mul_spec s3 agg (pt_next s2) n B2 Ka3 B9) as [s4 [C1 [C2 [C3 [C4 [C5 [C6 [C7 [C8 C9]]]]]]]]].
  rewrite C1. cbn [bind].
  assert (V12 : vold s1 s3) by (destruct VB as [Va Vb]; split; [exact Va|exact Vb]).
  destruct (mul_deg s3 agg (pt_next s2) _ _ d 1 C1) as [VC DC]; [eapply vold_deg; [exact V12|eapply known_lt; eassumption|exact A10]|exact DB|].
  destruct (pinv_sc s4 (pt_next s3) F0 C2) as [I5 X5].
  exists cz, t1, r, t2, (pt_next s3). eexists. split; [reflexivity|]. split; [exact R2|]. split; [reflexivity|]. split; [exact I5|].
  assert (X04 : sext s0 s4).
  { eapply sext_trans; [exact A3|]. eapply sext_trans; [exact X2|]. eapply sext_trans; [exact B3|exact C3]. }
  split; [eapply sext_trans; [exact Z4|]; eapply sext_trans; [exact X04|exact X5]|].
  split. { eapply vold_trans; [exact Z5|]. eapply vold_trans; [exact A4|]. eapply vold_trans; [exact V12|]. destruct VC as [Va Vb]. split; [exact Va|exact Vb]. }
  split; [simpl; rewrite C6, B7; simpl; congruence|]. split; [simpl; rewrite C5, B5; reflexivity|].
  split. { simpl. destruct C4 as [C4 _]. destruct B4 as [B4 _]. destruct A5 as [A5 _]. rewrite C4, B4. simpl. rewrite A5, Z6a. reflexivity. }
  split. { destruct (sext_trans _ _ _ Z4 (sext_trans _ _ _ A3 (sext_trans _ _ _ X2 B3))) as [_ [X _]]. exact X. }
  split; [exact C8|]. split; [exact DC|].
  intros x Hx. change (pval (add_sumcheck_claim s4 (pt_next s3) F0) (pt_next s3) x) with (pval s4 (pt_next s3) x).
  rewrite C9, B10. rewrite (proj2 (proj1 (proj2 (proj2 B3)) agg n A9)). change (pval s2 agg x) with (pval s1 agg x). rewrite A11, Z12 by exact Hx.
  unfold value. cbn [nv evs]. rewrite T3 by congruence.
  replace (map (fun id => pval s0 id x) (pt_zc s)) with (map (fun id => pval s id x) (pt_zc s)); [ring|].
  apply map_ext_in. intros j Hj. symmetry. destruct (Hall j Hj) as [Kj _]. apply (proj2 (proj1 (proj2 (proj2 Z4)) j n Kj)).
Qed.

Lemma aggregate_spec : forall (o : oracle p (gcar (PG1 E))) n d s, pinv s -> is_empty (pt_tr s) = false -> 1 <= d -> all_known s (map fst (pt_sc s)) n d ->
  exists cs t' agg s', run_draws o "sumcheck challenge" (length (pt_sc s)) (pt_tr s) = (cs, t') /\
    aggregate_sumcheck_claims o n s = Ok (agg, weighted cs (map snd (pt_sc s)), s') /\
    pinv s' /\ sext s s' /\ vold s s' /\ same_claims s s' /\ pt_comm s' = pt_comm s /\ pt_tr s' = t' /\ known s' agg n /\ deg_le s' agg d /\
    (forall x, length x = n -> pval s' agg x = weighted cs (map (fun cl => pval s (fst cl) x) (pt_sc s))).
Proof.
  intros o n d s Hi He Hd Hall. unfold aggregate_sumcheck_claims.
  destruct (track_zero s n Hi) as [z [agg0 [s0 [Z1 [Z2 [Z3 [Z4 [Z5 [Z6 [Z7 [Z8 [Z9 [Z10 [Z11 Z12]]]]]]]]]]]]]].
  rewrite Z1. cbn [bind]. rewrite Z2. destruct Z6 as [Z6a Z6b]. rewrite Z6a.
  destruct (aggregate_loop o "sumcheck challenge" (pt_sc s) n d s0 agg0 F0 Z3) as [agg [s1 [A1 [A2 [A3 [A4 [A5 [A6 [A7 [A8 [A9 [A10 A11]]]]]]]]]]]].
  { rewrite Z7. exact He. } { exact Z10. } { eapply deg_le_mono; [|exact Z11]. exact Hd. }
  { exact (all_known_ext s s0 _ n d Hi Z4 Z5 Hall). }
  rewrite Z7 in A1, A8, A11. destruct (run_draws o "sumcheck challenge" (length (pt_sc s)) (pt_tr s)) as [cs t'] eqn:R1. cbn [fst snd] in *.
  exists cs, t', agg, s1. split; [reflexivity|]. split; [rewrite A1; do 3 f_equal; ring|]. split; [exact A2|]. split; [eapply sext_trans; eassumption|].
  split; [eapply vold_trans; eassumption|]. split; [destruct A5; split; congruence|]. split; [congruence|]. split; [exact A8|].
  split; [exact A9|]. split; [exact A10|]. intros x Hx. rewrite A11, Z12 by exact Hx.
  replace (map (fun cl : nat * F p => pval s0 (fst cl) x) (pt_sc s)) with (map (fun cl : nat * F p => pval s (fst cl) x) (pt_sc s)); [ring|].
  apply map_ext_in. intros j Hj. symmetry. destruct (Hall (fst j)) as [Kj _]; [apply in_map; exact Hj|]. apply (proj2 (proj1 (proj2 (proj2 Z4)) (fst j) n Kj)).
Qed.

Lemma equalize_old : forall s n s', equalize_materialized_poly_nv s = Ok (n, s') -> vold s s'.
Proof.
  intros s n s' H. unfold equalize_materialized_poly_nv in H.
  match type of H with bind ?x _ = _ => destruct x as [m| |]; try discriminate end. cbn [bind] in H.
  match type of H with bind ?x _ = _ => destruct x as [s1| |] eqn:E1; try discriminate end. cbn [bind] in H.
  match type of H with bind ?x _ = _ => destruct x as [[sums s2]| |] eqn:E2; try discriminate end. cbn [bind] in H. inversion H; subst. clear H.
  assert (V1 : vold s s1).
  { revert E1. apply (foldM_inv _ _ vold); [apply vold_refl|apply vold_trans|]. intros a x b Hab. destruct (nv (snd (snd x)) =? n); [inversion Hab; subst; apply vold_refl|].
    destruct (dmle_increase_nv_back (snd (snd x)) n); try discriminate. cbn [bind new_arc] in Hab. inversion Hab; subst. split; auto. }
  assert (V2 : vold (snd (@nil (nat * F p), s1)) (snd (sums, s2))).
  { revert E2. apply (foldM_inv _ _ (fun a b : list (nat * F p) * st => vold (snd a) (snd b))); [intros; apply vold_refl|intros a b c; apply vold_trans|].
    intros a x b Hab. destruct (evaluations (snd a) (fst x)) as [[ev s3]| |] eqn:Ev; try discriminate. cbn [bind] in Hab. inversion Hab; subst. cbn [snd].
    apply vsub_old. apply (evaluations_sub _ _ _ _ Ev). }
  cbn [snd] in V2. assert (V3 := vold_trans _ _ _ V1 V2). destruct V3 as [Va Vb]. split; [exact Va|exact Vb].
Qed.
End S.
