(** The support check: how often a bag that is not the support passes, when the prover commits to each column before the next challenge. *)
From Coq Require Import String List Arith Lia Bool ZArith Znumtheory Permutation.
Import ListNotations.
From Verif Require Import Res ResLemmas Fp FSum SpecMle SpecPoly SpecTracker SpecIop SpecRel ModelTranscript SumcheckHist MleLemmas PolyLemmas Pairing ModelKzg ModelBatch ModelProver ModelVerifier ModelIop
  VerifierHist CompileHist IopHist LogDeriv BagLemmas IopSort IopVer IopSound IopGot MleExtra AdviceProofs SortSound IopClaims CompSound CompSound2 CompSound3 CompClaims SessHist SessProofs CheckHist CheckProofs CheckIopHist CheckIop CheckSort.
Local Open Scope list_scope.
Local Open Scope nat_scope.
#[local] Opaque track_virtual v_add_scalar.

Section P.
Context {p : positive} {E : pairing p}.
Hypothesis Hp : prime (Zpos p).
Hypothesis H22 : 2 < fsize p.
Notation F := (F p).
Notation comm := (gcar (PG1 E)).
Implicit Types (v : vtrk E).

Lemma supp_got : forall o debug v b sup rx v', vready v -> supp_verify o debug v b sup rx = Ok v' -> got v v' 81 [0; 2; 10; 18; 24; 27; 28; 36; 44; 59; 61; 69; 77].
Proof.
  intros o debug v b sup rx v' R H. pose proof (got_refl v R) as G. unfold supp_verify in H. gtrans G H. unfold supp_verify_with_advice in H.
  match type of H with context [inclusion_verify_with_advice ?o ?d ?v ?a ?b ?m] => destruct (inclusion_verify_with_advice o d v a b m) as [w| |] eqn:E1; cbn [bind] in H; [|discriminate H|discriminate H] end.
  pose proof (inclusion_wa_got o _ _ _ _ _ _ (got_ready _ _ _ _ G) E1) as X. clear E1. gjoin G X.
  match type of H with context [no_zeros_verify ?d ?v ?a] => destruct (no_zeros_verify d v a) as [w1| |] eqn:E1; cbn [bind] in H; [|discriminate H|discriminate H] end.
  pose proof (no_zeros_got _ _ _ _ (got_ready _ _ _ _ G) E1) as X. clear E1. gjoin G X. pose proof (strict_sort_got o _ _ _ _ _ (got_ready _ _ _ _ G) H) as X. gjoin G X. exact G.
Qed.
Lemma supp_says_at : forall o debug v v' b sup rx, vready v -> supp_verify o debug v b sup rx = Ok v' ->
  exists h g g1 g2 k, mget (vt_virt v') k = Some (VFun ordered_fun) /\
   sound v v' [h; g; g1; g2] (fun A N V => 2 ^ N < fsize p -> fst (A (vt_next v)) <= bc_nv sup ->
    forall l sl l' sl' rl, plist_bag A V N b l sl -> plist_bag A V N sup l' sl' -> plist A V N (bc_poly rx) (bc_nv rx) rl -> let ml := column A (bc_nv sup) (vt_next v) in
    boolean sl' -> small_range rl (bc_nv sup) -> ~ unlucky (combine l sl) (wcol l' sl' ml) h ->
    sort_lucky_at A N (bc_nv sup) (bc_nv rx) (Nat.min (fst (A k)) N) (vt_next v + 24) (vt_next v + 59) l' rl g g1 g2 ->
    NoDup (rows l' sl') /\ (forall x, In x (rows l' sl') <-> weight (combine l sl) x <> F0)).
Proof.
  intros o debug v v' b sup rx R H. unfold supp_verify in H. destruct (v_transfer debug v) as [[m v0]| |] eqn:E0; cbn [bind] in H; [|discriminate H|discriminate H]. destruct (transfer_says H22 _ _ _ _ R E0) as [Rm S0].
  pose proof (got_transfer _ _ _ _ R E0) as N0. destruct (go_transfer _ _ _ _ R E0) as [Em _]. clear E0. subst m. unfold supp_verify_with_advice in H. pose proof (sound_ready _ _ _ _ S0) as R0.
  match type of H with context [inclusion_verify_with_advice ?o ?d ?v ?a ?b ?m] => destruct (inclusion_verify_with_advice o d v a b m) as [v1| |] eqn:E1; cbn [bind] in H; [|discriminate H|discriminate H] end.
  match type of H with context [no_zeros_verify ?d ?v ?a] => destruct (no_zeros_verify d v a) as [v2| |] eqn:E2; cbn [bind] in H; [|discriminate H|discriminate H] end.
  destruct (incl_wa_says o Hp H22 _ _ _ _ _ _ R0 E1) as [h S1]. pose proof (inclusion_wa_got o _ _ _ _ _ _ R0 E1) as N1. pose proof (sound_ready _ _ _ _ S1) as R1.
  pose proof (nz_says H22 _ _ _ _ R1 E2) as S2. pose proof (no_zeros_got _ _ _ _ R1 E2) as N2. pose proof (sound_ready _ _ _ _ S2) as R2. clear E1 E2.
  destruct (strict_sort_sound_at o Hp H22 _ _ _ _ _ R2 H) as [g [g1 [g2 [q [mm [k [[Q1 Q2] [_ [_ [Mk S3]]]]]]]]]]. exists h, g, g1, g2, k. split; [exact Mk|].
  assert (HN : vt_next v2 = vt_next v + 22) by (destruct N0 as [_ [X0 _]], N1 as [_ [X1 _]], N2 as [_ [X2 _]]; lia). clear N0 N1 N2.
  replace q with (vt_next v + 24) in S3 by lia. replace mm with (vt_next v + 59) in S3 by lia. clear Q1 Q2 HN.
  pose proof (sound_seq _ _ _ _ _ _ _ S0 (sound_seq _ _ _ _ _ _ _ S1 (sound_seq _ _ _ _ _ _ _ S2 S3))) as S. cbn [app] in S. eapply sound_imp; [exact S|]. cbv beta.
  intros A N V Sv [_ [Q1 [Q2 Q3]]] HN Hm l sl l' sl' rl Bb Bs Pr ml Hb Hr Hu HL.
  assert (Pm : plist A V N (vt_next v) (bc_nv sup) ml). { apply (plist_column H22); [apply Sv|exact Hm|apply Bs]. pose proof (sound_seq _ _ _ _ _ _ _ S1 (sound_seq _ _ _ _ _ _ _ S2 S3)) as S13. eapply received_up; eassumption. }
  pose proof (Q1 _ _ _ _ _ Bb Bs Pm Hu) as Hsame. pose proof (Q3 HN _ _ _ Bs Pr HL) as Hsort. specialize (Q2 ml sl' (conj Pm (proj2 Bs))).
  destruct Bs as [Bs1 Bs2]. apply pl_len in Bs1, Bs2, Pm. rewrite Pm in Q2. rewrite <- Bs1 in Q2. assert (Hn : NoDup (rows l' sl')) by (eapply sorted_distinct; eauto).
  split; [exact Hn|]. apply (support_rows l' sl' ml); auto; congruence.
Qed.

Lemma supp_count : forall (A : list F -> reading) N d D m st q (last : list F -> option (vtrk E)) debug b sup rx l sl l' sl' rl mults (shifted counts : list F -> list F),
  1 <= d -> d < fsize p -> 2 ^ N < fsize p -> boolean sl -> boolean sl' -> small_range rl (bc_nv sup) ->
  (forall gs u, length gs = 4 -> last gs = Some u -> checkable (A gs) N d D m u /\ (forall ch, queries_true (A gs) (facing (st gs) (q gs) u ch)) /\
     exists v v', after_call (fun o v => supp_verify o debug v b sup rx) gs v v' u /\ bag_reads (A gs) N v b l sl /\ bag_reads (A gs) N v sup l' sl' /\
       reads (A gs) N v (bc_poly rx) (bc_nv rx) rl /\
       let got := received_ids v v' in
       fst (A gs (nth 0 got 0)) <= bc_nv sup /\ column (A gs) (bc_nv sup) (nth 0 got 0) = mults /\
       column (A gs) N (nth 4 got 0) = shifted (firstn 1 gs) /\ column (A gs) N (nth 9 got 0) = counts (firstn 3 gs)) ->
  ~ (NoDup (rows l' sl') /\ forall x, In x (rows l' sl') <-> In x (rows l sl)) ->
  count (passes_after 4 st q last) (allV p (4 + (m + N))) <=
    (4 * 2 ^ N * 2 ^ N + 2 * 2 ^ N + (length l + 2 * length l' + length rl) + (N + 2 + N * Nat.max d (D + 1))) * fsize p ^ (3 + (m + N)).
Proof.
  intros A N d D m st q last debug bb sup rx l sl l' sl' rl mults shifted counts H1 H2 HN Y1 Y2 Y3 HL Hno.
  set (a := combine (spread N N (index_column (p:=p) N)) (spread N (bc_nv sup) l')). set (b := fun g0 : F => combine (spread N (bc_nv sup) (next_column (p:=p) (bc_nv sup))) (shifted [g0])).
  assert (La : length a <= 2 ^ N) by (unfold a; rewrite combine_length, spread_len; lia). assert (Lb : forall g0, length (b g0) <= 2 ^ N) by (intros; unfold b; rewrite combine_length, spread_len; lia).
  replace (3 + (m + N)) with (4 + (m + N) - 1) by lia.
  apply (after_count_any Hp H22 4 (fun pre g => match pre with [] => unlucky (combine l sl) (wcol l' sl' mults) g | [h] => clash a (b h) g | [h; g0] => unlucky (unit_bag (folded g0 a)) (unit_bag (folded g0 (b h))) g
     | _ => unlucky (unit_bag (steps l')) (combine rl (mean_of N (bc_nv rx) (counts pre))) g end)
    (fun i => match i with 0 => length l + length l' | 1 => 4 * 2 ^ N * 2 ^ N | 2 => 2 * 2 ^ N | _ => length l' + length rl end) A N d D m st q last (4 * 2 ^ N * 2 ^ N + 2 * 2 ^ N + (length l + 2 * length l' + length rl)) H1 H2).
  - intros [|h [|g0 [|g1 pre]]] Hpre; cbn [length].
    + destruct (unlucky_count Hp H22 (combine l sl) (wcol l' sl' mults)) as [c [X1 X2]]. exists c. split; [exact X1|]. unfold wcol in X2. rewrite ?app_length, ?map_length, ?combine_length in X2. lia.
    + destruct (clash_count Hp a (b h)) as [c [X1 X2]]. exists c. split; [exact X1|]. specialize (Lb h). nia.
    + destruct (unlucky_count Hp H22 (unit_bag (folded g0 a)) (unit_bag (folded g0 (b h)))) as [c [X1 X2]]. exists c. split; [exact X1|]. specialize (Lb h). unfold unit_bag, folded in X2. rewrite !map_length in X2. lia.
    + destruct (unlucky_count Hp H22 (unit_bag (steps l')) (combine rl (mean_of N (bc_nv rx) (counts (h :: g0 :: g1 :: pre))))) as [c [X1 X2]]. exists c. split; [exact X1|]. unfold unit_bag, steps in X2. rewrite !map_length, seq_length, combine_length in X2. lia.
  - intros gs u Hk Hu. destruct (HL gs u Hk Hu) as [C [Q [v [v' [Ha [R0 [R1 [R2 R3]]]]]]]].
    split; [apply (after_session (fun o v => supp_verify o debug v bb sup rx) gs v v' u); [intros o0 v0 v1 H0; eapply vc_supp; exact H0|exact Ha]|]. split; [exact C|]. split; [exact Q|].
    intros Hc Hgood. destruct Ha as [o [S1 [S2 [S3 S4]]]]. pose proof (session_ready o Hp H22 v S1) as RV. pose proof (vcalls_go o Hp H22 v' u S4) as RL.
    destruct (supp_says_at o debug v v' bb sup rx RV S2) as [h [g [g1 [g2 [k [X2 S]]]]]]. destruct (use v v' u (A gs) N RL Hc _ _ S) as [X1 X3].
    assert (X4 : mget (vt_virt u) k = Some (VFun ordered_fun)) by (destruct (RL (sound_ready _ _ _ _ S)) as [ds GD]; apply (y_sub _ _ _ GD); exact X2).
    pose proof (index_wide H22 (A gs) N u k (proj2 (proj2 (proj2 (proj2 (proj2 C))))) X4 HN) as HK. rewrite Nat.min_r in X3 by exact HK.
    cbv zeta in R3. rewrite (got_received H22 _ _ _ _ (supp_got o _ _ _ _ _ _ RV S2)) in R3. cbn [map nth] in R3. rewrite Nat.add_0_r in R3. destruct R3 as [R3 [R4 [R5 R6]]]. pose proof (proj1 R2) as Hnr.
    rewrite S3 in X1. pose proof (Hgood 0 ltac:(lia)) as G0. pose proof (Hgood 1 ltac:(lia)) as G1. pose proof (Hgood 2 ltac:(lia)) as G2. pose proof (Hgood 3 ltac:(lia)) as G3. rewrite X1 in G0, G1, G2, G3. cbn [firstn nth] in G0, G1, G2, G3.
    rewrite X1 in R5, R6. cbn [firstn] in R5, R6. rewrite X1 in R4.
    destruct (X3 HN R3 l sl l' sl' rl (bag_in v v' u (A gs) N RL _ _ _ _ _ S R0) (bag_in v v' u (A gs) N RL _ _ _ _ _ S R1) (id_in v v' u (A gs) N RL _ _ _ _ _ S R2) Y2 Y3) as [Z1 Z2].
    + rewrite X1, R4. exact G0.
    + unfold sort_lucky_at. cbv zeta. rewrite X1. rewrite R5. split; [split; [exact G1|exact G2]|]. rewrite (averaged_mean H22) by exact Hnr. rewrite R6. exact G3.
    + apply Hno. split; [exact Z1|]. intros x. rewrite Z2. destruct (bag_read_len v (A gs) N _ _ _ R0) as [L1 L2]. symmetry. apply (rows_weight' Hp); [congruence|exact Y1|eapply bag_fits; eauto].
  - cbn [seq map list_sum fold_right]. lia.
Qed.
End P.
