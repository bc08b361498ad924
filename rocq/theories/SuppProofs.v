(** Computing, committing and proving the support of a bag, from the prover's calls to the verifier's verdict. *)
From Coq Require Import String List Arith Lia Bool ZArith Znumtheory Permutation Sorted.
Import ListNotations.
From Verif Require Import Res ResLemmas Fp FSum SpecMle SpecKzg SpecPoly PolyLemmas SpecSumcheck SpecBatch SpecTracker SpecIop SpecRel SpecJoin ModelMle MleLemmas MleProofs MleExtra ModelVp ModelTranscript ModelSumcheck
  Pairing ModelKzg ModelBatch ModelProver ModelVerifier ModelAdvice ModelIop ProverHist VerifierHist CompileHist SessHist IopHist IopRes TmapLemmas ProverProofs HistExtra LockProofs
  CompileMain CompileSound LogDeriv BagLemmas AdviceProofs AdviceProofs2 AdviceProofs4 AdviceProofs5 IopWorld IopMain IopBasic IopMulti IopRuns IopSort IopVer IopSound IopSound2 SortSound IopCheck IopComp CompCheck IopComp2 IopComp3 IopFull PlanHist IopSplit PlanProofs SplitProofs SuppHist.
Local Open Scope string_scope.
Local Open Scope list_scope.
Local Open Scope nat_scope.

Section S.
Context {p : positive} {E : pairing p}.
Hypothesis HE : pairing_laws E.
Hypothesis Hp : prime (Zpos p).
Notation comm := (gcar (PG1 E)).
Section R.
Hypothesis H2 : 2 < fsize p.
Variables (o : oracle p comm) (pp : pparam E) (K : nat).
Hypothesis Hpp : forall n l, n <= K -> length l = 2 ^ n -> exists c, kzg_commit pp (mkMle n l) = Ok c.
Variable D : nat.
Notation good := (good o pp K D).
Notation ran_at := (ran_at o pp K D).
Notation ran := (ran o pp K D).

Lemma support_at : forall w b rx l sl rl rsl d dbg, good w -> hasb w b l sl d -> hasb w rx rl rsl d -> boolean sl -> 1 <= d -> 2 * d + 3 <= D ->
  exists vals, ascending vals /\ (forall x, In x vals <-> In x (rows l sl)) /\ length vals <= 2 ^ b_nv b /\
  let n := b_nv b in let cl := merged n vals in let csl := merged_sel n vals in let ml := merged_count n vals l sl in
  exists w1 sup m h g g1 g2 wl, range_weights cl rl wl /\ prove_support o dbg (ws w) b rx = Ok (sup, m, ws w1) /\ hasb w1 sup cl csl d /\ hasd w1 m ml d /\ b_nv sup = n /\ tp_nv m = n /\
    ran_at w w1 (Ok (ws w1)) [h; g; g1; g2] ((clear h l /\ clear h cl) /\ lz (nz_claim ml csl) /\ sort_claims n cl csl rl g g1 g2)
      (verify_support o (comm_of b) (comm_of rx)) (incl_fits l sl cl csl ml h && sort_fits cl rl wl g2).
Proof.
  intros w b rx l sl rl rsl d dbg G Hb Hr Bs Hd HD. pose proof (hasb_len o pp K D _ _ _ _ _ G Hb) as [Lb [Lbs Kb]].
  destruct (supp_advice_ok (b_nv b) l sl Lb Lbs Bs) as [vals [V1 [V2 [V3 V4]]]]. cbv zeta in V4. exists vals. split; [exact V1|]. split; [exact V2|]. split; [exact V3|]. cbv zeta. set (n := b_nv b) in *.
  change (supp_advice n l sl = Ok (mkMle n (merged n vals), mkMle n (merged_sel n vals), mkMle n (merged_count n vals l sl))) in V4.
  assert (Q1 : length (merged n vals) = 2 ^ n) by (unfold merged; rewrite app_length, repeat_length; lia).
  assert (Q2 : length (merged_sel n vals) = 2 ^ n) by (unfold merged_sel; rewrite app_length, !repeat_length; lia).
  assert (Q3 : length (merged_count n vals l sl) = 2 ^ n) by (unfold merged_count; rewrite app_length, map_length, repeat_length; lia).
  set (cl := merged n vals) in *. set (csl := merged_sel n vals) in *. set (ml := merged_count n vals l sl) in *. clearbody cl csl ml.
  pose proof Hb as [B1 [B2 B3]].
  destruct (evals_at o pp K D w _ _ d G B1) as [w1 [E1 [S1 T1]]]. pose proof (step_good _ _ _ _ _ _ _ _ S1) as G1. pose proof (step_le _ _ _ _ _ _ _ _ S1) as L1.
  destruct (evals_at o pp K D w1 _ _ d G1 (hasd_le o pp K D _ _ _ _ _ G L1 B2)) as [w2 [E2 [S2 T2]]]. pose proof (step_good _ _ _ _ _ _ _ _ S2) as G2. pose proof (step_le _ _ _ _ _ _ _ _ S2) as L2.
  destruct (commit_run o pp K Hpp D w2 n cl d G2 Q1 Kb ltac:(lia) Hd) as [w5 [hc [C5 [H5 N5]]]]. pose proof (proj1 (proj2 C5)) as S5. pose proof (step_good _ _ _ _ _ _ _ _ S5) as G5. pose proof (step_le _ _ _ _ _ _ _ _ S5) as L5.
  destruct (commit_run o pp K Hpp D w5 n csl d G5 Q2 Kb ltac:(lia) Hd) as [w6 [hs [C6 [H6 N6]]]]. pose proof (proj1 (proj2 C6)) as S6. pose proof (step_good _ _ _ _ _ _ _ _ S6) as G6. pose proof (step_le _ _ _ _ _ _ _ _ S6) as L6.
  destruct (commit_run o pp K Hpp D w6 n ml d G6 Q3 Kb ltac:(lia) Hd) as [w7 [m [C7 [H7 N7]]]]. pose proof (proj1 (proj2 C7)) as S7. pose proof (step_good _ _ _ _ _ _ _ _ S7) as G7. pose proof (step_le _ _ _ _ _ _ _ _ S7) as L7.
  assert (Up : forall q x y, hasb w q x y d -> hasb w7 q x y d).
  { intros q x y Hq. apply (hasb_le o pp K D _ _ _ _ _ _ G6 L7). apply (hasb_le o pp K D _ _ _ _ _ _ G5 L6). apply (hasb_le o pp K D _ _ _ _ _ _ G2 L5). apply (hasb_le o pp K D _ _ _ _ _ _ G1 L2). exact (hasb_le o pp K D _ _ _ _ _ _ G L1 Hq). }
  assert (Hc : hasb w7 (mkBag hc hs) cl csl d).
  { apply (hasb_le o pp K D _ _ _ _ _ _ G6 L7). split; [exact (hasd_le o pp K D _ _ _ _ _ G5 L6 H5)|]. split; [exact H6|cbn; congruence]. }
  destruct (supp_wa_at Hp H2 o pp K Hpp D w7 b (mkBag hc hs) m rx l sl cl csl ml rl rsl d dbg G7 (Up _ _ _ Hb) Hc H7 ltac:(unfold b_nv; cbn; congruence) (Up _ _ _ Hr) Hd HD) as [w9 [h [g [g1 [g2 [wl [HW R]]]]]]].
  rewrite (comm_two hc hs n N5) in R. replace (b_nv (mkBag hc hs)) with n in R by (symmetry; exact N5).
  pose proof (proj1 R) as E9. pose proof (ran_good _ _ _ _ _ _ _ _ _ _ _ R) as G9. pose proof (ran_le _ _ _ _ _ _ _ _ _ _ _ R) as L9.
  exists w9, (mkBag hc hs), m, h, g, g1, g2, wl. split; [exact HW|].
  assert (X : prove_support o dbg (ws w) b rx = Ok (mkBag hc hs, m, ws w9)).
  { unfold prove_support, supp_advice_bag. rewrite E1. cbn [bind]. rewrite E2. cbn [bind]. fold n. rewrite V4. cbn [bind]. unfold commit_bag. cbn [fst snd]. rewrite (proj1 C5). cbn [bind]. rewrite (proj1 C6). cbn [bind].
    rewrite bag_new_ok by congruence. cbn [bind]. rewrite (proj1 C7). cbn [bind]. rewrite E9. reflexivity. }
  split; [exact X|]. split; [exact (hasb_le o pp K D _ _ _ _ _ _ G7 L9 Hc)|]. split; [exact (hasd_le o pp K D _ _ _ _ _ G7 L9 H7)|]. split; [exact N5|]. split; [exact N7|].
  destruct R as [_ [S9 T9]]. split; [reflexivity|]. split.
  { pose proof (step_trans _ _ _ _ _ _ _ _ _ _ _ S1 (step_trans _ _ _ _ _ _ _ _ _ _ _ S2 (step_trans _ _ _ _ _ _ _ _ _ _ _ S5 (step_trans _ _ _ _ _ _ _ _ _ _ _ S6 (step_trans _ _ _ _ _ _ _ _ _ _ _ S7 S9))))) as S. cbn [app] in S. eapply step_imp; [exact S|tauto]. }
  intros cp vk N v debug L Cv. pose proof (cov_le _ _ _ _ _ _ _ _ G7 L9 Cv) as Cv7. pose proof (cov_le _ _ _ _ _ _ _ _ G6 L7 Cv7) as Cv6. pose proof (cov_le _ _ _ _ _ _ _ _ G5 L6 Cv6) as Cv5.
  destruct (proj2 (proj2 (proj2 C5)) cp vk N v debug (T2 _ _ _ (T1 _ _ _ L)) Cv5) as [v1 [X1 [K1 V1']]]. destruct (proj2 (proj2 (proj2 C6)) cp vk N v1 debug K1 Cv6) as [v2 [X2 [K2 V2']]]. destruct (proj2 (proj2 (proj2 C7)) cp vk N v2 debug K2 Cv7) as [v3 [X3 [K3 V3']]].
  destruct (T9 cp vk N v3 debug K3 Cv) as [v4 [X4 [K4 V4']]]. exists v4. split; [|split; [exact K4|eapply vext_trans; [eapply vext_trans; [eapply vext_trans; eassumption|exact V3']|exact V4']]].
  unfold verify_support. rewrite X1. cbn [bind]. rewrite X2. cbn [bind]. rewrite X3. cbn [bind]. exact X4.
Qed.
End R.

(** No selected multiplicity of the computed support is zero. *)
Lemma merged_nonzero : forall n (vals l sl : list (F p)), length l < fsize p -> length sl = length l -> (forall x, In x vals -> In x (rows l sl)) -> ~ In F0 (rows (merged_count n vals l sl) (merged_sel n vals)).
Proof.
  intros n vals l sl Hl Ls Hv Hin. apply rows_In in Hin; [|unfold merged_count, merged_sel; rewrite !app_length, !repeat_length, map_length; lia]. destruct Hin as [i [I1 [I2 I3]]].
  unfold merged_count, merged_sel in *. set (z := 2 ^ n - length vals) in *. clearbody z. destruct (Nat.lt_ge_cases i z) as [Q|Q].
  - apply I3. rewrite app_nth1 by (rewrite repeat_length; exact Q). apply nth_repeat.
  - rewrite app_length, repeat_length, map_length in I1. rewrite app_nth2 in I2 by (rewrite repeat_length; lia). rewrite repeat_length in I2. assert (Hj : i - z < length vals) by lia.
    rewrite (nth_indep _ F0 (ofN (count_occ F_dec (rows l sl) F0))) in I2 by (rewrite map_length; exact Hj). rewrite (map_nth (fun x => ofN (count_occ F_dec (rows l sl) x))) in I2.
    pose proof (Hv _ (nth_In vals F0 Hj)) as Hc. apply (count_occ_In F_dec) in Hc.
    revert I2. apply ofN_neq_0; [exact Hc|]. apply count_rows_lt. exact Hl.
Qed.

Section C.
Variables (o : oracle p comm) (addr : nat -> nat) (k : nat) (ck : pparam E) (vk : vparam E) (ops : list (pop p)) (vops : list (vop E)) (s : ptrk E) (hs : list tpoly) (d D : nat).
Hypothesis HS : setting o addr k ck vk ops vops s hs d D.
Hypothesis HD : 1 <= D.
Hypothesis Hd : d <= D.
Let w0 : wd := start ops s hs.
Let G0 : good o ck k D w0 := set_good o addr k ck vk ops vops s hs d D HS HD Hd.
Let Hpp := Hpp0 HE o addr k ck vk ops vops s hs d D HS.
Let H2 : 2 < fsize p := st_two _ _ _ _ _ _ _ _ _ _ _ HS.
Let judge := ran_judge HE Hp o addr k ck vk ops vops s hs d D HS HD Hd.
Let has := bag_hasb o addr k ck vk ops vops s hs d D HS HD Hd.
Let len := bag_len o addr k ck vk ops vops s hs d D HS HD Hd.

Lemma support_check : forall dbg b rx l sl rl rsl, bag_stands ops hs b l sl -> bag_stands ops hs rx rl rsl -> 1 <= d -> 2 * d + 3 <= D -> boolean sl -> length l < fsize p ->
  exists s' sup m vals h g g1 g2 wl, let n := b_nv b in let c := merged n vals in prove_support o dbg s b rx = Ok (sup, m, s') /\ SpecIop.drawn (pt_tr s) (pt_tr s') = [h; g; g1; g2] /\
    ascending vals /\ (forall x, In x vals <-> In x (rows l sl)) /\ length vals <= 2 ^ n /\
    PlanHist.bag_reads s' sup n c (repeat F0 (2 ^ n - length vals) ++ repeat F1 (length vals)) /\
    length wl = length rl /\ counts_of (steps c) rl (combine rl wl) /\
    let verify := verify_support o (comm_of b) (comm_of rx) in
    let avoid := ~ In h (l ++ c) /\ sort_avoids n c rl g g1 g2 in
    (avoid -> incl (steps c) rl -> accepted o addr vk vops s' verify) /\
    (~ incl (steps c) rl -> ~ unlucky (unit_bag (steps c)) (combine rl wl) g2 -> turned_down o addr k vk vops s' verify) /\
    (~ avoid -> refused addr k s').
Proof.
  intros dbg b rx l sl rl rsl B1 B3 H1 H3 Hb Hl. destruct (len _ _ _ B1) as [L1 L2].
  destruct (support_at H2 o ck k Hpp D w0 b rx l sl rl rsl d dbg G0 (has _ _ _ B1) (has _ _ _ B3) Hb H1 H3) as [vals [V1 [V2 [V3 [w1 [sup [m [h [g [g1 [g2 [wl [HW [Q [A [B [N1 [N2 R]]]]]]]]]]]]]]]]]]. set (n := b_nv b) in *.
  assert (Lc : length (merged n vals) = 2 ^ n) by (unfold merged; rewrite app_length, repeat_length; lia). assert (Lcs : length (merged_sel n vals) = 2 ^ n) by (unfold merged_sel; rewrite app_length, !repeat_length; lia).
  assert (Lm : length (merged_count n vals l sl) = 2 ^ n) by (unfold merged_count; rewrite app_length, map_length, repeat_length; lia). assert (Hne : merged n vals <> []) by (intros X; rewrite X in Lc; cbn in Lc; pose proof (Nat.pow_nonzero 2 n); lia).
  destruct (judge _ _ _ _ _ (at_ran _ _ _ _ _ _ _ _ _ _ _ R)) as [s' [A1 [A2 [A3 [_ [A5 A6]]]]]]. injection A1 as <-. destruct (range_sense Hp H2 _ rl wl Hne HW) as [W1 W2].
  exists (ws w1), sup, m, vals, h, g, g1, g2, wl. cbv zeta. split; [exact Q|]. split; [exact A2|]. split; [exact V1|]. split; [exact V2|]. split; [exact V3|].
  pose proof (ran_good _ _ _ _ _ _ _ _ _ _ _ R) as G1. destruct A as [Aa [Ab Ac]]. split.
  { destruct (call_evals o ck k D w1 _ _ _ G1 Aa) as [x1 [E1 _]]. destruct (call_evals o ck k D w1 _ _ _ G1 Ab) as [x2 [E2 _]]. split; [exact N1|]. split; [rewrite <- Ac; exact N1|]. split; eexists; eassumption. }
  split; [exact W1|]. split; [exact W2|].
  pose proof (merged_same Hp H2 n vals l sl V1 ltac:(lia) Hb ltac:(intros x Hx; apply V2; auto)) as M1. pose proof (merged_strict H2 n vals V1) as Hs.
  pose proof (merged_nonzero n vals l sl Hl ltac:(lia) ltac:(intros x Hx; apply V2; exact Hx)) as Hz.
  rewrite (sort_sense Hp H2 n _ _ _ _ _ _ Lc Lcs), !(clear_in Hp), (nz_claim_zero Hp) in A3, A5, A6 by lia.
  assert (X1 : In h (l ++ merged n vals) <-> In h l \/ In h (merged n vals)) by apply in_app_iff.
  split; [|split].
  - intros [Ha Ha'] Hi. pose proof Ha as Ha1. rewrite X1 in Ha1. apply A3; [tauto|].
    rewrite (proj1 (incl_fits_verdict l sl (merged n vals) (merged_sel n vals) (merged_count n vals l sl) h ltac:(lia) ltac:(lia) ltac:(lia) Ha) M1). exact (proj1 (sort_verdict Hp H2 n (merged n vals) rl wl g g1 g2 Hne HW ltac:(lia) Ha') Hi).
  - intros Hni Hu. apply A6. intros [[_ [_ [Ha _]]] Hfit]. apply Hni. apply andb_prop in Hfit. destruct Hfit as [_ Hfit]. exact (proj2 (sort_verdict Hp H2 n (merged n vals) rl wl g g1 g2 Hne HW ltac:(lia) Ha) Hfit Hu).
  - intros Hna. apply A5. rewrite X1 in Hna. tauto.
Qed.
End C.
End S.
