(** The check that two bags are disjoint: how often bags with a common value pass, when the prover commits to each column before the next challenge. *)
From Coq Require Import String List Arith Lia Bool ZArith Znumtheory Permutation.
Import ListNotations.
From Verif Require Import Res ResLemmas Fp FSum SpecMle SpecPoly SpecTracker SpecIop SpecRel ModelTranscript SumcheckHist MleLemmas PolyLemmas Pairing ModelKzg ModelBatch ModelProver ModelVerifier ModelIop
  VerifierHist CompileHist IopHist LogDeriv BagLemmas IopSort IopVer IopSound IopGot MleExtra AdviceProofs SortSound IopClaims CompSound CompSound2 CompSound3 CompClaims SessHist SessProofs CheckHist CheckProofs CheckIopHist CheckIop CheckSort.
Local Open Scope list_scope.
Local Open Scope nat_scope.
#[local] Opaque track_virtual v_add_scalar.

Section P.
Context {p : positive} {E : pairing p}.
Hypothesis Hp : prime (Zpos p).
Hypothesis H22 : 2 < fsize p.
Notation F := (F p).
Notation comm := (gcar (PG1 E)).
Implicit Types (v : vtrk E).

Lemma disjoint_got : forall o debug v a b rx v', vready v -> bag_disjoint_verify o debug v a b rx = Ok v' ->
  got v v' 98 [0; 1; 2; 3; 6; 9; 10; 18; 26; 41; 43; 51; 59; 65; 73; 82; 90].
Proof.
  intros o debug v a b rx v' R H. pose proof (got_refl v R) as G. unfold bag_disjoint_verify in H. cbv zeta in H. do 4 gtrans G H. unfold bag_disjoint_verify_with_advice in H.
  match type of H with context [strict_sort_verify ?o ?d ?v ?a ?b] => destruct (strict_sort_verify o d v a b) as [w| |] eqn:E1; cbn [bind] in H; [|discriminate H|discriminate H] end.
  pose proof (strict_sort_got o _ _ _ _ _ (got_ready _ _ _ _ G) E1) as X. clear E1. gjoin G X.
  match type of H with context [mul_comms ?v ?a ?b] => destruct (mul_comms v a b) as [im w1] eqn:E1 end.
  pose proof (got_virtual _ _ _ _ (got_ready _ _ _ _ G) E1 I) as X. clear E1. gjoin G X.
  pose proof (got_same w1 (v_add_zerocheck_claim w1 im) (got_ready _ _ _ _ G) eq_refl eq_refl) as X. gjoin G X.
  match type of H with context [inclusion_verify_with_advice ?o ?d ?v ?a ?b ?m] => destruct (inclusion_verify_with_advice o d v a b m) as [w2| |] eqn:E1; cbn [bind] in H; [|discriminate H|discriminate H] end.
  pose proof (inclusion_wa_got o _ _ _ _ _ _ (got_ready _ _ _ _ G) E1) as X. clear E1. gjoin G X. pose proof (inclusion_wa_got o _ _ _ _ _ _ (got_ready _ _ _ _ G) H) as X. gjoin G X. exact G.
Qed.
Lemma disjoint_says_at : forall o debug v v' a b rx, vready v -> bag_disjoint_verify o debug v a b rx = Ok v' -> let n := Nat.max (bc_nv a) (bc_nv b) + 1 in let b0 := vt_next v in
  exists g g1 g2 h h' k, mget (vt_virt v') k = Some (VFun ordered_fun) /\
   sound v v' [g; g1; g2; h; h'] (fun A N V => 2 ^ N < fsize p -> n <= N -> Forall (fun i => fst (A i) <= n) [b0; b0 + 1; b0 + 2; b0 + 3] ->
    forall l sl l' sl' rl, plist_bag A V N a l sl -> plist_bag A V N b l' sl' -> plist A V N (bc_poly rx) (bc_nv rx) rl -> let cl := column A n b0 in let csl := column A n (b0 + 1) in
    boolean sl -> boolean sl' -> small_range rl n -> sort_lucky_at A N n (bc_nv rx) (Nat.min (fst (A k)) N) (b0 + 6) (b0 + 41) cl rl g g1 g2 ->
    ~ unlucky (combine l sl) (wcol cl csl (column A n (b0 + 2))) h -> ~ unlucky (combine l' sl') (wcol cl csl (column A n (b0 + 3))) h' ->
    forall x, In x (rows l sl) -> In x (rows l' sl') -> False).
Proof.
  intros o debug v v' a b rx R H n b0. unfold bag_disjoint_verify in H. cbv zeta in H. fold n in H.
  destruct (v_transfer debug v) as [[cp v1]| |] eqn:E1; cbn [bind] in H; [|discriminate H|discriminate H]. destruct (transfer_says H22 _ _ _ _ R E1) as [R1 S1]. destruct (go_transfer _ _ _ _ R E1) as [I1 [J1 _]].
  destruct (v_transfer debug v1) as [[cs v2]| |] eqn:E2; cbn [bind] in H; [|discriminate H|discriminate H]. destruct (transfer_says H22 _ _ _ _ (sound_ready _ _ _ _ S1) E2) as [R2 S2]. destruct (go_transfer _ _ _ _ (sound_ready _ _ _ _ S1) E2) as [I2 [J2 _]].
  destruct (v_transfer debug v2) as [[ma v3]| |] eqn:E3; cbn [bind] in H; [|discriminate H|discriminate H]. destruct (transfer_says H22 _ _ _ _ (sound_ready _ _ _ _ S2) E3) as [R3 S3]. destruct (go_transfer _ _ _ _ (sound_ready _ _ _ _ S2) E3) as [I3 [J3 _]].
  destruct (v_transfer debug v3) as [[mb v4]| |] eqn:E4; cbn [bind] in H; [|discriminate H|discriminate H]. destruct (transfer_says H22 _ _ _ _ (sound_ready _ _ _ _ S3) E4) as [R4 S4]. destruct (go_transfer _ _ _ _ (sound_ready _ _ _ _ S3) E4) as [I4 [J4 _]].
  clear E1 E2 E3 E4. pose proof (sound_ready _ _ _ _ S4) as RV4. unfold bag_disjoint_verify_with_advice in H.
  match type of H with context [strict_sort_verify ?o ?d ?v ?a ?b] => destruct (strict_sort_verify o d v a b) as [v5| |] eqn:E1; cbn [bind] in H; [|discriminate H|discriminate H] end.
  destruct (strict_sort_sound_at o Hp H22 _ _ _ _ _ RV4 E1) as [g [g1 [g2 [q [mm [k [[Q1 Q2] [_ [_ [Mk S5]]]]]]]]]]. clear E1. cbn [bc_nv] in S5.
  assert (S6 : exists v6, v6 = v_add_zerocheck_claim (snd (mul_comms v5 ma mb)) (fst (mul_comms v5 ma mb)) /\ sound v5 v6 [] (fun A N V => forall n al bl, plist A V N ma n al -> plist A V N mb n bl -> forall k, k < 2 ^ n -> (nth k al F0 * nth k bl F0)%F = F0)).
  { eexists. split; [reflexivity|]. destruct (mul_comms v5 ma mb) as [i u] eqn:Em. cbn [fst snd]. destruct (go_virtual _ (@VMul p ma mb) i u (sound_ready _ _ _ _ S5) Em) as [_ [_ [Im G]]].
    pose proof (go_zero u i (y_ready _ _ _ G)) as G2. split; [exact (vgo_trans _ _ _ _ _ G G2)|]. intros A N V Sv C n0 al bl [A1 [A2 A3]] [B1 [B2 B3]] k0 Hk.
    assert (Iz : In i (vt_zc (v_add_zerocheck_claim u i))) by (cbn; apply in_or_app; right; left; reflexivity). pose proof (Nat.pow_le_mono_r 2 n0 N ltac:(lia) A1). apply (y_sub _ _ _ G2) in Im. apply Sv in Im.
    pose proof (zclaim _ _ _ _ _ _ C Iz (ps_mul _ _ _ _ _ _ _ _ Im A3 B3) k0 ltac:(lia)) as Z. cbv beta in Z. unfold per in Z. rewrite Nat.mod_small in Z by exact Hk. exact Z. }
  destruct S6 as [v6 [Hv6 S6]]. destruct (mul_comms v5 ma mb) as [i u]. cbn [fst snd] in Hv6. rewrite <- Hv6 in H. clear Hv6 i u.
  match type of H with context [inclusion_verify_with_advice ?o ?d ?v ?a ?b ?m] => destruct (inclusion_verify_with_advice o d v a b m) as [v7| |] eqn:E1; cbn [bind] in H; [|discriminate H|discriminate H] end.
  destruct (incl_wa_says o Hp H22 _ _ _ _ _ _ (sound_ready _ _ _ _ S6) E1) as [h S7]. destruct (incl_wa_says o Hp H22 _ _ _ _ _ _ (sound_ready _ _ _ _ S7) H) as [h' S8]. clear E1 H.
  exists g, g1, g2, h, h', k. pose proof (sound_seq _ _ _ _ _ _ _ S6 (sound_seq _ _ _ _ _ _ _ S7 S8)) as S68. split; [apply (y_sub _ _ _ (proj1 S68)); exact Mk|].
  pose proof (sound_seq _ _ _ _ _ _ _ S5 S68) as S58. pose proof (sound_seq _ _ _ _ _ _ _ S4 S58) as S48. pose proof (sound_seq _ _ _ _ _ _ _ S3 S48) as S38. pose proof (sound_seq _ _ _ _ _ _ _ S2 S38) as S28. pose proof (sound_seq _ _ _ _ _ _ _ S1 S28) as S18.
  cbn [app] in *. replace q with (b0 + 6) in S5, S58, S48, S38, S28, S18 by lia. replace mm with (b0 + 41) in S5, S58, S48, S38, S28, S18 by lia.
  assert (X1 : cp = b0) by lia. assert (X2 : cs = b0 + 1) by lia. assert (X3 : ma = b0 + 2) by lia. assert (X4 : mb = b0 + 3) by lia. clear Q1 Q2 I1 I2 I3 I4 J1 J2 J3 J4. clearbody b0. subst cp cs ma mb.
  assert (RR1 : received v1 v' (b0 + 1)) by (eapply received_up; [exact R2|exact S38]). assert (RR2 : received v2 v' (b0 + 2)) by (eapply received_up; [exact R3|exact S48]). assert (RR3 : received v3 v' (b0 + 3)) by (eapply received_up; [exact R4|exact S58]).
  assert (RR0 : received v v' b0) by (eapply received_up; [exact R1|exact S28]).
  eapply sound_imp; [exact S18|]. cbv beta. intros A N V Sv [_ [_ [_ [_ [Z5 [Z6 [Z7 Z8]]]]]]] HN Hn Hf l sl l' sl' rl Ba Bb Pr. cbv zeta. intros Hba Hbb Hr HL Hu Hu' x Xa Xb.
  assert (PC : forall i, In i [b0; b0 + 1; b0 + 2; b0 + 3] -> plist A V N i n (column A n i)).
  { intros i Hi. rewrite Forall_forall in Hf. apply (plist_column H22); [apply Sv|apply Hf; exact Hi|exact Hn]. destruct Hi as [<-|[<-|[<-|[<-|[]]]]]; [apply RR0|apply RR1|apply RR2|apply RR3]. }
  assert (Bc : plist_bag A V N (mkBagc b0 (b0 + 1) n) (column A n b0) (column A n (b0 + 1))) by (split; apply PC; cbn; tauto).
  assert (Pa : plist A V N (b0 + 2) n (column A n (b0 + 2))) by (apply PC; cbn; tauto). assert (Pb : plist A V N (b0 + 3) n (column A n (b0 + 3))) by (apply PC; cbn; tauto). clear PC.
  pose proof (Z5 HN _ _ _ Bc Pr HL) as Hsort. pose proof (Z7 _ _ _ _ _ Ba Bc Pa Hu) as Sa. pose proof (Z8 _ _ _ _ _ Bb Bc Pb Hu') as Sb. specialize (Z6 _ _ _ Pa Pb).
  apply rows_weight' in Xa; [|exact Hp|destruct Ba as [Y1 Y2]; apply pl_len in Y1, Y2; congruence|exact Hba|eapply (pl_fits H22); [exact HN|apply Ba]].
  apply rows_weight' in Xb; [|exact Hp|destruct Bb as [Y1 Y2]; apply pl_len in Y1, Y2; congruence|exact Hbb|eapply (pl_fits H22); [exact HN|apply Bb]].
  destruct Bc as [Bc1 Bc2]. apply pl_len in Bc1, Bc2, Pa, Pb. cbn [bc_nv] in *. rewrite <- Bc1 in Z6. assert (Hnd : NoDup (rows (column A n b0) (column A n (b0 + 1)))) by (eapply sorted_distinct; eauto).
  refine (apart_rows Hp _ _ _ _ _ _ x _ _ _ Hnd Z6 Sa Sb Xa Xb); congruence.
Qed.

Lemma disjoint_count : forall (A : list F -> reading) N d D m st q (last : list F -> option (vtrk E)) debug a b rx l sl l' sl' rl cl csl ml ml' shifted (counts : list F -> list F),
  let n := Nat.max (bc_nv a) (bc_nv b) + 1 in
  1 <= d -> d < fsize p -> 2 ^ N < fsize p -> n <= N -> boolean sl -> boolean sl' -> small_range rl n ->
  (forall gs u, length gs = 5 -> last gs = Some u -> checkable (A gs) N d D m u /\ (forall ch, queries_true (A gs) (facing (st gs) (q gs) u ch)) /\
     exists v v', after_call (fun o v => bag_disjoint_verify o debug v a b rx) gs v v' u /\ bag_reads (A gs) N v a l sl /\ bag_reads (A gs) N v b l' sl' /\
       reads (A gs) N v (bc_poly rx) (bc_nv rx) rl /\
       let got := received_ids v v' in
       Forall (fun id => fst (A gs id) <= n) (firstn 4 got) /\ map (column (A gs) n) (firstn 4 got) = [cl; csl; ml; ml'] /\
       column (A gs) N (nth 4 got 0) = shifted /\ column (A gs) N (nth 9 got 0) = counts (firstn 2 gs)) ->
  ~ (forall x, In x (rows l sl) -> ~ In x (rows l' sl')) ->
  count (passes_after 5 st q last) (allV p (5 + (m + N))) <=
    (4 * 2 ^ N * 2 ^ N + 2 * 2 ^ N + (length l + length l' + 3 * length cl + length rl) + (N + 2 + N * Nat.max d (D + 1))) * fsize p ^ (4 + (m + N)).
Proof.
  intros A N d D m st q last debug aa bb rx l sl l' sl' rl cl csl ml ml' shifted counts n H1 H2 HN Hn Y1 Y2 Y3 HL Hno.
  set (a := combine (spread N N (index_column (p:=p) N)) (spread N n cl)). set (b := combine (spread N n (next_column (p:=p) n)) shifted).
  assert (La : length a <= 2 ^ N) by (unfold a; rewrite combine_length, spread_len; lia). assert (Lb : length b <= 2 ^ N) by (unfold b; rewrite combine_length, spread_len; lia).
  replace (4 + (m + N)) with (5 + (m + N) - 1) by lia.
  apply (after_count_any Hp H22 5 (fun pre g => match pre with [] => clash a b g | [g0] => unlucky (unit_bag (folded g0 a)) (unit_bag (folded g0 b)) g
     | [_; _] => unlucky (unit_bag (steps cl)) (combine rl (mean_of N (bc_nv rx) (counts pre))) g
     | [_; _; _] => unlucky (combine l sl) (wcol cl csl ml) g | _ => unlucky (combine l' sl') (wcol cl csl ml') g end)
    (fun i => match i with 0 => 4 * 2 ^ N * 2 ^ N | 1 => 2 * 2 ^ N | 2 => length cl + length rl | 3 => length l + length cl | _ => length l' + length cl end)
    A N d D m st q last (4 * 2 ^ N * 2 ^ N + 2 * 2 ^ N + (length l + length l' + 3 * length cl + length rl)) H1 H2).
  - intros [|g0 [|g1 [|g2 [|h pre]]]] Hpre; cbn [length].
    + destruct (clash_count Hp a b) as [c [X1 X2]]. exists c. split; [exact X1|]. nia.
    + destruct (unlucky_count Hp H22 (unit_bag (folded g0 a)) (unit_bag (folded g0 b))) as [c [X1 X2]]. exists c. split; [exact X1|]. unfold unit_bag, folded in X2. rewrite !map_length in X2. lia.
    + destruct (unlucky_count Hp H22 (unit_bag (steps cl)) (combine rl (mean_of N (bc_nv rx) (counts [g0; g1])))) as [c [X1 X2]]. exists c. split; [exact X1|]. unfold unit_bag, steps in X2. rewrite !map_length, seq_length, combine_length in X2. lia.
    + destruct (unlucky_count Hp H22 (combine l sl) (wcol cl csl ml)) as [c [X1 X2]]. exists c. split; [exact X1|]. unfold wcol in X2. rewrite ?app_length, ?map_length, ?combine_length in X2. lia.
    + destruct (unlucky_count Hp H22 (combine l' sl') (wcol cl csl ml')) as [c [X1 X2]]. exists c. split; [exact X1|]. unfold wcol in X2. rewrite ?app_length, ?map_length, ?combine_length in X2. lia.
  - intros gs u Hk Hu. destruct (HL gs u Hk Hu) as [C [Q [v [v' [Ha [R0 [R1 [R2 R3]]]]]]]].
    split; [apply (after_session (fun o v => bag_disjoint_verify o debug v aa bb rx) gs v v' u); [intros o0 v0 v1 H0; eapply vc_disjoint; exact H0|exact Ha]|]. split; [exact C|]. split; [exact Q|].
    intros Hc Hgood. destruct Ha as [o [S1 [S2 [S3 S4]]]]. pose proof (session_ready o Hp H22 v S1) as RV. pose proof (vcalls_go o Hp H22 v' u S4) as RL.
    destruct (disjoint_says_at o debug v v' aa bb rx RV S2) as [g [g1 [g2 [h [h' [k [X2 S]]]]]]]. destruct (use v v' u (A gs) N RL Hc _ _ S) as [X1 X3].
    assert (X4 : mget (vt_virt u) k = Some (VFun ordered_fun)) by (destruct (RL (sound_ready _ _ _ _ S)) as [ds GD]; apply (y_sub _ _ _ GD); exact X2).
    pose proof (index_wide H22 (A gs) N u k (proj2 (proj2 (proj2 (proj2 (proj2 C))))) X4 HN) as HK. rewrite Nat.min_r in X3 by exact HK. fold n in X3.
    cbv zeta in R3. rewrite (got_received H22 _ _ _ _ (disjoint_got o _ _ _ _ _ _ RV S2)) in R3. cbn [map nth firstn] in R3. rewrite Nat.add_0_r in R3. destruct R3 as [R3 [R4 [R5 R6]]]. pose proof (proj1 R2) as Hnr. injection R4 as E1 E2 E3 E4.
    rewrite S3 in X1. pose proof (Hgood 0 ltac:(lia)) as G0. pose proof (Hgood 1 ltac:(lia)) as G1. pose proof (Hgood 2 ltac:(lia)) as G2. pose proof (Hgood 3 ltac:(lia)) as G3. pose proof (Hgood 4 ltac:(lia)) as G4. rewrite X1 in G0, G1, G2, G3, G4. cbn [firstn nth] in G0, G1, G2, G3, G4.
    apply Hno. intros x Hx Hx'. 
    refine (X3 HN Hn R3 l sl l' sl' rl (bag_in v v' u (A gs) N RL _ _ _ _ _ S R0) (bag_in v v' u (A gs) N RL _ _ _ _ _ S R1) (id_in v v' u (A gs) N RL _ _ _ _ _ S R2) Y1 Y2 Y3 _ _ _ x Hx Hx'); cbv beta.
    + unfold sort_lucky_at. cbv zeta. rewrite E1, R5. split; [split; [exact G0|exact G1]|]. rewrite (averaged_mean H22) by exact Hnr. rewrite R6, X1. cbn [firstn]. exact G2.
    + rewrite E1, E2, E3. exact G3.
    + rewrite E1, E2, E4. exact G4.
  - cbn [seq map list_sum fold_right]. lia.
Qed.
End P.
