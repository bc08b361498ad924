(** Disjoint sets and unions: how often false statements pass, when the prover commits to each column before the next challenge. *)
From Coq Require Import String List Arith Lia Bool ZArith Znumtheory Permutation.
Import ListNotations.
From Verif Require Import Res ResLemmas Fp FSum SpecMle SpecPoly SpecTracker SpecIop SpecRel ModelTranscript SumcheckHist MleLemmas PolyLemmas Pairing ModelKzg ModelBatch ModelProver ModelVerifier ModelIop
  VerifierHist CompileHist IopHist LogDeriv BagLemmas IopSort IopVer IopSound IopGot MleExtra AdviceProofs SortSound IopClaims CompSound CompSound2 CompSound3 CompClaims SessHist SessProofs CheckHist CheckProofs CheckIopHist CheckIop CheckSort CheckSupp.
Local Open Scope list_scope.
Local Open Scope nat_scope.
#[local] Opaque track_virtual v_add_scalar.

Section P.
Context {p : positive} {E : pairing p}.
Hypothesis Hp : prime (Zpos p).
Hypothesis H22 : 2 < fsize p.
Notation F := (F p).
Notation comm := (gcar (PG1 E)).
Implicit Types (v : vtrk E).

Lemma sum_got : forall o debug v f0 f1 gx v', vready v -> bag_sum_verify o debug v f0 f1 gx = Ok v' -> got v v' 27 [3; 11; 19].
Proof.
  intros o debug v f0 f1 gx v' R H. pose proof (got_refl v R) as G. unfold bag_sum_verify in H. do 3 gvirt G H. unfold multitool_verify in H. cbn [length Nat.eqb negb ensure bind] in H. gchal G H. cbn [combine foldM] in H. unfold multitool_side in H. cbn [fst snd] in H.
  match type of H with context [multitool_vsubclaim ?d ?u ?g ?b ?m] => destruct (multitool_vsubclaim d u g b m) as [[c w0]| |] eqn:E1; cbn [bind] in H; try discriminate H end. pose proof (subclaim_got _ _ _ _ _ _ _ (got_ready _ _ _ _ G) E1) as X. gjoin G X.
  match type of H with context [multitool_vsubclaim ?d ?u ?g ?b ?m] => destruct (multitool_vsubclaim d u g b m) as [[c1 w1]| |] eqn:E2; cbn [bind] in H; try discriminate H end. pose proof (subclaim_got _ _ _ _ _ _ _ (got_ready _ _ _ _ G) E2) as X. gjoin G X.
  match type of H with context [multitool_vsubclaim ?d ?u ?g ?b ?m] => destruct (multitool_vsubclaim d u g b m) as [[c2 w2]| |] eqn:E3; cbn [bind] in H; try discriminate H end. pose proof (subclaim_got _ _ _ _ _ _ _ (got_ready _ _ _ _ G) E3) as X. gjoin G X.
  destruct (ensure _ _) as [[]| |]; cbn [bind] in H; try discriminate H. injection H as <-. exact G.
Qed.
Lemma set_disjoint_got : forall o debug v a b rx v', vready v -> set_disjoint_verify o debug v a b rx = Ok v' ->
  got v v' 88 [0; 1; 5; 13; 21; 31; 34; 35; 43; 51; 66; 68; 76; 84].
Proof.
  intros o debug v a b rx v' R H. pose proof (got_refl v R) as G. unfold set_disjoint_verify in H. cbv zeta in H. do 2 gtrans G H.
  match type of H with context [bag_sum_verify ?o ?d ?v ?a ?b ?c] => destruct (bag_sum_verify o d v a b c) as [w| |] eqn:E1; cbn [bind] in H; [|discriminate H|discriminate H] end.
  pose proof (sum_got o _ _ _ _ _ _ (got_ready _ _ _ _ G) E1) as X. clear E1. gjoin G X. pose proof (strict_sort_got o _ _ _ _ _ (got_ready _ _ _ _ G) H) as X. gjoin G X. exact G.
Qed.
Lemma set_union_got : forall o debug v a b un rx v', vready v -> set_union_verify o debug v a b un rx = Ok v' ->
  got v v' 110 [0; 1; 5; 13; 21; 29; 31; 39; 47; 53; 56; 57; 65; 73; 88; 90; 98; 106].
Proof.
  intros o debug v a b un rx v' R H. pose proof (got_refl v R) as G. unfold set_union_verify in H. cbv zeta in H. do 2 gtrans G H.
  match type of H with context [bag_sum_verify ?o ?d ?v ?a ?b ?c] => destruct (bag_sum_verify o d v a b c) as [w| |] eqn:E1; cbn [bind] in H; [|discriminate H|discriminate H] end.
  pose proof (sum_got o _ _ _ _ _ _ (got_ready _ _ _ _ G) E1) as X. clear E1. gjoin G X. pose proof (supp_got o _ _ _ _ _ _ (got_ready _ _ _ _ G) H) as X. gjoin G X. exact G.
Qed.

Lemma set_disjoint_says_at : forall o debug v v' a b rx, vready v -> set_disjoint_verify o debug v a b rx = Ok v' -> let n := Nat.max (bc_nv a) (bc_nv b) + 1 in let b0 := vt_next v in
  exists h g g1 g2 k, mget (vt_virt v') k = Some (VFun ordered_fun) /\
   sound v v' [h; g; g1; g2] (fun A N V => 2 ^ N < fsize p -> n <= N -> fst (A b0) <= n -> fst (A (b0 + 1)) <= n ->
    forall l sl l' sl' rl, plist_bag A V N a l sl -> plist_bag A V N b l' sl' -> plist A V N (bc_poly rx) (bc_nv rx) rl -> let cl := column A n b0 in let csl := column A n (b0 + 1) in
    boolean sl -> boolean sl' -> boolean csl -> small_range rl n -> ~ unlucky (combine l sl ++ combine l' sl') (combine cl csl) h ->
    sort_lucky_at A N n (bc_nv rx) (Nat.min (fst (A k)) N) (b0 + 31) (b0 + 66) cl rl g g1 g2 -> NoDup (rows l sl ++ rows l' sl')).
Proof.
  intros o debug v v' a b rx R H n b0. unfold set_disjoint_verify in H. cbv zeta in H. fold n in H.
  destruct (v_transfer debug v) as [[cp v1]| |] eqn:E1; cbn [bind] in H; [|discriminate H|discriminate H]. destruct (transfer_says H22 _ _ _ _ R E1) as [R1 S1]. destruct (go_transfer _ _ _ _ R E1) as [I1 [J1 _]].
  destruct (v_transfer debug v1) as [[cs v2]| |] eqn:E2; cbn [bind] in H; [|discriminate H|discriminate H]. destruct (transfer_says H22 _ _ _ _ (sound_ready _ _ _ _ S1) E2) as [R2 S2]. destruct (go_transfer _ _ _ _ (sound_ready _ _ _ _ S1) E2) as [I2 [J2 _]].
  clear E1 E2. pose proof (sound_ready _ _ _ _ S2) as RV2.
  match type of H with context [bag_sum_verify ?o ?d ?v ?a ?b ?c] => destruct (bag_sum_verify o d v a b c) as [v3| |] eqn:E3; cbn [bind] in H; [|discriminate H|discriminate H] end.
  destruct (sum_says o Hp H22 _ _ _ _ _ _ RV2 E3) as [h S3]. pose proof (sum_got o _ _ _ _ _ _ RV2 E3) as N3. clear E3.
  destruct (strict_sort_sound_at o Hp H22 _ _ _ _ _ (sound_ready _ _ _ _ S3) H) as [g [g1 [g2 [q [mm [k [[Q1 Q2] [_ [_ [Mk S4]]]]]]]]]]. cbn [bc_nv] in S4. exists h, g, g1, g2, k. split; [exact Mk|].
  assert (HN3 : vt_next v3 = b0 + 29) by (destruct N3 as [_ [X _]]; lia). clear N3. replace q with (b0 + 31) in S4 by lia. replace mm with (b0 + 66) in S4 by lia.
  assert (X1 : cp = b0) by lia. assert (X2 : cs = b0 + 1) by lia. clear Q1 Q2 I1 I2 J1 J2 HN3. clearbody b0. subst cp cs.
  pose proof (sound_seq _ _ _ _ _ _ _ S3 S4) as S34. pose proof (sound_seq _ _ _ _ _ _ _ S2 S34) as S24. pose proof (sound_seq _ _ _ _ _ _ _ S1 S24) as S14. cbn [app] in *.
  assert (RR0 : received v v' b0) by (eapply received_up; [exact R1|exact S24]). assert (RR1 : received v1 v' (b0 + 1)) by (eapply received_up; [exact R2|exact S34]).
  eapply sound_imp; [exact S14|]. cbv beta. intros A N V Sv [_ [_ [Q1 Q2]]] HN Hn F1 F2 l sl l' sl' rl Ba Bb Pr. cbv zeta. intros Hba Hbb Hbc Hr Hu HL.
  assert (Bc : plist_bag A V N (mkBagc b0 (b0 + 1) n) (column A n b0) (column A n (b0 + 1))) by (split; apply (plist_column H22); auto; apply Sv; [apply RR0|apply RR1]).
  pose proof (Q1 _ _ _ _ _ _ Ba Bb Bc Hu) as Hs. pose proof (Q2 HN _ _ _ Bc Pr HL) as Hsort. destruct (bag_lens _ _ _ _ _ _ Ba) as [La1 La2]. destruct (bag_lens _ _ _ _ _ _ Bb) as [Lb1 Lb2].
  eapply Permutation_NoDup; [apply Permutation_sym; apply (sum_rows Hp l sl l' sl' (column A n b0) (column A n (b0 + 1))); try assumption; rewrite ?column_len; try congruence; [eapply (two_fit H22); [exact HN|exact Hn|apply Ba|apply Bb]|pose proof (Nat.pow_le_mono_r 2 n N ltac:(lia) Hn); lia]|].
  eapply sorted_distinct; [apply column_len|apply column_len|exact Hr|exact Hsort].
Qed.
Lemma set_union_says_at : forall o debug v v' a b un rx, vready v -> set_union_verify o debug v a b un rx = Ok v' -> let n := Nat.max (bc_nv a) (bc_nv b) + 1 in let b0 := vt_next v in
  exists h0 h g g1 g2 k, mget (vt_virt v') k = Some (VFun ordered_fun) /\
   sound v v' [h0; h; g; g1; g2] (fun A N V => 2 ^ N < fsize p -> n <= N -> fst (A b0) <= n -> fst (A (b0 + 1)) <= n -> fst (A (b0 + 29)) <= bc_nv un ->
    forall l sl l' sl' ul usl rl, plist_bag A V N a l sl -> plist_bag A V N b l' sl' -> plist_bag A V N un ul usl -> plist A V N (bc_poly rx) (bc_nv rx) rl -> let cl := column A n b0 in let csl := column A n (b0 + 1) in
    boolean sl -> boolean sl' -> boolean usl -> small_range rl (bc_nv un) -> ~ unlucky (combine l sl ++ combine l' sl') (combine cl csl) h0 ->
    ~ unlucky (combine cl csl) (wcol ul usl (column A (bc_nv un) (b0 + 29))) h ->
    sort_lucky_at A N (bc_nv un) (bc_nv rx) (Nat.min (fst (A k)) N) (b0 + 53) (b0 + 88) ul rl g g1 g2 ->
    NoDup (rows ul usl) /\ forall x, In x (rows ul usl) <-> In x (rows l sl) \/ In x (rows l' sl')).
Proof.
  intros o debug v v' a b un rx R H n b0. unfold set_union_verify in H. cbv zeta in H. fold n in H.
  destruct (v_transfer debug v) as [[cp v1]| |] eqn:E1; cbn [bind] in H; [|discriminate H|discriminate H]. destruct (transfer_says H22 _ _ _ _ R E1) as [R1 S1]. destruct (go_transfer _ _ _ _ R E1) as [I1 [J1 _]].
  destruct (v_transfer debug v1) as [[cs v2]| |] eqn:E2; cbn [bind] in H; [|discriminate H|discriminate H]. destruct (transfer_says H22 _ _ _ _ (sound_ready _ _ _ _ S1) E2) as [R2 S2]. destruct (go_transfer _ _ _ _ (sound_ready _ _ _ _ S1) E2) as [I2 [J2 _]].
  clear E1 E2. pose proof (sound_ready _ _ _ _ S2) as RV2.
  match type of H with context [bag_sum_verify ?o ?d ?v ?a ?b ?c] => destruct (bag_sum_verify o d v a b c) as [v3| |] eqn:E3; cbn [bind] in H; [|discriminate H|discriminate H] end.
  destruct (sum_says o Hp H22 _ _ _ _ _ _ RV2 E3) as [h0 S3]. pose proof (sum_got o _ _ _ _ _ _ RV2 E3) as N3. clear E3.
  destruct (supp_says_at Hp H22 o _ _ _ _ _ _ (sound_ready _ _ _ _ S3) H) as [h [g [g1 [g2 [k [Mk S4]]]]]]. exists h0, h, g, g1, g2, k. split; [exact Mk|].
  assert (HN3 : vt_next v3 = b0 + 29) by (destruct N3 as [_ [X _]]; lia). clear N3. rewrite HN3 in S4. replace (b0 + 29 + 24) with (b0 + 53) in S4 by lia. replace (b0 + 29 + 59) with (b0 + 88) in S4 by lia.
  assert (X1 : cp = b0) by lia. assert (X2 : cs = b0 + 1) by lia. clear I1 I2 J1 J2 HN3. clearbody b0. subst cp cs.
  pose proof (sound_seq _ _ _ _ _ _ _ S3 S4) as S34. pose proof (sound_seq _ _ _ _ _ _ _ S2 S34) as S24. pose proof (sound_seq _ _ _ _ _ _ _ S1 S24) as S14. cbn [app] in *.
  assert (RR0 : received v v' b0) by (eapply received_up; [exact R1|exact S24]). assert (RR1 : received v1 v' (b0 + 1)) by (eapply received_up; [exact R2|exact S34]).
  eapply sound_imp; [exact S14|]. cbv beta. intros A N V Sv [_ [_ [Q1 Q2]]] HN Hn F1 F2 F3 l sl l' sl' ul usl rl Ba Bb Bu Pr. cbv zeta. intros Hba Hbb Hbu Hr Hu Hu' HL.
  assert (Bc : plist_bag A V N (mkBagc b0 (b0 + 1) n) (column A n b0) (column A n (b0 + 1))) by (split; apply (plist_column H22); auto; apply Sv; [apply RR0|apply RR1]).
  pose proof (Q1 _ _ _ _ _ _ Ba Bb Bc Hu) as Hs. specialize (Q2 HN F3 _ _ _ _ _ Bc Bu Pr). cbv zeta in Q2. specialize (Q2 Hbu Hr Hu' HL). destruct Q2 as [Hn2 Hx]. split; [exact Hn2|]. intros x.
  rewrite Hx, <- Hs. symmetry. destruct (bag_lens _ _ _ _ _ _ Ba) as [La1 La2]. destruct (bag_lens _ _ _ _ _ _ Bb) as [Lb1 Lb2]. apply (rows_weight2 Hp); auto; try congruence. eapply (two_fit H22); [exact HN|exact Hn|apply Ba|apply Bb].
Qed.

Lemma set_disjoint_count : forall (A : list F -> reading) N d D m st q (last : list F -> option (vtrk E)) debug a b rx l sl l' sl' rl cl csl (shifted counts : list F -> list F),
  let n := Nat.max (bc_nv a) (bc_nv b) + 1 in
  1 <= d -> d < fsize p -> 2 ^ N < fsize p -> n <= N -> boolean sl -> boolean sl' -> boolean csl -> small_range rl n ->
  (forall gs u, length gs = 4 -> last gs = Some u -> checkable (A gs) N d D m u /\ (forall ch, queries_true (A gs) (facing (st gs) (q gs) u ch)) /\
     exists v v', after_call (fun o v => set_disjoint_verify o debug v a b rx) gs v v' u /\ bag_reads (A gs) N v a l sl /\ bag_reads (A gs) N v b l' sl' /\
       reads (A gs) N v (bc_poly rx) (bc_nv rx) rl /\
       let got := received_ids v v' in
       Forall (fun id => fst (A gs id) <= n) (firstn 2 got) /\ map (column (A gs) n) (firstn 2 got) = [cl; csl] /\
       column (A gs) N (nth 5 got 0) = shifted (firstn 1 gs) /\ column (A gs) N (nth 10 got 0) = counts (firstn 3 gs)) ->
  ~ NoDup (rows l sl ++ rows l' sl') ->
  count (passes_after 4 st q last) (allV p (4 + (m + N))) <=
    (4 * 2 ^ N * 2 ^ N + 2 * 2 ^ N + (length l + length l' + 2 * length cl + length rl) + (N + 2 + N * Nat.max d (D + 1))) * fsize p ^ (3 + (m + N)).
Proof.
  intros A N d D m st q last debug aa bb rx l sl l' sl' rl cl csl shifted counts n H1 H2 HN Hn Y1 Y2 Y2' Y3 HL Hno.
  set (a := combine (spread N N (index_column (p:=p) N)) (spread N n cl)). set (b := fun g0 : F => combine (spread N n (next_column (p:=p) n)) (shifted [g0])).
  assert (La : length a <= 2 ^ N) by (unfold a; rewrite combine_length, spread_len; lia). assert (Lb : forall g0, length (b g0) <= 2 ^ N) by (intros; unfold b; rewrite combine_length, spread_len; lia).
  replace (3 + (m + N)) with (4 + (m + N) - 1) by lia.
  apply (after_count_any Hp H22 4 (fun pre g => match pre with [] => unlucky (combine l sl ++ combine l' sl') (combine cl csl) g | [h] => clash a (b h) g | [h; g0] => unlucky (unit_bag (folded g0 a)) (unit_bag (folded g0 (b h))) g
     | _ => unlucky (unit_bag (steps cl)) (combine rl (mean_of N (bc_nv rx) (counts pre))) g end)
    (fun i => match i with 0 => length l + length l' + length cl | 1 => 4 * 2 ^ N * 2 ^ N | 2 => 2 * 2 ^ N | _ => length cl + length rl end) A N d D m st q last (4 * 2 ^ N * 2 ^ N + 2 * 2 ^ N + (length l + length l' + 2 * length cl + length rl)) H1 H2).
  - intros [|h [|g0 [|g1 pre]]] Hpre; cbn [length].
    + destruct (unlucky_count Hp H22 (combine l sl ++ combine l' sl') (combine cl csl)) as [c [X1 X2]]. exists c. split; [exact X1|]. rewrite ?app_length, ?map_length, ?combine_length in X2. lia.
    + destruct (clash_count Hp a (b h)) as [c [X1 X2]]. exists c. split; [exact X1|]. specialize (Lb h). nia.
    + destruct (unlucky_count Hp H22 (unit_bag (folded g0 a)) (unit_bag (folded g0 (b h)))) as [c [X1 X2]]. exists c. split; [exact X1|]. specialize (Lb h). unfold unit_bag, folded in X2. rewrite !map_length in X2. lia.
    + destruct (unlucky_count Hp H22 (unit_bag (steps cl)) (combine rl (mean_of N (bc_nv rx) (counts (h :: g0 :: g1 :: pre))))) as [c [X1 X2]]. exists c. split; [exact X1|]. unfold unit_bag, steps in X2. rewrite !map_length, seq_length, combine_length in X2. lia.
  - intros gs u Hk Hu. destruct (HL gs u Hk Hu) as [C [Q [v [v' [Ha [R0 [R1 [R2 R3]]]]]]]].
    split; [apply (after_session (fun o v => set_disjoint_verify o debug v aa bb rx) gs v v' u); [intros o0 v0 v1 H0; eapply vc_set_disjoint; exact H0|exact Ha]|]. split; [exact C|]. split; [exact Q|].
    intros Hc Hgood. destruct Ha as [o [S1 [S2 [S3 S4]]]]. pose proof (session_ready o Hp H22 v S1) as RV. pose proof (vcalls_go o Hp H22 v' u S4) as RL.
    destruct (set_disjoint_says_at o debug v v' aa bb rx RV S2) as [h [g [g1 [g2 [k [X2 S]]]]]]. destruct (use v v' u (A gs) N RL Hc _ _ S) as [X1 X3].
    assert (X4 : mget (vt_virt u) k = Some (VFun ordered_fun)) by (destruct (RL (sound_ready _ _ _ _ S)) as [ds GD]; apply (y_sub _ _ _ GD); exact X2).
    pose proof (index_wide H22 (A gs) N u k (proj2 (proj2 (proj2 (proj2 (proj2 C))))) X4 HN) as HK. rewrite Nat.min_r in X3 by exact HK. fold n in X3.
    cbv zeta in R3. rewrite (got_received H22 _ _ _ _ (set_disjoint_got o _ _ _ _ _ _ RV S2)) in R3. destruct R3 as [R3 [R4 [R5 R6]]]. cbn [map nth] in R5, R6. cbn [map firstn] in R3, R4. rewrite Nat.add_0_r in R3, R4. pose proof (proj1 R2) as Hnr. injection R4 as E1 E2.
    pose proof (Forall_inv R3) as W1. pose proof (Forall_inv (Forall_inv_tail R3)) as W2. cbv beta in W1, W2.
    rewrite S3 in X1. pose proof (Hgood 0 ltac:(lia)) as G0. pose proof (Hgood 1 ltac:(lia)) as G1. pose proof (Hgood 2 ltac:(lia)) as G2. pose proof (Hgood 3 ltac:(lia)) as G3. rewrite X1 in G0, G1, G2, G3. cbn [firstn nth] in G0, G1, G2, G3.
    apply Hno. refine (X3 HN Hn W1 W2 l sl l' sl' rl (bag_in v v' u (A gs) N RL _ _ _ _ _ S R0) (bag_in v v' u (A gs) N RL _ _ _ _ _ S R1) (id_in v v' u (A gs) N RL _ _ _ _ _ S R2) Y1 Y2 _ Y3 _ _); cbv beta.
    + rewrite E2. exact Y2'.
    + rewrite E1, E2. exact G0.
    + unfold sort_lucky_at. cbv zeta. rewrite E1, R5. pose proof (f_equal (firstn 1) X1) as X5. pose proof (f_equal (firstn 3) X1) as X6. rewrite X5. rewrite (averaged_mean H22) by exact Hnr. rewrite R6, X6. cbn [firstn]. split; [split; [exact G1|exact G2]|exact G3].
  - cbn [seq map list_sum fold_right]. lia.
Qed.

Lemma set_union_count : forall (A : list F -> reading) N d D m st q (last : list F -> option (vtrk E)) debug a b un rx l sl l' sl' ul usl rl cl csl (mults shifted counts : list F -> list F),
  let n := Nat.max (bc_nv a) (bc_nv b) + 1 in
  1 <= d -> d < fsize p -> 2 ^ N < fsize p -> n <= N -> boolean sl -> boolean sl' -> boolean usl -> small_range rl (bc_nv un) ->
  (forall gs u, length gs = 5 -> last gs = Some u -> checkable (A gs) N d D m u /\ (forall ch, queries_true (A gs) (facing (st gs) (q gs) u ch)) /\
     exists v v', after_call (fun o v => set_union_verify o debug v a b un rx) gs v v' u /\ bag_reads (A gs) N v a l sl /\ bag_reads (A gs) N v b l' sl' /\ bag_reads (A gs) N v un ul usl /\
       reads (A gs) N v (bc_poly rx) (bc_nv rx) rl /\
       let got := received_ids v v' in
       Forall (fun id => fst (A gs id) <= n) (firstn 2 got) /\ map (column (A gs) n) (firstn 2 got) = [cl; csl] /\
       fst (A gs (nth 5 got 0)) <= bc_nv un /\ column (A gs) (bc_nv un) (nth 5 got 0) = mults (firstn 1 gs) /\
       column (A gs) N (nth 9 got 0) = shifted (firstn 2 gs) /\ column (A gs) N (nth 14 got 0) = counts (firstn 4 gs)) ->
  ~ (NoDup (rows ul usl) /\ forall x, In x (rows ul usl) <-> In x (rows l sl) \/ In x (rows l' sl')) ->
  count (passes_after 5 st q last) (allV p (5 + (m + N))) <=
    (4 * 2 ^ N * 2 ^ N + 2 * 2 ^ N + (length l + length l' + 2 * length cl + 2 * length ul + length rl) + (N + 2 + N * Nat.max d (D + 1))) * fsize p ^ (4 + (m + N)).
Proof.
  intros A N d D m st q last debug aa bb un rx l sl l' sl' ul usl rl cl csl mults shifted counts n H1 H2 HN Hn Y1 Y2 Y2' Y3 HL Hno.
  set (a := combine (spread N N (index_column (p:=p) N)) (spread N (bc_nv un) ul)). set (b := fun pre : list F => combine (spread N (bc_nv un) (next_column (p:=p) (bc_nv un))) (shifted pre)).
  assert (La : length a <= 2 ^ N) by (unfold a; rewrite combine_length, spread_len; lia). assert (Lb : forall pre, length (b pre) <= 2 ^ N) by (intros; unfold b; rewrite combine_length, spread_len; lia).
  replace (4 + (m + N)) with (5 + (m + N) - 1) by lia.
  apply (after_count_any Hp H22 5 (fun pre g => match pre with [] => unlucky (combine l sl ++ combine l' sl') (combine cl csl) g | [h0] => unlucky (combine cl csl) (wcol ul usl (mults [h0])) g
     | [h0; h] => clash a (b [h0; h]) g | [h0; h; g0] => unlucky (unit_bag (folded g0 a)) (unit_bag (folded g0 (b [h0; h]))) g
     | _ => unlucky (unit_bag (steps ul)) (combine rl (mean_of N (bc_nv rx) (counts pre))) g end)
    (fun i => match i with 0 => length l + length l' + length cl | 1 => length cl + length ul | 2 => 4 * 2 ^ N * 2 ^ N | 3 => 2 * 2 ^ N | _ => length ul + length rl end)
    A N d D m st q last (4 * 2 ^ N * 2 ^ N + 2 * 2 ^ N + (length l + length l' + 2 * length cl + 2 * length ul + length rl)) H1 H2).
  - intros [|h0 [|h [|g0 [|g1 pre]]]] Hpre; cbn [length].
    + destruct (unlucky_count Hp H22 (combine l sl ++ combine l' sl') (combine cl csl)) as [c [X1 X2]]. exists c. split; [exact X1|]. rewrite ?app_length, ?map_length, ?combine_length in X2. lia.
    + destruct (unlucky_count Hp H22 (combine cl csl) (wcol ul usl (mults [h0]))) as [c [X1 X2]]. exists c. split; [exact X1|]. unfold wcol in X2. rewrite ?app_length, ?map_length, ?combine_length in X2. lia.
    + destruct (clash_count Hp a (b [h0; h])) as [c [X1 X2]]. exists c. split; [exact X1|]. specialize (Lb [h0; h]). nia.
    + destruct (unlucky_count Hp H22 (unit_bag (folded g0 a)) (unit_bag (folded g0 (b [h0; h])))) as [c [X1 X2]]. exists c. split; [exact X1|]. specialize (Lb [h0; h]). unfold unit_bag, folded in X2. rewrite !map_length in X2. lia.
    + destruct (unlucky_count Hp H22 (unit_bag (steps ul)) (combine rl (mean_of N (bc_nv rx) (counts (h0 :: h :: g0 :: g1 :: pre))))) as [c [X1 X2]]. exists c. split; [exact X1|]. unfold unit_bag, steps in X2. rewrite !map_length, seq_length, combine_length in X2. lia.
  - intros gs u Hk Hu. destruct (HL gs u Hk Hu) as [C [Q [v [v' [Ha [R0 [R1 [R1' [R2 R3]]]]]]]]].
    split; [apply (after_session (fun o v => set_union_verify o debug v aa bb un rx) gs v v' u); [intros o0 v0 v1 H0; eapply vc_set_union; exact H0|exact Ha]|]. split; [exact C|]. split; [exact Q|].
    intros Hc Hgood. destruct Ha as [o [S1 [S2 [S3 S4]]]]. pose proof (session_ready o Hp H22 v S1) as RV. pose proof (vcalls_go o Hp H22 v' u S4) as RL.
    destruct (set_union_says_at o debug v v' aa bb un rx RV S2) as [h0 [h [g [g1 [g2 [k [X2 S]]]]]]]. destruct (use v v' u (A gs) N RL Hc _ _ S) as [X1 X3].
    assert (X4 : mget (vt_virt u) k = Some (VFun ordered_fun)) by (destruct (RL (sound_ready _ _ _ _ S)) as [ds GD]; apply (y_sub _ _ _ GD); exact X2).
    pose proof (index_wide H22 (A gs) N u k (proj2 (proj2 (proj2 (proj2 (proj2 C))))) X4 HN) as HK. rewrite Nat.min_r in X3 by exact HK. fold n in X3.
    cbv zeta in R3. rewrite (got_received H22 _ _ _ _ (set_union_got o _ _ _ _ _ _ _ RV S2)) in R3. destruct R3 as [R3 [R4 [R7 [R8 [R5 R6]]]]]. cbn [map nth] in R5, R6, R7, R8. cbn [map firstn] in R3, R4. rewrite Nat.add_0_r in R3, R4. pose proof (proj1 R2) as Hnr. injection R4 as E1 E2.
    pose proof (Forall_inv R3) as W1. pose proof (Forall_inv (Forall_inv_tail R3)) as W2. cbv beta in W1, W2.
    rewrite S3 in X1. pose proof (Hgood 0 ltac:(lia)) as G0. pose proof (Hgood 1 ltac:(lia)) as G1. pose proof (Hgood 2 ltac:(lia)) as G2. pose proof (Hgood 3 ltac:(lia)) as G3. pose proof (Hgood 4 ltac:(lia)) as G4. rewrite X1 in G0, G1, G2, G3, G4. cbn [firstn nth] in G0, G1, G2, G3, G4.
    pose proof (f_equal (firstn 1) X1) as X5. pose proof (f_equal (firstn 2) X1) as X6. pose proof (f_equal (firstn 4) X1) as X7.
    apply Hno. refine (X3 HN Hn W1 W2 R7 l sl l' sl' ul usl rl (bag_in v v' u (A gs) N RL _ _ _ _ _ S R0) (bag_in v v' u (A gs) N RL _ _ _ _ _ S R1) (bag_in v v' u (A gs) N RL _ _ _ _ _ S R1') (id_in v v' u (A gs) N RL _ _ _ _ _ S R2) Y1 Y2 Y2' Y3 _ _ _); cbv beta.
    + rewrite E1, E2. exact G0.
    + rewrite E1, E2, R8, X5. exact G1.
    + unfold sort_lucky_at. cbv zeta. rewrite R5, X6. rewrite (averaged_mean H22) by exact Hnr. rewrite R6, X7. cbn [firstn]. split; [split; [exact G2|exact G3]|exact G4].
  - cbn [seq map list_sum fold_right]. lia.
Qed.
End P.
