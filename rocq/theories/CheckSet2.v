(** Set difference and intersection: how often false statements pass, when the prover commits to each column before the next challenge. *)
From Coq Require Import String List Arith Lia Bool ZArith Znumtheory Permutation.
Import ListNotations.
From Verif Require Import Res ResLemmas Fp FSum SpecMle SpecPoly SpecTracker SpecIop SpecRel ModelTranscript SumcheckHist MleLemmas PolyLemmas Pairing ModelKzg ModelBatch ModelProver ModelVerifier ModelIop
  VerifierHist CompileHist IopHist LogDeriv BagLemmas IopSort IopVer IopSound IopGot MleExtra AdviceProofs SortSound IopClaims CompSound CompSound2 CompSound3 CompClaims SessHist SessProofs CheckHist CheckProofs CheckIopHist CheckIop CheckSort CheckSupp CheckSet.
Local Open Scope list_scope.
Local Open Scope nat_scope.
#[local] Opaque track_virtual v_add_scalar.

Section P.
Context {p : positive} {E : pairing p}.
Hypothesis Hp : prime (Zpos p).
Hypothesis H22 : 2 < fsize p.
Notation F := (F p).
Notation comm := (gcar (PG1 E)).
Implicit Types (v : vtrk E).


Lemma set_diff_got : forall o debug v a b l m bm rx v', vready v -> set_diff_verify o debug v a b l m bm rx = Ok v' ->
  got v v' 132 [0; 1; 5; 13; 21; 31; 34; 35; 43; 51; 66; 68; 76; 84; 91; 99; 107; 116; 124].
Proof.
  intros o debug v a b l m bm rx v' R H. pose proof (got_refl v R) as G. unfold set_diff_verify in H.
  match type of H with context [set_disjoint_verify ?o ?d ?v ?a ?b ?c] => destruct (set_disjoint_verify o d v a b c) as [w| |] eqn:E1; cbn [bind] in H; [|discriminate H|discriminate H] end.
  pose proof (set_disjoint_got o _ _ _ _ _ _ (got_ready _ _ _ _ G) E1) as X. clear E1. gjoin G X.
  match type of H with context [bag_sum_verify ?o ?d ?v ?a ?b ?c] => destruct (bag_sum_verify o d v a b c) as [w1| |] eqn:E1; cbn [bind] in H; [|discriminate H|discriminate H] end.
  pose proof (sum_got o _ _ _ _ _ _ (got_ready _ _ _ _ G) E1) as X. clear E1. gjoin G X. pose proof (inclusion_wa_got o _ _ _ _ _ _ (got_ready _ _ _ _ G) H) as X. gjoin G X. exact G.
Qed.
Lemma set_intersect_got : forall o debug v a b l m r rx v', vready v -> set_intersect_verify o debug v a b l m r rx = Ok v' ->
  got v v' 142 [3; 11; 19; 30; 38; 46; 54; 55; 59; 67; 75; 85; 88; 89; 97; 105; 120; 122; 130; 138].
Proof.
  intros o debug v a b l m r rx v' R H. pose proof (got_refl v R) as G. unfold set_intersect_verify in H.
  match type of H with context [bag_sum_verify ?o ?d ?v ?a ?b ?c] => destruct (bag_sum_verify o d v a b c) as [w| |] eqn:E1; cbn [bind] in H; [|discriminate H|discriminate H] end.
  pose proof (sum_got o _ _ _ _ _ _ (got_ready _ _ _ _ G) E1) as X. clear E1. gjoin G X.
  match type of H with context [bag_sum_verify ?o ?d ?v ?a ?b ?c] => destruct (bag_sum_verify o d v a b c) as [w1| |] eqn:E1; cbn [bind] in H; [|discriminate H|discriminate H] end.
  pose proof (sum_got o _ _ _ _ _ _ (got_ready _ _ _ _ G) E1) as X. clear E1. gjoin G X. pose proof (set_disjoint_got o _ _ _ _ _ _ (got_ready _ _ _ _ G) H) as X. gjoin G X. exact G.
Qed.

Lemma set_diff_says_at : forall o debug v v' a b l m bm rx, vready v -> set_diff_verify o debug v a b l m bm rx = Ok v' -> let n := Nat.max (bc_nv l) (bc_nv b) + 1 in let b0 := vt_next v in
  exists h g g1 g2 h1 h2 k, mget (vt_virt v') k = Some (VFun ordered_fun) /\
   sound v v' [h; g; g1; g2; h1; h2] (fun A N V => 2 ^ N < fsize p -> n <= N -> Nat.max (bc_nv l) (bc_nv m) + 1 <= N -> fst (A b0) <= n -> fst (A (b0 + 1)) <= n ->
    forall al asl bl bsl ll lsl ml msl bml rl, plist_bag A V N a al asl -> plist_bag A V N b bl bsl -> plist_bag A V N l ll lsl -> plist_bag A V N m ml msl -> plist A V N bm (bc_nv b) bml -> plist A V N (bc_poly rx) (bc_nv rx) rl ->
    let cl := column A n b0 in let csl := column A n (b0 + 1) in boolean asl -> boolean bsl -> boolean lsl -> boolean msl -> boolean csl -> small_range rl n ->
    ~ unlucky (combine ll lsl ++ combine bl bsl) (combine cl csl) h -> sort_lucky_at A N n (bc_nv rx) (Nat.min (fst (A k)) N) (b0 + 31) (b0 + 66) cl rl g g1 g2 ->
    ~ unlucky (combine ll lsl ++ combine ml msl) (combine al asl) h1 -> ~ unlucky (combine ml msl) (wcol bl bsl bml) h2 ->
    NoDup (rows ll lsl) /\ forall x, In x (rows ll lsl) <-> In x (rows al asl) /\ ~ In x (rows bl bsl)).
Proof.
  intros o debug v v' a b l m bm rx R H n b0. unfold set_diff_verify in H.
  destruct (set_disjoint_verify _ _ _ _ _ _) as [v1| |] eqn:E1 in H; cbn [bind] in H; try discriminate. destruct (set_disjoint_says_at Hp H22 o _ _ _ _ _ _ R E1) as [h [g [g1 [g2 [k [Mk S1]]]]]]. fold n b0 in S1.
  destruct (bag_sum_verify _ _ _ _ _ _) as [v2| |] eqn:E2 in H; cbn [bind] in H; try discriminate. destruct (sum_says o Hp H22 _ _ _ _ _ _ (sound_ready _ _ _ _ S1) E2) as [h1 S2].
  destruct (incl_wa_says o Hp H22 _ _ _ _ _ _ (sound_ready _ _ _ _ S2) H) as [h2 S3]. pose proof (sound_seq _ _ _ _ _ _ _ S2 S3) as S23. exists h, g, g1, g2, h1, h2, k.
  split; [destruct S23 as [GD _]; apply (y_sub _ _ _ GD); exact Mk|]. eapply sound_imp; [exact (sound_seq _ _ _ _ _ _ _ S1 S23)|]. cbv beta.
  intros A N V Sv [Q1 [Q2 Q3]] HN Hn Hn' F1 F2 al asl bl bsl ll lsl ml msl bml rl Ba Bb Bl Bm Pb Pr. cbv zeta. intros Ha Hb Hl Hm Hc Hr U1 HL U2 U3.
  specialize (Q1 HN Hn F1 F2 _ _ _ _ _ Bl Bb Pr). cbv zeta in Q1. specialize (Q1 Hl Hb Hc Hr U1 HL). pose proof (Q2 _ _ _ _ _ _ Bl Bm Ba U2) as Hs. pose proof (Q3 _ _ _ _ _ Bm Bb Pb U3) as Hi.
  destruct (bag_lens _ _ _ _ _ _ Ba) as [La1 La2]. destruct (bag_lens _ _ _ _ _ _ Bb) as [Lb1 Lb2]. destruct (bag_lens _ _ _ _ _ _ Bl) as [Ll1 Ll2]. destruct (bag_lens _ _ _ _ _ _ Bm) as [Lm1 Lm2]. apply pl_len in Pb.
  assert (HP : Permutation (rows ll lsl ++ rows ml msl) (rows al asl)) by (apply (sum_rows Hp); auto; try congruence; [eapply (two_fit H22); [exact HN|exact Hn'|apply Bl|apply Bm]|eapply (pl_fits H22); [exact HN|apply Ba]]).
  assert (HI : incl (rows ml msl) (rows bl bsl)). { rewrite <- wcol_one in Hi by congruence. apply (inclusion_rows Hp ml msl bl bsl bml); try assumption; try congruence. eapply (pl_fits H22); [exact HN|apply Bm]. }
  split; [eapply app_distinct; exact Q1|]. intros x. split.
  - intros Hx. split; [eapply Permutation_in; [exact HP|apply in_or_app; left; exact Hx]|]. intros Hx'. exact (apart_app _ _ _ Q1 Hx Hx').
  - intros [Hx Hx']. apply (Permutation_in _ (Permutation_sym HP)) in Hx. apply in_app_or in Hx. destruct Hx as [Hx|Hx]; [exact Hx|]. exfalso. apply Hx'. apply HI. exact Hx.
Qed.
Lemma set_intersect_says_at : forall o debug v v' a b l m r rx, vready v -> set_intersect_verify o debug v a b l m r rx = Ok v' -> let n := Nat.max (bc_nv l) (bc_nv r) + 1 in let b0 := vt_next v in
  exists h1 h2 h g g1 g2 k, mget (vt_virt v') k = Some (VFun ordered_fun) /\
   sound v v' [h1; h2; h; g; g1; g2] (fun A N V => 2 ^ N < fsize p -> n <= N -> Nat.max (bc_nv l) (bc_nv m) + 1 <= N -> Nat.max (bc_nv m) (bc_nv r) + 1 <= N -> fst (A (b0 + 54)) <= n -> fst (A (b0 + 55)) <= n ->
    forall al asl bl bsl ll lsl ml msl sl ssl rl, plist_bag A V N a al asl -> plist_bag A V N b bl bsl -> plist_bag A V N l ll lsl -> plist_bag A V N m ml msl -> plist_bag A V N r sl ssl -> plist A V N (bc_poly rx) (bc_nv rx) rl ->
    let cl := column A n (b0 + 54) in let csl := column A n (b0 + 55) in boolean asl -> boolean bsl -> boolean lsl -> boolean msl -> boolean ssl -> boolean csl -> small_range rl n ->
    ~ unlucky (combine ll lsl ++ combine ml msl) (combine al asl) h1 -> ~ unlucky (combine ml msl ++ combine sl ssl) (combine bl bsl) h2 ->
    ~ unlucky (combine ll lsl ++ combine sl ssl) (combine cl csl) h -> sort_lucky_at A N n (bc_nv rx) (Nat.min (fst (A k)) N) (b0 + 85) (b0 + 120) cl rl g g1 g2 ->
    forall x, In x (rows ml msl) <-> In x (rows al asl) /\ In x (rows bl bsl)).
Proof.
  intros o debug v v' a b l m r rx R H n b0. unfold set_intersect_verify in H.
  destruct (bag_sum_verify _ _ _ _ _ _) as [v1| |] eqn:E1 in H; cbn [bind] in H; try discriminate. destruct (sum_says o Hp H22 _ _ _ _ _ _ R E1) as [h1 S1]. pose proof (sum_got o _ _ _ _ _ _ R E1) as N1.
  destruct (bag_sum_verify _ _ _ _ _ _) as [v2| |] eqn:E2 in H; cbn [bind] in H; try discriminate. destruct (sum_says o Hp H22 _ _ _ _ _ _ (sound_ready _ _ _ _ S1) E2) as [h2 S2]. pose proof (sum_got o _ _ _ _ _ _ (sound_ready _ _ _ _ S1) E2) as N2.
  destruct (set_disjoint_says_at Hp H22 o _ _ _ _ _ _ (sound_ready _ _ _ _ S2) H) as [h [g [g1 [g2 [k [Mk S3]]]]]]. fold n in S3.
  assert (HN3 : vt_next v2 = b0 + 54) by (destruct N1 as [_ [X _]]; destruct N2 as [_ [X' _]]; lia). rewrite HN3 in S3. replace (b0 + 54 + 1) with (b0 + 55) in S3 by lia. replace (b0 + 54 + 31) with (b0 + 85) in S3 by lia. replace (b0 + 54 + 66) with (b0 + 120) in S3 by lia.
  pose proof (sound_seq _ _ _ _ _ _ _ S1 S2) as S12. pose proof (sound_seq _ _ _ _ _ _ _ S2 S3) as S23. exists h1, h2, h, g, g1, g2, k. split; [exact Mk|].
  eapply sound_imp; [exact (sound_seq _ _ _ _ _ _ _ S1 S23)|]. cbv beta.
  intros A N V Sv [Q1 [Q2 Q3]] HN Hn Hn1 Hn2 F1 F2 al asl bl bsl ll lsl ml msl sl ssl rl Ba Bb Bl Bm Bs Pr. cbv zeta. intros Ha Hb Hl Hm Hs Hc Hr U1 U2 U3 HL.
  pose proof (Q1 _ _ _ _ _ _ Bl Bm Ba U1) as W1. pose proof (Q2 _ _ _ _ _ _ Bm Bs Bb U2) as W2. specialize (Q3 HN Hn F1 F2 _ _ _ _ _ Bl Bs Pr). cbv zeta in Q3. specialize (Q3 Hl Hs Hc Hr U3 HL).
  destruct (bag_lens _ _ _ _ _ _ Ba) as [La1 La2]. destruct (bag_lens _ _ _ _ _ _ Bb) as [Lb1 Lb2]. destruct (bag_lens _ _ _ _ _ _ Bl) as [Ll1 Ll2]. destruct (bag_lens _ _ _ _ _ _ Bm) as [Lm1 Lm2]. destruct (bag_lens _ _ _ _ _ _ Bs) as [Ls1 Ls2].
  assert (P1 : Permutation (rows ll lsl ++ rows ml msl) (rows al asl)) by (apply (sum_rows Hp); auto; try congruence; [eapply (two_fit H22); [exact HN|exact Hn1|apply Bl|apply Bm]|eapply (pl_fits H22); [exact HN|apply Ba]]).
  assert (P2 : Permutation (rows ml msl ++ rows sl ssl) (rows bl bsl)) by (apply (sum_rows Hp); auto; try congruence; [eapply (two_fit H22); [exact HN|exact Hn2|apply Bm|apply Bs]|eapply (pl_fits H22); [exact HN|apply Bb]]).
  intros x. split.
  - intros Hx. split; [eapply Permutation_in; [exact P1|apply in_or_app; right; exact Hx]|eapply Permutation_in; [exact P2|apply in_or_app; left; exact Hx]].
  - intros [Hx Hy]. apply (Permutation_in _ (Permutation_sym P1)) in Hx. apply (Permutation_in _ (Permutation_sym P2)) in Hy. apply in_app_or in Hx, Hy.
    destruct Hx as [Hx|Hx]; [|exact Hx]. destruct Hy as [Hy|Hy]; [exact Hy|]. exfalso. exact (apart_app _ _ _ Q3 Hx Hy).
Qed.

Lemma set_diff_count : forall (A : list F -> reading) N d D m st q (last : list F -> option (vtrk E)) debug a b l mid bm rx al asl bl bsl ll lsl ml msl bml rl cl csl (shifted counts : list F -> list F),
  let n := Nat.max (bc_nv l) (bc_nv b) + 1 in
  1 <= d -> d < fsize p -> 2 ^ N < fsize p -> n <= N -> Nat.max (bc_nv l) (bc_nv mid) + 1 <= N -> boolean asl -> boolean bsl -> boolean lsl -> boolean msl -> boolean csl -> small_range rl n ->
  (forall gs u, length gs = 6 -> last gs = Some u -> checkable (A gs) N d D m u /\ (forall ch, queries_true (A gs) (facing (st gs) (q gs) u ch)) /\
     exists v v', after_call (fun o v => set_diff_verify o debug v a b l mid bm rx) gs v v' u /\ bag_reads (A gs) N v a al asl /\ bag_reads (A gs) N v b bl bsl /\ bag_reads (A gs) N v l ll lsl /\
       bag_reads (A gs) N v mid ml msl /\ reads (A gs) N v bm (bc_nv b) bml /\ reads (A gs) N v (bc_poly rx) (bc_nv rx) rl /\
       let got := received_ids v v' in
       Forall (fun id => fst (A gs id) <= n) (firstn 2 got) /\ map (column (A gs) n) (firstn 2 got) = [cl; csl] /\
       column (A gs) N (nth 5 got 0) = shifted (firstn 1 gs) /\ column (A gs) N (nth 10 got 0) = counts (firstn 3 gs)) ->
  ~ (NoDup (rows ll lsl) /\ forall x, In x (rows ll lsl) <-> In x (rows al asl) /\ ~ In x (rows bl bsl)) ->
  count (passes_after 6 st q last) (allV p (6 + (m + N))) <=
    (4 * 2 ^ N * 2 ^ N + 2 * 2 ^ N + (length al + 2 * length bl + 2 * length ll + 2 * length ml + 2 * length cl + length rl) + (N + 2 + N * Nat.max d (D + 1))) * fsize p ^ (5 + (m + N)).
Proof.
  intros A N d D m st q last debug aa bb lt mid bm rx al asl bl bsl ll lsl ml msl bml rl cl csl shifted counts n H1 H2 HN Hn Hn' Y1 Y2 Y3 Y4 Y5 Y6 HL Hno.
  set (a := combine (spread N N (index_column (p:=p) N)) (spread N n cl)). set (b := fun g0 : F => combine (spread N n (next_column (p:=p) n)) (shifted [g0])).
  assert (La : length a <= 2 ^ N) by (unfold a; rewrite combine_length, spread_len; lia). assert (Lb : forall g0, length (b g0) <= 2 ^ N) by (intros; unfold b; rewrite combine_length, spread_len; lia).
  replace (5 + (m + N)) with (6 + (m + N) - 1) by lia.
  apply (after_count_any Hp H22 6 (fun pre g => match pre with [] => unlucky (combine ll lsl ++ combine bl bsl) (combine cl csl) g | [h] => clash a (b h) g | [h; g0] => unlucky (unit_bag (folded g0 a)) (unit_bag (folded g0 (b h))) g
     | [h; g0; g1] => unlucky (unit_bag (steps cl)) (combine rl (mean_of N (bc_nv rx) (counts pre))) g | [_; _; _; _] => unlucky (combine ll lsl ++ combine ml msl) (combine al asl) g | _ => unlucky (combine ml msl) (wcol bl bsl bml) g end)
    (fun i => match i with 0 => length ll + length bl + length cl | 1 => 4 * 2 ^ N * 2 ^ N | 2 => 2 * 2 ^ N | 3 => length cl + length rl | 4 => length ll + length ml + length al | _ => length ml + length bl end) A N d D m st q last
    (4 * 2 ^ N * 2 ^ N + 2 * 2 ^ N + (length al + 2 * length bl + 2 * length ll + 2 * length ml + 2 * length cl + length rl)) H1 H2).
  - intros [|h [|g0 [|g1 [|g2 [|h1 pre]]]]] Hpre; cbn [length].
    + destruct (unlucky_count Hp H22 (combine ll lsl ++ combine bl bsl) (combine cl csl)) as [c [X1 X2]]. exists c. split; [exact X1|]. rewrite ?app_length, ?map_length, ?combine_length in X2. lia.
    + destruct (clash_count Hp a (b h)) as [c [X1 X2]]. exists c. split; [exact X1|]. specialize (Lb h). nia.
    + destruct (unlucky_count Hp H22 (unit_bag (folded g0 a)) (unit_bag (folded g0 (b h)))) as [c [X1 X2]]. exists c. split; [exact X1|]. specialize (Lb h). unfold unit_bag, folded in X2. rewrite !map_length in X2. lia.
    + destruct (unlucky_count Hp H22 (unit_bag (steps cl)) (combine rl (mean_of N (bc_nv rx) (counts [h; g0; g1])))) as [c [X1 X2]]. exists c. split; [exact X1|]. unfold unit_bag, steps in X2. rewrite !map_length, seq_length, combine_length in X2. lia.
    + destruct (unlucky_count Hp H22 (combine ll lsl ++ combine ml msl) (combine al asl)) as [c [X1 X2]]. exists c. split; [exact X1|]. rewrite ?app_length, ?map_length, ?combine_length in X2. lia.
    + destruct (unlucky_count Hp H22 (combine ml msl) (wcol bl bsl bml)) as [c [X1 X2]]. exists c. split; [exact X1|]. unfold wcol in X2. rewrite ?app_length, ?map_length, ?combine_length in X2. lia.
  - intros gs u Hk Hu. destruct (HL gs u Hk Hu) as [C [Q [v [v' [Ha [R0 [R1 [R1a [R1b [R1c [R2 R3]]]]]]]]]]].
    split; [apply (after_session (fun o v => set_diff_verify o debug v aa bb lt mid bm rx) gs v v' u); [intros o0 v0 v1 H0; eapply vc_set_diff; exact H0|exact Ha]|]. split; [exact C|]. split; [exact Q|].
    intros Hc Hgood. destruct Ha as [o [S1 [S2 [S3 S4]]]]. pose proof (session_ready o Hp H22 v S1) as RV. pose proof (vcalls_go o Hp H22 v' u S4) as RL.
    destruct (set_diff_says_at o debug v v' aa bb lt mid bm rx RV S2) as [h [g [g1 [g2 [h1 [h2 [k [X2 S]]]]]]]]. destruct (use v v' u (A gs) N RL Hc _ _ S) as [X1 X3].
    assert (X4 : mget (vt_virt u) k = Some (VFun ordered_fun)) by (destruct (RL (sound_ready _ _ _ _ S)) as [ds GD]; apply (y_sub _ _ _ GD); exact X2).
    pose proof (index_wide H22 (A gs) N u k (proj2 (proj2 (proj2 (proj2 (proj2 C))))) X4 HN) as HK. rewrite Nat.min_r in X3 by exact HK. fold n in X3.
    cbv zeta in R3. rewrite (got_received H22 _ _ _ _ (set_diff_got o _ _ _ _ _ _ _ _ _ RV S2)) in R3. destruct R3 as [R3 [R4 [R5 R6]]]. cbn [map nth] in R5, R6. cbn [map firstn] in R3, R4. rewrite Nat.add_0_r in R3, R4. pose proof (proj1 R2) as Hnr. injection R4 as E1 E2.
    pose proof (Forall_inv R3) as W1. pose proof (Forall_inv (Forall_inv_tail R3)) as W2. cbv beta in W1, W2.
    rewrite S3 in X1. pose proof (Hgood 0 ltac:(lia)) as G0. pose proof (Hgood 1 ltac:(lia)) as G1. pose proof (Hgood 2 ltac:(lia)) as G2. pose proof (Hgood 3 ltac:(lia)) as G3. pose proof (Hgood 4 ltac:(lia)) as G4. pose proof (Hgood 5 ltac:(lia)) as G5.
    rewrite X1 in G0, G1, G2, G3, G4, G5. cbn [firstn nth] in G0, G1, G2, G3, G4, G5.
    apply Hno. refine (X3 HN Hn Hn' W1 W2 al asl bl bsl ll lsl ml msl bml rl (bag_in v v' u (A gs) N RL _ _ _ _ _ S R0) (bag_in v v' u (A gs) N RL _ _ _ _ _ S R1) (bag_in v v' u (A gs) N RL _ _ _ _ _ S R1a) (bag_in v v' u (A gs) N RL _ _ _ _ _ S R1b)
      (id_in v v' u (A gs) N RL _ _ _ _ _ S R1c) (id_in v v' u (A gs) N RL _ _ _ _ _ S R2) Y1 Y2 Y3 Y4 _ Y6 _ _ G4 G5); cbv beta.
    + rewrite E2. exact Y5.
    + rewrite E1, E2. exact G0.
    + unfold sort_lucky_at. cbv zeta. rewrite E1, R5. pose proof (f_equal (firstn 1) X1) as X5. pose proof (f_equal (firstn 3) X1) as X6. rewrite X5. rewrite (averaged_mean H22) by exact Hnr. rewrite R6, X6. cbn [firstn]. split; [split; [exact G1|exact G2]|exact G3].
  - cbn [seq map list_sum fold_right]. lia.
Qed.

Lemma set_intersect_count : forall (A : list F -> reading) N d D m st q (last : list F -> option (vtrk E)) debug a b l mid r rx al asl bl bsl ll lsl ml msl sl ssl rl (csum csel shifted counts : list F -> list F),
  let n := Nat.max (bc_nv l) (bc_nv r) + 1 in
  1 <= d -> d < fsize p -> 2 ^ N < fsize p -> n <= N -> Nat.max (bc_nv l) (bc_nv mid) + 1 <= N -> Nat.max (bc_nv mid) (bc_nv r) + 1 <= N ->
  boolean asl -> boolean bsl -> boolean lsl -> boolean msl -> boolean ssl -> small_range rl n ->
  (forall gs u, length gs = 6 -> last gs = Some u -> checkable (A gs) N d D m u /\ (forall ch, queries_true (A gs) (facing (st gs) (q gs) u ch)) /\
     exists v v', after_call (fun o v => set_intersect_verify o debug v a b l mid r rx) gs v v' u /\ bag_reads (A gs) N v a al asl /\ bag_reads (A gs) N v b bl bsl /\ bag_reads (A gs) N v l ll lsl /\
       bag_reads (A gs) N v mid ml msl /\ bag_reads (A gs) N v r sl ssl /\ reads (A gs) N v (bc_poly rx) (bc_nv rx) rl /\
       let got := received_ids v v' in
       fst (A gs (nth 6 got 0)) <= n /\ column (A gs) n (nth 6 got 0) = csum (firstn 2 gs) /\
       fst (A gs (nth 7 got 0)) <= n /\ column (A gs) n (nth 7 got 0) = csel (firstn 2 gs) /\ boolean (csel (firstn 2 gs)) /\
       column (A gs) N (nth 11 got 0) = shifted (firstn 3 gs) /\ column (A gs) N (nth 16 got 0) = counts (firstn 5 gs)) ->
  ~ (forall x, In x (rows ml msl) <-> In x (rows al asl) /\ In x (rows bl bsl)) ->
  count (passes_after 6 st q last) (allV p (6 + (m + N))) <=
    (4 * 2 ^ N * 2 ^ N + 2 * 2 ^ N + (length al + length bl + 2 * length ll + 2 * length ml + 2 * length sl + 2 * 2 ^ n + length rl) + (N + 2 + N * Nat.max d (D + 1))) * fsize p ^ (5 + (m + N)).
Proof.
  intros A N d D m st q last debug aa bb lt mid rt rx al asl bl bsl ll lsl ml msl sl ssl rl csum csel shifted counts n H1 H2 HN Hn Hn' Hn2 Y1 Y2 Y3 Y4 Y5 Y6 HL Hno.
  set (cu := fun pre : list F => firstn (2 ^ n) (csum pre)). assert (Lcu : forall pre, length (cu pre) <= 2 ^ n) by (intros; unfold cu; apply firstn_le_length).
  set (a := fun pre => combine (spread N N (index_column (p:=p) N)) (spread N n (cu pre))). set (b := fun pre : list F => combine (spread N n (next_column (p:=p) n)) (shifted pre)).
  assert (La : forall pre, length (a pre) <= 2 ^ N) by (intros; unfold a; rewrite combine_length, spread_len; lia). assert (Lb : forall pre, length (b pre) <= 2 ^ N) by (intros; unfold b; rewrite combine_length, spread_len; lia).
  replace (5 + (m + N)) with (6 + (m + N) - 1) by lia.
  apply (after_count_any Hp H22 6 (fun pre g => match pre with [] => unlucky (combine ll lsl ++ combine ml msl) (combine al asl) g | [_] => unlucky (combine ml msl ++ combine sl ssl) (combine bl bsl) g
     | [x; y] => unlucky (combine ll lsl ++ combine sl ssl) (combine (cu [x; y]) (csel [x; y])) g | [x; y; z] => clash (a [x; y]) (b [x; y; z]) g
     | [x; y; z; g0] => unlucky (unit_bag (folded g0 (a [x; y]))) (unit_bag (folded g0 (b [x; y; z]))) g | x :: y :: _ => unlucky (unit_bag (steps (cu [x; y]))) (combine rl (mean_of N (bc_nv rx) (counts pre))) g end)
    (fun i => match i with 0 => length ll + length ml + length al | 1 => length ml + length sl + length bl | 2 => length ll + length sl + 2 ^ n | 3 => 4 * 2 ^ N * 2 ^ N | 4 => 2 * 2 ^ N | _ => 2 ^ n + length rl end) A N d D m st q last
    (4 * 2 ^ N * 2 ^ N + 2 * 2 ^ N + (length al + length bl + 2 * length ll + 2 * length ml + 2 * length sl + 2 * 2 ^ n + length rl)) H1 H2).
  - intros [|x [|y [|z [|g0 [|g1 pre]]]]] Hpre; cbn [length].
    + destruct (unlucky_count Hp H22 (combine ll lsl ++ combine ml msl) (combine al asl)) as [c [X1 X2]]. exists c. split; [exact X1|]. rewrite ?app_length, ?map_length, ?combine_length in X2. lia.
    + destruct (unlucky_count Hp H22 (combine ml msl ++ combine sl ssl) (combine bl bsl)) as [c [X1 X2]]. exists c. split; [exact X1|]. rewrite ?app_length, ?map_length, ?combine_length in X2. lia.
    + destruct (unlucky_count Hp H22 (combine ll lsl ++ combine sl ssl) (combine (cu [x; y]) (csel [x; y]))) as [c [X1 X2]]. exists c. split; [exact X1|]. specialize (Lcu [x; y]). rewrite ?app_length, ?map_length, ?combine_length in X2. lia.
    + destruct (clash_count Hp (a [x; y]) (b [x; y; z])) as [c [X1 X2]]. exists c. split; [exact X1|]. specialize (La [x; y]). specialize (Lb [x; y; z]). nia.
    + destruct (unlucky_count Hp H22 (unit_bag (folded g0 (a [x; y]))) (unit_bag (folded g0 (b [x; y; z])))) as [c [X1 X2]]. exists c. split; [exact X1|]. specialize (La [x; y]). specialize (Lb [x; y; z]). unfold unit_bag, folded in X2. rewrite !map_length in X2. lia.
    + destruct (unlucky_count Hp H22 (unit_bag (steps (cu [x; y]))) (combine rl (mean_of N (bc_nv rx) (counts (x :: y :: z :: g0 :: g1 :: pre))))) as [c [X1 X2]]. exists c. split; [exact X1|]. specialize (Lcu [x; y]). unfold unit_bag, steps in X2. rewrite !map_length, seq_length, combine_length in X2. lia.
  - intros gs u Hk Hu. destruct (HL gs u Hk Hu) as [C [Q [v [v' [Ha [R0 [R1 [R1a [R1b [R1c [R2 R3]]]]]]]]]]].
    split; [apply (after_session (fun o v => set_intersect_verify o debug v aa bb lt mid rt rx) gs v v' u); [intros o0 v0 v1 H0; eapply vc_set_intersect; exact H0|exact Ha]|]. split; [exact C|]. split; [exact Q|].
    intros Hc Hgood. destruct Ha as [o [S1 [S2 [S3 S4]]]]. pose proof (session_ready o Hp H22 v S1) as RV. pose proof (vcalls_go o Hp H22 v' u S4) as RL.
    destruct (set_intersect_says_at o debug v v' aa bb lt mid rt rx RV S2) as [h1 [h2 [h [g [g1 [g2 [k [X2 S]]]]]]]]. destruct (use v v' u (A gs) N RL Hc _ _ S) as [X1 X3].
    assert (X4 : mget (vt_virt u) k = Some (VFun ordered_fun)) by (destruct (RL (sound_ready _ _ _ _ S)) as [ds GD]; apply (y_sub _ _ _ GD); exact X2).
    pose proof (index_wide H22 (A gs) N u k (proj2 (proj2 (proj2 (proj2 (proj2 C))))) X4 HN) as HK. rewrite Nat.min_r in X3 by exact HK. fold n in X3.
    cbv zeta in R3. rewrite (got_received H22 _ _ _ _ (set_intersect_got o _ _ _ _ _ _ _ _ _ RV S2)) in R3. destruct R3 as [W1 [E1 [W2 [E2 [Y7 [R5 R6]]]]]]. cbn [map nth] in W1, W2, E1, E2, R5, R6. pose proof (proj1 R2) as Hnr.
    rewrite S3 in X1. pose proof (Hgood 0 ltac:(lia)) as G0. pose proof (Hgood 1 ltac:(lia)) as G1. pose proof (Hgood 2 ltac:(lia)) as G2. pose proof (Hgood 3 ltac:(lia)) as G3. pose proof (Hgood 4 ltac:(lia)) as G4. pose proof (Hgood 5 ltac:(lia)) as G5.
    rewrite X1 in G0, G1, G2, G3, G4, G5. cbn [firstn nth] in G0, G1, G2, G3, G4, G5.
    pose proof (f_equal (firstn 2) X1) as X5. pose proof (f_equal (firstn 3) X1) as X6. pose proof (f_equal (firstn 5) X1) as X7. rewrite X5 in E1, E2, Y7. rewrite X6 in R5. rewrite X7 in R6. cbn [firstn] in E1, E2, Y7, R5, R6.
    assert (Ecu : cu [h1; h2] = csum [h1; h2]) by (unfold cu; rewrite <- E1; apply firstn_all2; rewrite column_len; lia).
    apply Hno. refine (X3 HN Hn Hn' Hn2 W1 W2 al asl bl bsl ll lsl ml msl sl ssl rl (bag_in v v' u (A gs) N RL _ _ _ _ _ S R0) (bag_in v v' u (A gs) N RL _ _ _ _ _ S R1) (bag_in v v' u (A gs) N RL _ _ _ _ _ S R1a) (bag_in v v' u (A gs) N RL _ _ _ _ _ S R1b)
      (bag_in v v' u (A gs) N RL _ _ _ _ _ S R1c) (id_in v v' u (A gs) N RL _ _ _ _ _ S R2) Y1 Y2 Y3 Y4 Y5 _ Y6 G0 G1 _ _); cbv beta.
    + rewrite E2. exact Y7.
    + rewrite E1, E2, <- Ecu. exact G2.
    + unfold sort_lucky_at. cbv zeta. rewrite E1, R5. rewrite (averaged_mean H22) by exact Hnr. rewrite R6, <- Ecu. split; [split; [exact G3|exact G4]|exact G5].
  - cbn [seq map list_sum fold_right]. lia.
Qed.
End P.
