(** Grouping: how often false groups, counts and sums pass, when the prover commits to each column before the next challenge. *)
From Coq Require Import String List Arith Lia Bool ZArith Znumtheory Permutation.
Import ListNotations.
From Verif Require Import Res ResLemmas Fp FSum SpecMle SpecPoly SpecTracker SpecIop SpecRel ModelTranscript SumcheckHist MleLemmas PolyLemmas Pairing ModelKzg ModelBatch ModelProver ModelVerifier ModelIop
  VerifierHist CompileHist IopHist LogDeriv BagLemmas IopSort IopVer IopSound IopSound2 IopGot MleExtra AdviceProofs SortSound IopClaims CompSound CompSound2 CompSound3 CompClaims SessHist SessProofs CheckHist CheckProofs CheckIopHist CheckIop CheckSort.
Local Open Scope list_scope.
Local Open Scope nat_scope.
#[local] Opaque track_virtual v_add_scalar.

Section P.
Context {p : positive} {E : pairing p}.
Hypothesis Hp : prime (Zpos p).
Hypothesis H22 : 2 < fsize p.
Notation F := (F p).
Add Ring Fq : (@F_ring p).
Notation comm := (gcar (PG1 E)).
Implicit Types (v : vtrk E).

Definition supp_ids : list nat := [1; 9; 17; 23; 26; 27; 35; 43; 58; 60; 68; 76].
Lemma supp_wa_got : forall o debug v b sup m rx v', vready v -> supp_verify_with_advice o debug v b sup m rx = Ok v' -> got v v' 80 supp_ids.
Proof.
  intros o debug v b sup m rx v' R H. pose proof (got_refl v R) as G. unfold supp_verify_with_advice in H.
  match type of H with context [inclusion_verify_with_advice ?o ?d ?v ?a ?b ?m] => destruct (inclusion_verify_with_advice o d v a b m) as [w| |] eqn:E1; cbn [bind] in H; [|discriminate H|discriminate H] end.
  pose proof (inclusion_wa_got o _ _ _ _ _ _ (got_ready _ _ _ _ G) E1) as X. clear E1. gjoin G X.
  match type of H with context [no_zeros_verify ?d ?v ?a] => destruct (no_zeros_verify d v a) as [w1| |] eqn:E1; cbn [bind] in H; [|discriminate H|discriminate H] end.
  pose proof (no_zeros_got _ _ _ _ (got_ready _ _ _ _ G) E1) as X. clear E1. gjoin G X. pose proof (strict_sort_got o _ _ _ _ _ (got_ready _ _ _ _ G) H) as X. gjoin G X. exact G.
Qed.
Lemma aggs_got : forall o debug t pre grp mult ins cols v cols' v', vready v -> foldM (gb_agg_verify o debug t pre grp mult) (cols, v) ins = Ok (cols', v') -> exists n l, got v v' n l.
Proof.
  intros o debug t pre grp mult. induction ins as [|[[col k] a] ins IH]; intros cols v cols' v' R H; cbn [foldM] in H.
  - injection H as <- <-. exists 0, []. exact (got_refl v R).
  - destruct k; cbn [gb_agg_verify fst snd bind] in H; try discriminate H; [exact (IH _ _ _ _ R H)|].
    destruct (rnth _ _) as [c| |] in H; cbn [bind] in H; try discriminate H. destruct (multitool_verify _ _ _ _ _ _ _) as [v1| |] eqn:E1 in H; cbn [bind] in H; try discriminate H.
    pose proof (multitool_got o _ _ _ _ _ _ _ R E1) as G. destruct (IH _ _ _ _ (got_ready _ _ _ _ G) H) as [n [l X]]. eexists _, _. exact (got_trans _ _ _ _ _ _ _ G X).
Qed.
Lemma group_by_got : forall o debug v v' t gi rx res, vready v -> group_by_verify o debug v t gi rx = Ok (res, v') -> exists n l, got v v' n (supp_ids ++ l).
Proof.
  intros o debug v v' t gi rx res R H. unfold group_by_verify in H. cbv zeta in H. destruct (gb_check _ _ _) as [g| |] in H; cbn [bind] in H; try discriminate.
  destruct (rnth (gv_supp gi) 0) as [sp| |]; cbn [bind] in H; try discriminate. destruct (rnth (tc_cols t) g) as [gc| |]; cbn [bind] in H; try discriminate.
  destruct (supp_verify_with_advice _ _ _ _ _ _ _) as [v1| |] eqn:E3 in H; cbn [bind] in H; try discriminate. pose proof (supp_wa_got o _ _ _ _ _ _ _ R E3) as G.
  destruct (foldM _ _ _) as [[cols v2]| |] eqn:E4 in H; cbn [bind] in H; try discriminate. injection H as _ <-. destruct (aggs_got _ _ _ _ _ _ _ _ _ _ _ (got_ready _ _ _ _ G) E4) as [n [l X]].
  eexists _, _. exact (got_trans _ _ _ _ _ _ _ G X).
Qed.
Lemma supp_wa_says_at : forall o debug v v' b sup m rx, vready v -> supp_verify_with_advice o debug v b sup m rx = Ok v' ->
  exists h g g1 g2 k, mget (vt_virt v') k = Some (VFun ordered_fun) /\
   sound v v' [h; g; g1; g2] (fun A N V => 2 ^ N < fsize p ->
    forall l sl l' sl' ml rl, plist_bag A V N b l sl -> plist_bag A V N sup l' sl' -> plist A V N m (bc_nv sup) ml -> plist A V N (bc_poly rx) (bc_nv rx) rl ->
    boolean sl' -> small_range rl (bc_nv sup) -> ~ unlucky (combine l sl) (wcol l' sl' ml) h ->
    sort_lucky_at A N (bc_nv sup) (bc_nv rx) (Nat.min (fst (A k)) N) (vt_next v + 23) (vt_next v + 58) l' rl g g1 g2 ->
    NoDup (rows l' sl') /\ (forall x, In x (rows l' sl') <-> weight (combine l sl) x <> F0) /\
    (forall k, k < length l' -> nth k sl' F0 <> F0 -> nth k ml F0 = weight (combine l sl) (nth k l' F0))).
Proof.
  intros o debug v v' b sup m rx R0 H. unfold supp_verify_with_advice in H.
  match type of H with context [inclusion_verify_with_advice ?o ?d ?v ?a ?b ?m] => destruct (inclusion_verify_with_advice o d v a b m) as [v1| |] eqn:E1; cbn [bind] in H; [|discriminate H|discriminate H] end.
  match type of H with context [no_zeros_verify ?d ?v ?a] => destruct (no_zeros_verify d v a) as [v2| |] eqn:E2; cbn [bind] in H; [|discriminate H|discriminate H] end.
  destruct (incl_wa_says o Hp H22 _ _ _ _ _ _ R0 E1) as [h S1]. pose proof (inclusion_wa_got o _ _ _ _ _ _ R0 E1) as N1. pose proof (sound_ready _ _ _ _ S1) as R1.
  pose proof (nz_says H22 _ _ _ _ R1 E2) as S2. pose proof (no_zeros_got _ _ _ _ R1 E2) as N2. pose proof (sound_ready _ _ _ _ S2) as R2. clear E1 E2.
  destruct (strict_sort_sound_at o Hp H22 _ _ _ _ _ R2 H) as [g [g1 [g2 [q [mm [k [[Q1 Q2] [_ [_ [Mk S3]]]]]]]]]]. exists h, g, g1, g2, k. split; [exact Mk|].
  assert (HN : vt_next v2 = vt_next v + 21) by (destruct N1 as [_ [X1 _]], N2 as [_ [X2 _]]; lia). clear N1 N2.
  replace q with (vt_next v + 23) in S3 by lia. replace mm with (vt_next v + 58) in S3 by lia. clear Q1 Q2 HN.
  pose proof (sound_seq _ _ _ _ _ _ _ S1 (sound_seq _ _ _ _ _ _ _ S2 S3)) as S. cbn [app] in S. eapply sound_imp; [exact S|]. cbv beta.
  intros A N V Sv [Q1 [Q2 Q3]] HN l sl l' sl' ml rl Bb Bs Pm Pr Hb Hr Hu HL.
  pose proof (Q1 _ _ _ _ _ Bb Bs Pm Hu) as Hsame. pose proof (Q3 HN _ _ _ Bs Pr HL) as Hsort. specialize (Q2 ml sl' (conj Pm (proj2 Bs))).
  destruct Bs as [Bs1 Bs2]. apply pl_len in Bs1, Bs2, Pm. rewrite Pm in Q2. rewrite <- Bs1 in Q2. assert (Hn : NoDup (rows l' sl')) by (eapply sorted_distinct; eauto).
  split; [exact Hn|]. apply (support_rows l' sl' ml); auto; congruence.
Qed.
Lemma group_by_says_at : forall o debug v v' t gi rx res c, vready v -> group_by_verify o debug v t gi rx = Ok (res, v') -> gv_cols gi = [c] ->
  exists sp h g0 g1 g2 hs k, nth_error (gv_supp gi) 0 = Some sp /\ length hs = length (sums_in (gv_agg gi)) /\ mget (vt_virt v') k = Some (VFun ordered_fun) /\
    sound v v' ([h; g0; g1; g2] ++ hs) (fun A N V => 2 ^ N < fsize p -> forall tcs sl l' sl' ml rl, plists A V N (tc_nv t) (tc_cols t) tcs -> plist A V N (tc_sel t) (tc_nv t) sl ->
      plist A V N sp (tc_nv t) l' -> plist A V N (gv_sel gi) (tc_nv t) sl' -> plist A V N (gv_mult gi) (tc_nv t) ml -> plist A V N (bc_poly rx) (bc_nv rx) rl ->
      boolean sl -> boolean sl' -> small_range rl (tc_nv t) -> let l := nth c tcs [] in ~ unlucky (combine l sl) (wcol l' sl' ml) h ->
      sort_lucky_at A N (tc_nv t) (bc_nv rx) (Nat.min (fst (A k)) N) (vt_next v + 23) (vt_next v + 58) l' rl g0 g1 g2 ->
      NoDup (rows l' sl') /\ (forall x, In x (rows l' sl') <-> In x (rows l sl)) /\
      (forall k, k < length l' -> nth k sl' F0 <> F0 -> nth k ml F0 = ofN (count_occ F_dec (rows l sl) (nth k l' F0))) /\
      Forall2 (fun ca hh => forall al, plist A V N (snd ca) (tc_nv t) al -> ~ unlucky (wcol l sl (nth (fst ca) tcs [])) (wcol l' sl' al) hh ->
        forall k, k < length l' -> nth k sl' F0 <> F0 -> nth k al F0 = weight (wcol l sl (nth (fst ca) tcs [])) (nth k l' F0)) (sums_in (gv_agg gi)) hs).
Proof.
  intros o debug v v' t gi rx res g R H Hg. unfold group_by_verify in H. cbv zeta in H. destruct (gb_check _ _ _) as [g'| |] eqn:Eg in H; cbn [bind] in H; try discriminate. apply gb_check_ok in Eg. destruct Eg as [Eg C2]. rewrite Hg in Eg. injection Eg as <-.
  destruct (rnth (gv_supp gi) 0) as [sp| |] eqn:E1; cbn [bind] in H; try discriminate. apply rnth_some in E1. destruct (rnth (tc_cols t) g) as [gc| |] eqn:E2; cbn [bind] in H; try discriminate. apply rnth_some in E2.
  destruct (supp_verify_with_advice _ _ _ _ _ _ _) as [v1| |] eqn:E3 in H; cbn [bind] in H; try discriminate. destruct (supp_wa_says_at o _ _ _ _ _ _ _ R E3) as [h [g0 [g1 [g2 [k [Mk S1]]]]]]. cbn [bc_nv] in S1.
  destruct (foldM _ _ _) as [[cols v2]| |] eqn:E4 in H; cbn [bind] in H; try discriminate. apply Okinj in H. inversion H; subst res v2. clear H. destruct (aggs_says o Hp H22 _ _ _ _ _ _ _ _ _ _ (sound_ready _ _ _ _ S1) E4) as [A1 [A2 [hs [A3 S2]]]]. cbn [bc_nv] in S2.
  exists sp, h, g0, g1, g2, hs, k. split; [exact E1|]. split; [exact A3|]. split; [apply (y_sub _ _ _ (proj1 S2)); exact Mk|].
  eapply sound_imp; [exact (sound_seq _ _ _ _ _ _ _ S1 S2)|]. cbv beta. intros A N V _ [Q1 Q2] HN tcs sl l' sl' ml rl Pt Ps Pl Pls Pm Pr Bs Bs' Hr. cbv zeta. intros Hu HL.
  pose proof (plists_nth _ _ _ _ _ _ _ _ Pt E2) as Pg. set (l := nth g tcs []) in *. pose proof (pl_len _ _ _ _ _ _ Pg) as L1. pose proof (pl_len _ _ _ _ _ _ Ps) as L3. pose proof (pl_len _ _ _ _ _ _ Pl) as L4. pose proof (pl_len _ _ _ _ _ _ Pls) as L5. pose proof (pl_len _ _ _ _ _ _ Pm) as L6.
  destruct (Q1 HN l sl l' sl' ml rl (conj Pg Ps) (conj Pl Pls) Pm Pr Bs' Hr Hu HL) as [N1 [N3 N4]]. split; [exact N1|]. assert (Hfit : length l < fsize p) by (eapply (pl_fits H22); [exact HN|exact Pg]).
  split; [intros x; rewrite N3; symmetry; apply (rows_weight' Hp); auto; congruence|]. split; [intros j Hk Hk'; rewrite N4 by assumption; apply (rows_count Hp); [congruence|exact Bs]|].
  specialize (Q2 l sl l' sl' tcs (conj Pg Ps) (conj Pl Pls) Pt). revert Q2. generalize (sums_in (gv_agg gi)). clear - N1 L1 L3 L4 L5 Bs'. intros ss Q2. induction Q2 as [|ca hh ss hs Q Q2 IH]; constructor; [|exact IH]. intros al Pa Hu k Hk Hs. pose proof (pl_len _ _ _ _ _ _ Pa) as La.
  rewrite (Q al Pa Hu). rewrite (distinct_weight l' sl' al k); [|congruence|congruence|exact N1|exact Hk|exact Hs]. unfold boolean in Bs'. rewrite Forall_forall in Bs'. destruct (Bs' (nth k sl' F0)) as [Z|Z]; [apply nth_In; congruence|contradiction|]. rewrite Z. ring.
Qed.

Lemma Forall2_at : forall X Y (P : X -> Y -> Prop) l m dx dy, Forall2 P l m -> forall i, i < length l -> P (nth i l dx) (nth i m dy).
Proof. intros X Y P l m dx dy H. induction H; intros i Hi; [cbn in Hi; lia|]. destruct i as [|i]; [exact H|]. cbn [nth]. apply IHForall2. cbn in Hi. lia. Qed.
Lemma Forall2_of : forall X Y (P : X -> Y -> Prop) l m dx dy, length l = length m -> (forall i, i < length l -> P (nth i l dx) (nth i m dy)) -> Forall2 P l m.
Proof.
  intros X Y P l. induction l as [|x l IH]; intros [|y m] dx dy HL H; cbn in HL; try discriminate; constructor; [exact (H 0 ltac:(cbn; lia))|]. apply (IH m dx dy); [lia|]. intros i Hi. exact (H (S i) ltac:(cbn; lia)).
Qed.
Lemma sum_const : forall (B : nat -> nat) c s n, (forall i, s <= i -> B i = c) -> list_sum (map B (seq s n)) = n * c.
Proof. intros B c s n. revert s. induction n as [|n IH]; intros s H; [reflexivity|]. cbn [seq map]. change (list_sum (B s :: map B (seq (S s) n))) with (B s + list_sum (map B (seq (S s) n))). rewrite H, IH by (intros; try apply H; lia). lia. Qed.

Lemma group_by_count : forall (A : list F -> reading) N d D m st q (last : list F -> option (vtrk E)) debug t gi rx c tcs sl sup sl' ml rl als (shifted counts : list F -> list F),
  let keys := nth c tcs [] in let sums := sums_in (gv_agg gi) in let s := length sums in
  1 <= d -> d < fsize p -> 2 ^ N < fsize p -> gv_cols gi = [c] -> boolean sl -> boolean sl' -> small_range rl (tc_nv t) ->
  (forall gs u, length gs = 4 + s -> last gs = Some u -> checkable (A gs) N d D m u /\ (forall ch, queries_true (A gs) (facing (st gs) (q gs) u ch)) /\
     exists v v', after_call (fun o v => ' (_, v) <- group_by_verify o debug v t gi rx ;; Ok v) gs v v' u /\ table_reads (A gs) N v t tcs sl /\
       Forall (fun id => reads (A gs) N v id (tc_nv t) sup) (firstn 1 (gv_supp gi)) /\ reads (A gs) N v (gv_sel gi) (tc_nv t) sl' /\ reads (A gs) N v (gv_mult gi) (tc_nv t) ml /\
       Forall2 (fun ca al => reads (A gs) N v (snd ca) (tc_nv t) al) sums als /\ reads (A gs) N v (bc_poly rx) (bc_nv rx) rl /\
       let got := received_ids v v' in
       column (A gs) N (nth 3 got 0) = shifted (firstn 1 gs) /\ column (A gs) N (nth 8 got 0) = counts (firstn 3 gs)) ->
  ~ (NoDup (rows sup sl') /\ (forall x, In x (rows sup sl') <-> In x (rows keys sl)) /\
     (forall k, k < length sup -> nth k sl' F0 <> F0 -> nth k ml F0 = ofN (count_occ F_dec (rows keys sl) (nth k sup F0))) /\
     Forall2 (fun ca al => forall k, k < length sup -> nth k sl' F0 <> F0 -> nth k al F0 = weight (wcol keys sl (nth (fst ca) tcs [])) (nth k sup F0)) sums als) ->
  count (passes_after (4 + s) st q last) (allV p (4 + s + (m + N))) <=
    (4 * 2 ^ N * 2 ^ N + 2 * 2 ^ N + ((1 + s) * (length keys + length sup) + length sup + length rl) + (N + 2 + N * Nat.max d (D + 1))) * fsize p ^ (3 + s + (m + N)).
Proof.
  intros A N d D m st q last debug t gi rx c tcs sl sup sl' ml rl als shifted counts keys sums s H1 H2 HN Hc0 Y1 Y2 Y3 HL Hno.
  set (a := combine (spread N N (index_column (p:=p) N)) (spread N (tc_nv t) sup)). set (b := fun g0 : F => combine (spread N (tc_nv t) (next_column (p:=p) (tc_nv t))) (shifted [g0])).
  assert (La : length a <= 2 ^ N) by (unfold a; rewrite combine_length, spread_len; lia). assert (Lb : forall g0, length (b g0) <= 2 ^ N) by (intros; unfold b; rewrite combine_length, spread_len; lia).
  replace (3 + s + (m + N)) with (4 + s + (m + N) - 1) by lia.
  apply (after_count_any Hp H22 (4 + s) (fun pre g => match pre with [] => unlucky (combine keys sl) (wcol sup sl' ml) g | [h] => clash a (b h) g | [h; g0] => unlucky (unit_bag (folded g0 a)) (unit_bag (folded g0 (b h))) g
     | [h; g0; g1] => unlucky (unit_bag (steps sup)) (combine rl (mean_of N (bc_nv rx) (counts [h; g0; g1]))) g
     | _ :: _ :: _ :: _ :: pre' => unlucky (wcol keys sl (nth (fst (nth (length pre') sums (0, 0))) tcs [])) (wcol sup sl' (nth (length pre') als [])) g end)
    (fun i => match i with 0 => length keys + length sup | 1 => 4 * 2 ^ N * 2 ^ N | 2 => 2 * 2 ^ N | 3 => length sup + length rl | _ => length keys + length sup end) A N d D m st q last
    (4 * 2 ^ N * 2 ^ N + 2 * 2 ^ N + ((1 + s) * (length keys + length sup) + length sup + length rl)) H1 H2).
  - intros [|h [|g0 [|g1 [|g2 pre]]]] Hpre; cbn [length].
    + destruct (unlucky_count Hp H22 (combine keys sl) (wcol sup sl' ml)) as [e [X1 X2]]. exists e. split; [exact X1|]. unfold wcol in X2. rewrite ?app_length, ?map_length, ?combine_length in X2. lia.
    + destruct (clash_count Hp a (b h)) as [e [X1 X2]]. exists e. split; [exact X1|]. specialize (Lb h). nia.
    + destruct (unlucky_count Hp H22 (unit_bag (folded g0 a)) (unit_bag (folded g0 (b h)))) as [e [X1 X2]]. exists e. split; [exact X1|]. specialize (Lb h). unfold unit_bag, folded in X2. rewrite !map_length in X2. lia.
    + destruct (unlucky_count Hp H22 (unit_bag (steps sup)) (combine rl (mean_of N (bc_nv rx) (counts [h; g0; g1])))) as [e [X1 X2]]. exists e. split; [exact X1|]. unfold unit_bag, steps in X2. rewrite !map_length, seq_length, combine_length in X2. lia.
    + match goal with |- exists e, (forall g, unlucky ?x ?y g -> _) /\ _ => destruct (unlucky_count Hp H22 x y) as [bb [X1 X2]] end. exists bb. split; [exact X1|]. unfold wcol in X2. rewrite ?app_length, ?map_length, ?combine_length in X2. lia.
  - intros gs u Hk Hu. destruct (HL gs u Hk Hu) as [C [Q [v [v' [Ha [[R1 R2] [R3 [R4 [R5 [R6 [R7 R8]]]]]]]]]]]. clear HL.
    split.
    { apply (after_session (fun o v => ' (_, v) <- group_by_verify o debug v t gi rx ;; Ok v) gs v v' u); [|exact Ha]. intros o0 v0 v1 H0. destruct (group_by_verify o0 debug v0 t gi rx) as [[t0 w]| |] eqn:E0; cbn [bind] in H0; try discriminate H0.
      injection H0 as <-. eapply vc_group_by; exact E0. }
    split; [exact C|]. split; [exact Q|].
    intros Hc Hgood. destruct Ha as [o [S1 [S2 [S3 S4]]]]. pose proof (session_ready o Hp H22 v S1) as RV. pose proof (vcalls_go o Hp H22 v' u S4) as RL.
    destruct (group_by_verify o debug v t gi rx) as [[t0 w]| |] eqn:E0; cbn [bind] in S2; try discriminate S2. injection S2 as ->.
    destruct (group_by_says_at o debug v v' t gi rx t0 c RV E0 Hc0) as [sp [h [g [g1 [g2 [hs [k [Z1 [Z2 [X2 S]]]]]]]]]]. destruct (use v v' u (A gs) N RL Hc _ _ S) as [X1 X3].
    assert (X4 : mget (vt_virt u) k = Some (VFun ordered_fun)) by (destruct (RL (sound_ready _ _ _ _ S)) as [ds GD]; apply (y_sub _ _ _ GD); exact X2).
    pose proof (index_wide H22 (A gs) N u k (proj2 (proj2 (proj2 (proj2 (proj2 C))))) X4 HN) as HK. rewrite Nat.min_r in X3 by exact HK.
    destruct (group_by_got o _ _ _ _ _ _ _ RV E0) as [ng [lg GG]]. cbv zeta in R8. rewrite (got_received H22 _ _ _ _ GG) in R8. unfold supp_ids in R8. cbn [map app nth] in R8. destruct R8 as [W1 W2]. pose proof (proj1 R7) as Hnr.
    rewrite S3 in X1. clear S3. cbn [app] in X1.
    assert (R3' : reads (A gs) N v sp (tc_nv t) sup). { destruct (gv_supp gi) as [|x xs]; [discriminate|]. cbn in Z1. injection Z1 as ->. cbn [firstn] in R3. inversion R3; assumption. }
    pose proof (Hgood 0 ltac:(lia)) as G0. pose proof (Hgood 1 ltac:(lia)) as G1. pose proof (Hgood 2 ltac:(lia)) as G2. pose proof (Hgood 3 ltac:(lia)) as G3.
    assert (G4 : forall i, i < s -> ~ unlucky (wcol keys sl (nth (fst (nth i sums (0, 0))) tcs [])) (wcol sup sl' (nth i als [])) (nth i hs F0)).
    { intros i Hi. pose proof (Hgood (4 + i) ltac:(lia)) as G. rewrite X1 in G. cbn [Nat.add firstn nth] in G. rewrite firstn_length_le in G by (rewrite Z2; fold sums; fold s; lia). exact G. } clear Hgood.
    rewrite X1 in G0, G1, G2, G3. cbn [firstn nth] in G0, G1, G2, G3.
    assert (E1 : firstn 1 gs = [h]) by (rewrite X1; reflexivity). assert (E3 : firstn 3 gs = [h; g; g1]) by (rewrite X1; reflexivity). rewrite E1 in W1. rewrite E3 in W2.
    destruct (X3 HN tcs sl sup sl' ml rl (ids_in v v' u (A gs) N RL _ _ _ _ _ S R1) (id_in v v' u (A gs) N RL _ _ _ _ _ S R2) (id_in v v' u (A gs) N RL _ _ _ _ _ S R3') (id_in v v' u (A gs) N RL _ _ _ _ _ S R4)
      (id_in v v' u (A gs) N RL _ _ _ _ _ S R5) (id_in v v' u (A gs) N RL _ _ _ _ _ S R7) Y1 Y2 Y3 G0) as [V1 [V2 [V3 V4]]].
    + unfold sort_lucky_at. cbv zeta. rewrite W1. split; [split; [exact G1|exact G2]|]. rewrite (averaged_mean H22) by exact Hnr. rewrite W2. exact G3.
    + apply Hno. split; [exact V1|]. split; [exact V2|]. split; [exact V3|]. pose proof (Forall2_length' _ _ _ _ _ R6) as L6. apply (Forall2_of _ _ _ _ _ (0, 0) []); [exact L6|]. intros i Hi.
      pose proof (Forall2_at _ _ _ _ _ (0, 0) F0 V4 i Hi) as V. cbv beta in V. apply V; [|apply G4; exact Hi]. eapply (id_in v v' u (A gs) N RL); [exact S|]. exact (Forall2_at _ _ _ _ _ (0, 0) [] R6 i Hi).
  - rewrite seq_app, map_app, list_sum_app. rewrite (sum_const _ (length keys + length sup) (0 + 4) s) by (intros [|[|[|[|i]]]] Hi; [lia|lia|lia|lia|reflexivity]). cbn [seq map list_sum fold_right]. lia.
Qed.
End P.
