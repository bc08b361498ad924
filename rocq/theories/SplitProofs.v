(** Splits of bags before they are used. *)
From Coq Require Import String List Arith Lia Bool ZArith Znumtheory Permutation Sorted.
Import ListNotations.
From Verif Require Import Res ResLemmas Fp FSum SpecMle SpecKzg SpecPoly PolyLemmas SpecSumcheck SpecBatch SpecTracker SpecIop SpecRel SpecJoin ModelMle MleLemmas MleProofs MleExtra ModelVp ModelTranscript ModelSumcheck
  Pairing ModelKzg ModelBatch ModelProver ModelVerifier ModelAdvice ModelIop ProverHist VerifierHist CompileHist SessHist IopHist IopRes TmapLemmas ProverProofs HistExtra LockProofs
  CompileMain CompileSound LogDeriv BagLemmas AdviceProofs AdviceProofs2 AdviceProofs4 AdviceProofs5 IopWorld IopMain IopBasic IopMulti IopRuns IopSort IopVer IopCheck IopComp IopComp2 IopComp3 IopFull PlanHist IopSplit PlanProofs.
Local Open Scope string_scope.
Local Open Scope list_scope.
Local Open Scope nat_scope.

Section K.
Context {p : positive} {E : pairing p}.
Implicit Types s t : ptrk E.
Lemma same_refl : forall s, same_claims s s. Proof. split; reflexivity. Qed.
Lemma same_trans : forall s t u, same_claims s t -> same_claims t u -> same_claims s u. Proof. intros s t u [A B] [C D]. split; congruence. Qed.
Lemma foldM_same : forall A B (f : A * ptrk E -> B -> res (A * ptrk E)), (forall a x a', f a x = Ok a' -> same_claims (snd a) (snd a')) -> forall xs a a', foldM f a xs = Ok a' -> same_claims (snd a) (snd a').
Proof. intros A B f Hf xs. induction xs as [|x xs IH]; intros a a' H; cbn [foldM] in H; [injection H as <-; apply same_refl|]. destruct (f a x) as [b| |] eqn:Q; cbn [bind] in H; try discriminate. eapply same_trans; [exact (Hf _ _ _ Q)|exact (IH _ _ H)]. Qed.
Lemma mat_loop_same : forall fuel s id s', materialize_loop fuel s id = Ok s' -> same_claims s s'.
Proof.
  induction fuel as [|fuel IH]; intros s id s' H; cbn [materialize_loop] in H; destruct (mget (pt_mat s) id) as [a|]; try (injection H as <-; apply same_refl);
    destruct (ounwrap (mget (pt_virt s) id)) as [v| |]; cbn [bind] in H; try discriminate; destruct (virt_nv s v) as [n| |]; cbn [bind] in H; try discriminate;
    match type of H with bind (foldM ?f ?a ?l) _ = _ => destruct (foldM f a l) as [[prods s1]| |] eqn:Q end; cbn [bind] in H; try discriminate;
    destruct (from_evaluations n _) as [m| |]; cbn [bind] in H; try discriminate; injection H as <-; (eapply same_trans; [|split; reflexivity]);
    (apply (foldM_same _ _ _) in Q; [exact Q|]); intros acc cp acc' H; (match type of H with bind (foldM ?f ?a ?l) _ = _ => destruct (foldM f a l) as [[r s2]| |] eqn:Q2 end; cbn [bind] in H; try discriminate; injection H as <-; cbn [snd];
    apply foldM_same in Q2; [exact Q2|]; intros rs i rs' H'; cbn beta in H').
  - discriminate.
  - destruct (materialize_loop fuel (snd rs) i) as [s3| |] eqn:Q3; cbn [bind] in H'; try discriminate. destruct (ounwrap (mget (pt_mat s3) i)) as [a| |]; cbn [bind] in H'; try discriminate. injection H' as <-. exact (IH _ _ _ Q3).
Qed.
Lemma evals_same : forall s a l s', tp_evaluations s a = Ok (l, s') -> same_claims s s'.
Proof. intros s a l s' H. unfold tp_evaluations, evaluations, materialize_poly in H. destruct (materialize_loop _ s (tp_id a)) as [s1| |] eqn:Q; cbn [bind] in H; try discriminate. destruct (ounwrap _) as [x| |]; cbn [bind] in H; try discriminate. injection H as _ <-. exact (mat_loop_same _ _ _ _ Q). Qed.
Lemma commit_bag_same : forall dbg s m b s', commit_bag dbg s m = Ok (b, s') -> same_claims s s'.
Proof.
  intros dbg s m b s' H. unfold commit_bag, tp_commit, track_and_commit_mat_poly in H. destruct (kzg_commit (pt_pp s) (fst m)) as [c| |]; cbn [bind] in H; try discriminate.
  destruct (track_mat_poly s (fst m)) as [id s1] eqn:Q1. cbn [bind] in H. match type of H with context [kzg_commit ?a (snd m)] => destruct (kzg_commit a (snd m)) as [c'| |] end; cbn [bind] in H; try discriminate.
  match type of H with context [track_mat_poly ?a (snd m)] => destruct (track_mat_poly a (snd m)) as [id' s2] eqn:Q2 end. cbn [bind] in H. destruct (bag_new _ _ _) as [x| |]; cbn [bind] in H; try discriminate. injection H as _ <-.
  unfold track_mat_poly, new_arc, track_mat_arc_poly in Q1, Q2. cbn in Q1, Q2. injection Q1 as _ <-. injection Q2 as _ <-. split; reflexivity.
Qed.
Lemma split_same : forall dbg s a b q s', bag_lmr_split dbg s a b = Ok (q, s') -> same_claims s s'.
Proof.
  intros dbg s a b q s' H. unfold bag_lmr_split in H. destruct (tp_evaluations s (b_poly a)) as [[u1 s1]| |] eqn:Q1; cbn [bind] in H; try discriminate. destruct (tp_evaluations s1 (b_sel a)) as [[u2 s2]| |] eqn:Q2; cbn [bind] in H; try discriminate.
  destruct (tp_evaluations s2 (b_poly b)) as [[u3 s3]| |] eqn:Q3; cbn [bind] in H; try discriminate. destruct (tp_evaluations s3 (b_sel b)) as [[u4 s4]| |] eqn:Q4; cbn [bind] in H; try discriminate.
  destruct (lmr_split _ _ _ _ _ _) as [[[[l ma] mb] r]| |]; cbn [bind] in H; try discriminate.
  destruct (commit_bag dbg s4 l) as [[x1 t1]| |] eqn:C1; cbn [bind] in H; try discriminate. destruct (commit_bag dbg t1 ma) as [[x2 t2]| |] eqn:C2; cbn [bind] in H; try discriminate.
  destruct (commit_bag dbg t2 mb) as [[x3 t3]| |] eqn:C3; cbn [bind] in H; try discriminate. destruct (commit_bag dbg t3 r) as [[x4 t4]| |] eqn:C4; cbn [bind] in H; try discriminate. injection H as _ <-.
  apply evals_same in Q1, Q2, Q3, Q4. apply commit_bag_same in C1, C2, C3, C4. repeat (eapply same_trans; [eassumption|]). apply same_refl.
Qed.
End K.

Section S.
Context {p : positive} {E : pairing p}.
Hypothesis HE : pairing_laws E.
Hypothesis Hp : prime (Zpos p).
Notation comm := (gcar (PG1 E)).
Variables (o : oracle p comm) (addr : nat -> nat) (k : nat) (ck : pparam E) (vk : vparam E) (ops : list (pop p)) (vops : list (vop E)) (s : ptrk E) (hs : list tpoly) (d D : nat).
Hypothesis HS : setting o addr k ck vk ops vops s hs d D.
Hypothesis HD : 1 <= D.
Hypothesis Hd : d <= D.
Let Hpp := Hpp0 HE o addr k ck vk ops vops s hs d D HS.
Let G0 := set_good o addr k ck vk ops vops s hs d D HS HD Hd.
Lemma stands_known : forall b l sl, bag_stands ops hs b l sl -> bag_known (at_start ops hs d) b l sl d.
Proof. intros b l sl [A [B C]]. split; [split; [exact A|lia]|]. split; [split; [exact B|lia]|exact C]. Qed.
Let start0 := start_has o addr k ck vk ops vops s hs d D HS HD Hd.
Lemma stands_has : forall b l sl, bag_stands ops hs b l sl -> hasb (start ops s hs) b l sl d.
Proof. intros b l sl H. destruct (stands_known _ _ _ H) as [A [B C]]. split; [exact (proj1 (start0 _ _ _ A))|]. split; [exact (proj1 (start0 _ _ _ B))|exact C]. Qed.

Lemma bag_reads_at : forall w b n c sl, good o ck k D w -> new_bag w b n c sl -> bag_reads (ws w) b n c sl.
Proof.
  intros w b n c sl G [[A _] [[B _] [N1 N2]]]. destruct (call_evals o ck k D w _ _ _ G A) as [w1 [E1 _]]. destruct (call_evals o ck k D w _ _ _ G B) as [w2 [E2 _]]. split; [exact N1|]. split; [exact N2|]. split; eexists; eassumption.
Qed.
Lemma bags_check : forall dbg a b al asl bl bsl, bag_stands ops hs a al asl -> bag_stands ops hs b bl bsl -> b_nv a <= k -> b_nv b <= k -> sorted_first al asl -> sorted_first bl bsl ->
  exists s' L MA MB R l ls ma mas mb mbs r rs, bag_lmr_split dbg s a b = Ok ((L, MA, MB, R), s') /\
    bag_reads s' L (b_nv a) l ls /\ bag_reads s' MA (b_nv a) ma mas /\ bag_reads s' MB (b_nv b) mb mbs /\ bag_reads s' R (b_nv b) r rs /\ split_parts al asl bl bsl l ls ma mas mb mbs r rs /\
    SpecIop.drawn (pt_tr s) (pt_tr s') = [] /\ pt_zc s' = pt_zc s /\ pt_sc s' = pt_sc s /\
    accepted o addr vk vops s' (fun debug v => ' (_, v) <- take_over debug v (split_shape a b) ;; Ok v).
Proof.
  intros dbg a b al asl bl bsl Ha Hb Ka Kb Sa Sb. destruct (split_at Hp o ck k Hpp D dbg HD _ a b al asl bl bsl d G0 (stands_has _ _ _ Ha) (stands_has _ _ _ Hb) Ka Kb Sa Sb) as [w1 [L [MA [MB [R [l [ls [ma [mas [mb [mbs [r [rs [HP [[E1 [S1 T1]] [N1 [N2 [N3 N4]]]]]]]]]]]]]]]]]].
  pose proof (step_good _ _ _ _ _ _ _ _ S1) as G1. exists (ws w1), L, MA, MB, R, l, ls, ma, mas, mb, mbs, r, rs. cbn [start ws] in E1. split; [exact E1|]. do 4 (split; [apply bag_reads_at; assumption|]). split; [exact HP|].
  destruct (split_same _ _ _ _ _ _ E1) as [C1 C2].
  assert (Rn : ran o ck k D (start ops s hs) (Ok (ws w1)) [] True (fun debug v => ' (_, v) <- take_over debug v (split_shape a b) ;; Ok v) true).
  { exists w1. split; [reflexivity|]. split; [exact S1|]. intros cp vk' N v debug Lk Cv. destruct (T1 cp vk' N v debug Lk Cv) as [v' [X Y]]. exists v'. split; [rewrite X; reflexivity|exact Y]. }
  destruct (ran_judge HE Hp o addr k ck vk ops vops s hs d D HS HD Hd _ _ _ _ _ Rn) as [s' [B1 [B2 [B3 _]]]]. injection B1 as <-. split; [exact B2|]. split; [exact C2|]. split; [exact C1|]. auto.
Qed.

Lemma intersect_check : forall dbg a b rx al asl bl bsl rl rsl, bag_stands ops hs a al asl -> bag_stands ops hs b bl bsl -> bag_stands ops hs rx rl rsl -> boolean asl -> boolean bsl ->
  sorted_first al asl -> sorted_first bl bsl -> NoDup (rows al asl) -> NoDup (rows bl bsl) -> 1 <= d -> 2 * d + 3 <= D -> let n := Nat.max (b_nv a) (b_nv b) + 1 in n <= k -> 2 ^ n < fsize p ->
  exists s' l ls m ms r rs h1 h2 h g g1 g2 c cs wl, prove_plan o dbg s (split_and_intersect a b rx) = Ok s' /\ SpecIop.drawn (pt_tr s) (pt_tr s') = [h1; h2; h; g; g1; g2] /\
    NoDup (rows m ms) /\ (forall x, In x (rows m ms) <-> In x (rows al asl) /\ In x (rows bl bsl)) /\ Permutation (rows al asl) (rows l ls ++ rows m ms) /\ Permutation (rows bl bsl) (rows m ms ++ rows r rs) /\
    length c = 2 ^ n /\ non_decreasing c /\ Permutation (rows c cs) (rows l ls ++ rows r rs) /\ length wl = length rl /\ counts_of (steps c) rl (combine rl wl) /\
    let verify := verify_plan o (split_and_intersect a b rx) in let avoid := ~ In h1 (l ++ m ++ al) /\ ~ In h2 (m ++ r ++ bl) /\ ~ In h (l ++ r ++ c) /\ sort_avoids n c rl g g1 g2 in
    (avoid -> incl (steps c) rl -> accepted o addr vk vops s' verify) /\
    (~ incl (steps c) rl -> ~ unlucky (combine l ls ++ combine m ms) (combine al asl) h1 -> ~ unlucky (combine m ms ++ combine r rs) (combine bl bsl) h2 -> ~ unlucky (unit_bag (steps c)) (combine rl wl) g2 -> turned_down o addr k vk vops s' verify) /\
    (~ avoid -> refused addr k s').
Proof.
  intros dbg a b rx al asl bl bsl rl rsl Ha Hb Hr Ba Bb Sa Sb Na Nb Hd1 HD3 n Hn Hf.
  set (K0 := at_start ops hs d). set (w0 := start ops s hs). pose proof (stands_known _ _ _ Ha) as Ya. pose proof (stands_known _ _ _ Hb) as Yb. pose proof (stands_known _ _ _ Hr) as Yr. fold K0 in Ya, Yb, Yr.
  pose proof (st_two _ _ _ _ _ _ _ _ _ _ _ HS) as H2. assert (Ka : b_nv a <= k) by (subst n; lia). assert (Kb : b_nv b <= k) by (subst n; lia).
  destruct (do_set_split Hp H2 o ck k Hpp D dbg HD w0 K0 G0 start0 a b al asl bl bsl d Ya Yb Ka Kb Sa Sb Na Nb) as [w1 [h1s [rs1 [out1 [P1 [b1 [[l [ls [m [ms [r [rs [Nv [Ers [Bl [Bm [Br [Pa [Pb [ND Eo]]]]]]]]]]]]]] [D1 [F1' [A1 [A2 A3]]]]]]]]]]].
  subst out1 rs1. cbn [drew avoided holds fair] in D1, A1, A2, A3. pose proof (proj1 (proj2 D1)) as S1. pose proof (step_good _ _ _ _ _ _ _ _ S1) as G1.
  destruct h1s as [|q0 [|q1 [|q2 [|q3 [|q4 [|q5 [|]]]]]]]; cbn in Nv; try discriminate Nv. injection Nv as V0 V1 V2 V3 V4 V5. set (hs1 := [q0; q1; q2; q3; q4; q5]) in *. set (rs1 := map (fun c => (c, 1)) [l; ls; m; ms; r; rs]) in *.
  set (K1 := learn K0 hs1 rs1). pose proof (learn_has o ck k D w0 w1 K0 hs1 rs1 _ _ G0 start0 S1 F1') as HF1. fold K1 in HF1.
  assert (Up : forall h x e, K0 h x e -> K1 h x e) by (intros; left; assumption).
  assert (Ub : forall q x y, bag_known K0 q x y d -> bag_known K1 q x y d) by (intros q x y [X [Y Z]]; split; [apply Up; exact X|]; split; [apply Up; exact Y|exact Z]).
  assert (Z0 : bag_known K1 (bag_of hs1 0) l ls d) by (split; [right; exists 1; split; [left; reflexivity|exact Hd1]|]; split; [right; exists 1; split; [right; left; reflexivity|exact Hd1]|cbn; congruence]).
  assert (Z2 : bag_known K1 (bag_of hs1 2) m ms d) by (split; [right; exists 1; split; [do 2 right; left; reflexivity|exact Hd1]|]; split; [right; exists 1; split; [do 3 right; left; reflexivity|exact Hd1]|cbn; congruence]).
  assert (Z4 : bag_known K1 (bag_of hs1 4) r rs d) by (split; [right; exists 1; split; [do 4 right; left; reflexivity|exact Hd1]|]; split; [right; exists 1; split; [do 5 right; left; reflexivity|exact Hd1]|cbn; congruence]).
  destruct (len o ck k D w1 K1 G1 HF1 _ _ _ _ Z0) as [L0 _]. destruct (len o ck k D w1 K1 G1 HF1 _ _ _ _ Z2) as [L2 _]. destruct (len o ck k D w1 K1 G1 HF1 _ _ _ _ Z4) as [L4 _]. destruct (len o ck k D w0 K0 G0 start0 _ _ _ _ Ya) as [La _]. destruct (len o ck k D w0 K0 G0 start0 _ _ _ _ Yb) as [Lb _].
  assert (W0 : b_nv (bag_of hs1 0) = b_nv a) by exact V0. assert (W2 : b_nv (bag_of hs1 2) = Nat.min (b_nv a) (b_nv b)) by exact V2. assert (W4 : b_nv (bag_of hs1 4) = b_nv b) by exact V4.
  rewrite W0 in L0. rewrite W2 in L2. rewrite W4 in L4. assert (Pw : 2 ^ n = 2 * 2 ^ Nat.max (b_nv a) (b_nv b)) by (subst n; rewrite Nat.add_1_r; reflexivity).
  pose proof (Nat.pow_le_mono_r 2 (b_nv a) (Nat.max (b_nv a) (b_nv b)) ltac:(lia) ltac:(lia)). pose proof (Nat.pow_le_mono_r 2 (b_nv b) (Nat.max (b_nv a) (b_nv b)) ltac:(lia) ltac:(lia)). pose proof (Nat.pow_le_mono_r 2 (Nat.min (b_nv a) (b_nv b)) (Nat.max (b_nv a) (b_nv b)) ltac:(lia) ltac:(lia)).
  assert (Wn : Nat.max (b_nv (bag_of hs1 0)) (b_nv (bag_of hs1 4)) + 1 = n) by (rewrite W0, W4; reflexivity).
  pose proof (do_intersect Hp H2 o ck k Hpp D dbg HD w1 K1 G1 HF1 a b (bag_of hs1 0) (bag_of hs1 2) (bag_of hs1 4) rx al asl bl bsl l ls m ms r rs rl rsl d (Ub _ _ _ Ya) (Ub _ _ _ Yb) Z0 Z2 Z4 (Ub _ _ _ Yr) Hd1 HD3) as Q. cbv zeta in Q. rewrite Wn in Q.
  destruct (Q Hn Ba Bb Bl Bm Br Hf ltac:(lia) ltac:(lia) ltac:(lia) ltac:(lia)) as [w2 [h2s [rs2 [out2 [P2 [b2 [[Eh [Er [h1 [h2 [h [g [g1 [g2 [c [cs [wl [C1 [C2 [C3 [C4 [C5 Eo]]]]]]]]]]]]]]]] [D2 [_ [I1 [I2 I3]]]]]]]]]]]. clear Q. subst h2s rs2 out2. cbn [drew avoided holds fair] in D2, I1, I2, I3.
  assert (Rn : ran o ck k D w2 (Ok (ws w2)) [] True (fun _ v => Ok v) true).
  { exists w2. split; [reflexivity|]. split; [apply step_refl; exact (step_good _ _ _ _ _ _ _ _ (proj1 (proj2 D2)))|]. intros cp vk' N v debug L _. exists v. split; [reflexivity|]. split; [exact L|apply vext_refl]. }
  pose proof (does_then o ck k D w1 w2 _ _ _ _ _ _ (fun x => let (_, s) := x in Ok s) _ _ (fun _ _ v => Ok v) _ D2 Rn) as R1.
  pose proof (does_then o ck k D w0 w1 _ _ _ _ _ _ (fun x => let (hs, s) := x in prove_plan o dbg s (Then (TIntersect a b (bag_of hs 0) (bag_of hs 2) (bag_of hs 4) rx) (fun _ => Finish))) _ _ (fun hs => verify_plan o (Then (TIntersect a b (bag_of hs 0) (bag_of hs 2) (bag_of hs 4) rx) (fun _ => Finish))) _ D1 R1) as R0.
  destruct (ran_judge HE Hp o addr k ck vk ops vops s hs d D HS HD Hd _ _ _ _ _ R0) as [s' [B1 [B2 [B3 [_ [B5 B6]]]]]]. destruct A1 as [A1 ->]; auto.
  exists s', l, ls, m, ms, r, rs, h1, h2, h, g, g1, g2, c, cs, wl. split; [exact B1|]. split; [exact B2|]. pose proof (Permutation_NoDup Pa Na) as Na'. split; [exact (nodup_r _ _ _ Na')|]. split.
  { intros x. split; [intros Hx; split; [apply (Permutation_in _ (Permutation_sym Pa))|apply (Permutation_in _ (Permutation_sym Pb))]; apply in_or_app; auto|]. intros [Xa Xb]. apply (Permutation_in _ Pa) in Xa. apply (Permutation_in _ Pb) in Xb. apply in_app_or in Xa, Xb. destruct Xa as [Xa|Xa]; [|exact Xa]. destruct Xb as [Xb|Xb]; [exact Xb|]. exfalso. exact (nodup_apart _ _ _ ND x Xa Xb). }
  split; [exact Pa|]. split; [exact Pb|]. repeat (split; [assumption|]). cbv zeta. split; [|split].
  - intros Hav Hin. destruct I1 as [I1 ->]; [exact Hav| |apply B3; auto]. split; [exact ND|]. split; [|exact Hin]. split; [symmetry; exact Pa|symmetry; exact Pb].
  - intros Hin U1 U2 U3. apply B6. intros [[_ [Q1 _]] Q2]. rewrite andb_true_r in Q2. cbn [andb] in Q2. apply Hin. apply (I3 Q1 Q2). auto.
  - intros Hav. apply B5. intros [_ [Q1 _]]. auto.
Qed.
End S.
