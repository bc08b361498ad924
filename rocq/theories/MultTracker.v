(** The split with multiplicities on the prover's tracker. *)
From Coq Require Import String List Arith Lia Bool ZArith Znumtheory Permutation Sorted.
Import ListNotations.
From Verif Require Import Res ResLemmas Fp FSum SpecMle SpecKzg SpecPoly PolyLemmas SpecSumcheck SpecBatch SpecTracker SpecIop SpecRel SpecJoin ModelMle MleLemmas MleProofs MleExtra ModelVp ModelTranscript ModelSumcheck
  Pairing ModelKzg ModelBatch ModelProver ModelVerifier ModelAdvice ModelIop ProverHist VerifierHist CompileHist SessHist IopHist IopRes TmapLemmas ProverProofs HistExtra LockProofs
  CompileMain CompileSound LogDeriv BagLemmas AdviceProofs AdviceProofs2 AdviceProofs4 AdviceProofs5 AdviceProofs6 MultProofs IopWorld IopMain IopBasic IopMulti IopRuns IopSort IopVer IopComp IopComp2 IopComp3 IopFull PlanHist IopSplit IopCheck SplitProofs.
Local Open Scope string_scope.
Local Open Scope list_scope.
Local Open Scope nat_scope.

Section S.
Context {p : positive} {E : pairing p}.
Hypothesis HE : pairing_laws E.
Hypothesis Hp : prime (Zpos p).
Notation comm := (gcar (PG1 E)).
Variables (o : oracle p comm) (addr : nat -> nat) (k : nat) (ck : pparam E) (vk : vparam E) (ops : list (pop p)) (vops : list (vop E)) (s : ptrk E) (hs : list tpoly) (d D : nat).
Hypothesis HS : setting o addr k ck vk ops vops s hs d D.
Hypothesis HD : 1 <= D.
Hypothesis Hd : d <= D.
Let Hpp := Hpp0 HE o addr k ck vk ops vops s hs d D HS.
Let G0 := set_good o addr k ck vk ops vops s hs d D HS HD Hd.
Let has := bag_hasb o addr k ck vk ops vops s hs d D HS HD Hd.
Let len := bag_len o addr k ck vk ops vops s hs d D HS HD Hd.

Lemma mult_call : forall dbg a b al asl bl bsl, bag_stands ops hs a al asl -> bag_stands ops hs b bl bsl -> Nat.max (b_nv a) (b_nv b) <= k ->
  match lmr_multiplicity_split (b_nv a) (b_nv b) al asl bl bsl with
  | Ok ((lv, ls), (mv, ml), (rv, rs), (lm, am, bm, rm)) => exists s' L M R hl ha hb hr, bag_lmr_multiplicity_split dbg s a b = Ok ((L, M, R, (hl, ha, hb, hr)), s') /\
      PlanHist.bag_reads s' L (b_nv a) (evs lv) (evs ls) /\ PlanHist.bag_reads s' M (Nat.max (b_nv a) (b_nv b)) (evs mv) (evs ml) /\ PlanHist.bag_reads s' R (b_nv b) (evs rv) (evs rs) /\
      PlanHist.bag_reads s' (mkBag ha hb) (Nat.max (b_nv a) (b_nv b)) (evs am) (evs bm)
  | Err e => bag_lmr_multiplicity_split dbg s a b = Err e
  | Panic => bag_lmr_multiplicity_split dbg s a b = Panic
  end.
Proof.
  intros dbg a b al asl bl bsl Ha Hb Kn. destruct (has _ _ _ Ha) as [Ha1 [Ha2 _]], (has _ _ _ Hb) as [Hb1 [Hb2 _]].
  destruct (evals4_at o ck k D (start ops s hs) _ _ _ _ _ _ _ _ d G0 Ha1 Ha2 Hb1 Hb2) as [x1 [x2 [x3 [w0 [E1 [E2 [E3 [E4 [S0 T0]]]]]]]]]. pose proof (step_good _ _ _ _ _ _ _ _ S0) as G1. cbn [start ws] in E1.
  assert (X : bag_lmr_multiplicity_split dbg s a b = (' (l, m, r, ms) <- lmr_multiplicity_split (b_nv a) (b_nv b) al asl bl bsl ;; let '(lm, am, bm, rm) := ms in
    ' (l, s) <- commit_bag dbg (ws w0) l ;; ' (m, s) <- commit_bag dbg s m ;; ' (r, s) <- commit_bag dbg s r ;; ' (lm, s) <- tp_commit s lm ;; ' (am, s) <- tp_commit s am ;; ' (bm, s) <- tp_commit s bm ;; ' (rm, s) <- tp_commit s rm ;; Ok ((l, m, r, (lm, am, bm, rm)), s))).
  { unfold bag_lmr_multiplicity_split. rewrite E1. cbn [bind]. rewrite E2. cbn [bind]. rewrite E3. cbn [bind]. rewrite E4. reflexivity. }
  rewrite X. clear X. destruct (lmr_multiplicity_split (b_nv a) (b_nv b) al asl bl bsl) as [[[[l m] r] ms]| |] eqn:Q; [|reflexivity|reflexivity].
  destruct (lmrm_shape _ _ _ _ _ _ _ _ _ _ Q) as [lv [ls [mv [ml [rv [rs [lm [am [bm [rm [-> [-> [-> [-> [F1' [F2 F3]]]]]]]]]]]]]]]]. clear Q. rewrite Forall_forall in F1', F2, F3. set (n := Nat.max (b_nv a) (b_nv b)) in *. cbn [bind].
  assert (Ka : b_nv a <= k) by lia. assert (Kb : b_nv b <= k) by lia.
  destruct (commit_bag_at o ck k Hpp D dbg HD w0 (b_nv a) lv ls G1) as [w1 [L [R1 N1]]]; [apply F1'; cbn; auto|apply F1'; cbn; auto|exact Ka|]. pose proof (proj1 (proj2 R1)) as S1. pose proof (step_good _ _ _ _ _ _ _ _ S1) as Gd1. rewrite (proj1 R1). cbn [bind].
  destruct (commit_bag_at o ck k Hpp D dbg HD w1 n mv ml Gd1) as [w2 [M [R2 N2]]]; [apply F2; cbn; auto|apply F2; cbn; auto|exact Kn|]. pose proof (proj1 (proj2 R2)) as S2. pose proof (step_good _ _ _ _ _ _ _ _ S2) as Gd2. fold n in R2, N2. rewrite (proj1 R2). cbn [bind].
  destruct (commit_bag_at o ck k Hpp D dbg HD w2 (b_nv b) rv rs Gd2) as [w3 [R [R3 N3]]]; [apply F3; cbn; auto|apply F3; cbn; auto|exact Kb|]. pose proof (proj1 (proj2 R3)) as S3. pose proof (step_good _ _ _ _ _ _ _ _ S3) as Gd3. rewrite (proj1 R3). cbn [bind].
  destruct (commit_run o ck k Hpp D w3 (b_nv a) lm 1 Gd3 ltac:(apply F1'; cbn; auto) Ka HD ltac:(lia)) as [w4 [hl [C4 [H4 V4]]]]. pose proof (proj1 (proj2 C4)) as S4. pose proof (step_good _ _ _ _ _ _ _ _ S4) as Gd4. rewrite (proj1 C4). cbn [bind].
  destruct (commit_run o ck k Hpp D w4 n am 1 Gd4 ltac:(apply F2; cbn; auto) Kn HD ltac:(lia)) as [w5 [ha [C5 [H5 V5]]]]. pose proof (proj1 (proj2 C5)) as S5. pose proof (step_good _ _ _ _ _ _ _ _ S5) as Gd5. rewrite (proj1 C5). cbn [bind].
  destruct (commit_run o ck k Hpp D w5 n bm 1 Gd5 ltac:(apply F2; cbn; auto) Kn HD ltac:(lia)) as [w6 [hb [C6 [H6 V6]]]]. pose proof (proj1 (proj2 C6)) as S6. pose proof (step_good _ _ _ _ _ _ _ _ S6) as Gd6. rewrite (proj1 C6). cbn [bind].
  destruct (commit_run o ck k Hpp D w6 (b_nv b) rm 1 Gd6 ltac:(apply F3; cbn; auto) Kb HD ltac:(lia)) as [w7 [hr [C7 [H7 V7]]]]. pose proof (proj1 (proj2 C7)) as S7. pose proof (step_good _ _ _ _ _ _ _ _ S7) as Gd7. rewrite (proj1 C7). cbn [bind].
  exists (ws w7), L, M, R, hl, ha, hb, hr. split; [reflexivity|]. cbn [evs].
  assert (U : forall q x y z, new_bag w3 q x y z -> new_bag w7 q x y z).
  { intros q x y z Hq. eapply new_bag_le; [exact Gd6|exact S7|]. eapply new_bag_le; [exact Gd5|exact S6|]. eapply new_bag_le; [exact Gd4|exact S5|]. eapply new_bag_le; [exact Gd3|exact S4|exact Hq]. }
  split; [|split; [|split]].
  - eapply bag_reads_at; [exact Gd7|]. apply U. eapply new_bag_le; [exact Gd2|exact S3|]. eapply new_bag_le; [exact Gd1|exact S2|exact N1].
  - eapply bag_reads_at; [exact Gd7|]. apply U. eapply new_bag_le; [exact Gd2|exact S3|exact N2].
  - eapply bag_reads_at; [exact Gd7|]. apply U. exact N3.
  - pose proof (step_le _ _ _ _ _ _ _ _ S6) as L6. pose proof (step_le _ _ _ _ _ _ _ _ S7) as L7. pose proof (hasd_le o ck k D _ _ _ _ _ Gd6 L7 (hasd_le o ck k D _ _ _ _ _ Gd5 L6 H5)) as I5. pose proof (hasd_le o ck k D _ _ _ _ _ Gd6 L7 H6) as I6.
    destruct (call_evals o ck k D w7 _ _ _ Gd7 I5) as [y1 [Z1 _]]. destruct (call_evals o ck k D w7 _ _ _ Gd7 I6) as [y2 [Z2 _]]. split; [exact V5|]. split; [exact V6|]. split; eexists; eassumption.
Qed.

Lemma mult_middle : forall dbg a b al asl bl bsl, bag_stands ops hs a al asl -> bag_stands ops hs b bl bsl -> Nat.max (b_nv a) (b_nv b) <= k -> sorted_first al asl -> sorted_first bl bsl ->
  forall s' L M R hl ha hb hr, bag_lmr_multiplicity_split dbg s a b = Ok ((L, M, R, (hl, ha, hb, hr)), s') ->
  let n := Nat.max (b_nv a) (b_nv b) in exists vals, ascending vals /\ (forall x, In x vals <-> In x (rows al asl) /\ In x (rows bl bsl)) /\ length vals <= 2 ^ n /\ let pad := repeat F0 (2 ^ n - length vals) in
    PlanHist.bag_reads s' M n (vals ++ pad) (repeat F1 (length vals) ++ pad) /\
    PlanHist.bag_reads s' (mkBag ha hb) n (map (fun x => ofN (count_occ F_dec (rows al asl) x)) vals ++ pad) (map (fun x => ofN (count_occ F_dec (rows bl bsl) x)) vals ++ pad).
Proof.
  intros dbg a b al asl bl bsl Ha Hb Kn Sa Sb s' L M R hl ha hb hr H n. pose proof (mult_call dbg a b al asl bl bsl Ha Hb Kn) as X. destruct (len _ _ _ Ha) as [L1 L2], (len _ _ _ Hb) as [L3 L4].
  destruct (lmr_multiplicity_split (b_nv a) (b_nv b) al asl bl bsl) as [[[[[lv ls] [mv ml]] [rv rs]] [[[lm am] bm] rm]]| |] eqn:Q; [|congruence|congruence].
  destruct X as [s1 [L0 [M0 [R0 [h1 [h2 [h3 [h4 [X [X1 [X2 [X3 X4]]]]]]]]]]]]. rewrite H in X. injection X as <- <- <- <- <- <- <- <-.
  destruct (lmrm_common _ _ _ _ _ _ _ _ _ _ _ _ _ _ L1 L2 L3 L4 Sa Sb Q) as [vals [V1 [V2 [V3 [-> [-> [-> ->]]]]]]]. cbn [evs] in X2, X4. exists vals. auto.
Qed.
Lemma mult_left : forall dbg a b al asl bl bsl, bag_stands ops hs a al asl -> bag_stands ops hs b bl bsl -> Nat.max (b_nv a) (b_nv b) <= k -> rows al asl <> [] -> rows bl bsl <> [] -> (val (nth 0 al F0) < val (nth 0 bl F0))%Z ->
  forall s' L M R ms, bag_lmr_multiplicity_split dbg s a b = Ok ((L, M, R, ms), s') -> exists lc lsc, PlanHist.bag_reads s' L (b_nv a) lc lsc /\ nth 0 lc F0 <> nth 0 al F0.
Proof.
  intros dbg a b al asl bl bsl Ha Hb Kn Na Nb Hlt s' L M R ms H. pose proof (mult_call dbg a b al asl bl bsl Ha Hb Kn) as X. destruct (len _ _ _ Ha) as [L1 L2], (len _ _ _ Hb) as [L3 L4].
  destruct (lmr_multiplicity_split (b_nv a) (b_nv b) al asl bl bsl) as [[[[[lv ls] [mv ml]] [rv rs]] [[[lm am] bm] rm]]| |] eqn:Q; [|congruence|congruence].
  destruct X as [s1 [L0 [M0 [R0 [h1 [h2 [h3 [h4 [X [X1 _]]]]]]]]]]. rewrite H in X. injection X as <- _ _ _ <-. exists (evs lv), (evs ls). split; [exact X1|].
  assert (Y : forall l : list (F p), l <> [] -> nth_error l 0 = Some (nth 0 l F0)) by (intros [|z l] Hl; [contradiction|reflexivity]).
  assert (Za : al <> []) by (intros ->; apply Na; reflexivity). assert (Zb : bl <> []) by (intros ->; apply Nb; reflexivity).
  refine (proj1 (lmrm_left _ _ _ _ _ _ _ _ _ _ _ _ _ _ _ (Y _ Za) (Y _ Zb) Hlt Q)); rewrite !firstn_all2 by lia; assumption.
Qed.
End S.
