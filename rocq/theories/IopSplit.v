(** The split of two bags on the prover's tracker. *)
From Coq Require Import String List Arith Lia Bool ZArith Znumtheory Permutation Sorted.
Import ListNotations.
From Verif Require Import Res ResLemmas Fp FSum SpecMle SpecKzg SpecPoly PolyLemmas SpecSumcheck SpecBatch SpecTracker SpecIop SpecRel SpecJoin ModelMle MleLemmas MleProofs MleExtra ModelVp ModelTranscript ModelSumcheck
  Pairing ModelKzg ModelBatch ModelProver ModelVerifier ModelAdvice ModelIop ProverHist VerifierHist CompileHist SessHist IopHist IopRes TmapLemmas ProverProofs HistExtra LockProofs
  CompileMain CompileSound LogDeriv BagLemmas AdviceProofs AdviceProofs2 AdviceProofs4 AdviceProofs5 IopWorld IopMain IopBasic IopMulti IopRuns IopSort IopVer IopComp IopComp2 IopComp3 IopFull PlanHist.
Local Open Scope string_scope.
Local Open Scope list_scope.
Local Open Scope nat_scope.

Section T.
Context {p : positive} {E : pairing p}.
Hypothesis Hp : prime (Zpos p).
Notation comm := (gcar (PG1 E)).
Implicit Types (w : wd (E:=E)) (v : vtrk E).
Variables (o : oracle p comm) (ck : pparam E) (k : nat).
Hypothesis Hpp : forall n l, n <= k -> length l = 2 ^ n -> exists c, kzg_commit ck (mkMle n l) = Ok c.
Variables (D : nat) (dbg : bool).
Hypothesis HD : 1 <= D.
Notation good := (good o ck k D).
Notation step := (step o ck k D).
Notation gives := (gives o ck k D).

Lemma gives_seq : forall A B A' B' A'' B'' w w1 w2 (r : res (A * ptrk E)) x ds P (ver : bool -> vtrk E -> res (B * vtrk E)) y (r2 : res (A' * ptrk E)) x' ds' P' (ver2 : bool -> vtrk E -> res (B' * vtrk E)) y' (r3 : res (A'' * ptrk E)) x'' (ver3 : bool -> vtrk E -> res (B'' * vtrk E)) y'',
  gives w w1 r x ds P ver y -> gives w1 w2 r2 x' ds' P' ver2 y' -> (r = Ok (x, ws w1) -> r2 = Ok (x', ws w2) -> r3 = Ok (x'', ws w2)) ->
  (forall debug v v1 v2, ver debug v = Ok (y, v1) -> ver2 debug v1 = Ok (y', v2) -> ver3 debug v = Ok (y'', v2)) -> gives w w2 r3 x'' (ds ++ ds') (P /\ P') ver3 y''.
Proof.
  intros A B A' B' A'' B'' w w1 w2 r x ds P ver y r2 x' ds' P' ver2 y' r3 x'' ver3 y'' [E1 [S1 T1]] [E2 [S2 T2]] HR HV. split; [auto|]. split; [eapply step_trans; eassumption|].
  intros cp vk N v debug L Cv. pose proof (cov_le _ _ _ _ _ _ _ _ (step_good _ _ _ _ _ _ _ _ S1) (step_le _ _ _ _ _ _ _ _ S2) Cv) as Cv1.
  destruct (T1 cp vk N v debug L Cv1) as [v1 [X1 [L1 V1]]]. destruct (T2 cp vk N v1 debug L1 Cv) as [v2 [X2 [L2 V2]]]. exists v2. split; [eapply HV; eassumption|]. split; [exact L2|eapply vext_trans; eassumption].
Qed.
Lemma take_app : forall debug ns ms v hs v1 hs' v2, take_over debug v ns = Ok (hs, v1) -> take_over debug v1 ms = Ok (hs', v2) -> take_over debug v (ns ++ ms) = Ok (hs ++ hs', v2).
Proof.
  intros debug ns. induction ns as [|n ns IH]; intros ms v hs v1 hs' v2 H1 H2; cbn [take_over app] in *; [injection H1 as <- <-; exact H2|].
  destruct (v_transfer debug v) as [[id u]| |]; cbn [bind] in *; try discriminate. destruct (take_over debug u ns) as [[hs1 u1]| |] eqn:Q; cbn [bind] in *; try discriminate. injection H1 as <- <-. rewrite (IH ms u hs1 u1 hs' v2 Q H2). reflexivity.
Qed.

(** A bag that has been committed. *)
Definition new_bag w (b : bag) (n : nat) (c s : list (F p)) : Prop := hasf w (b_poly b) c 1 /\ hasf w (b_sel b) s 1 /\ tp_nv (b_poly b) = n /\ tp_nv (b_sel b) = n.
Lemma new_bag_le : forall w w' ds P b n c s, good w -> step w w' ds P -> new_bag w b n c s -> new_bag w' b n c s.
Proof. intros w w' ds P b n c s G S [A [B C]]. pose proof (step_le _ _ _ _ _ _ _ _ S) as L. split; [eapply hasf_le; eassumption|]. split; [eapply hasf_le; eassumption|exact C]. Qed.
Lemma commit_bag_at : forall w n c s, good w -> length c = 2 ^ n -> length s = 2 ^ n -> n <= k ->
  exists w1 b, gives w w1 (commit_bag dbg (ws w) (mkMle n c, mkMle n s)) b [] True (fun debug v => take_over debug v [n; n]) [b_poly b; b_sel b] /\ new_bag w1 b n c s.
Proof.
  intros w n c s G Hc Hs Hn. destruct (gives_commit_full o ck k Hpp D w n c 1 G Hc Hn HD ltac:(lia)) as [w1 [h1 [I1 [R1 [H1 N1]]]]]. pose proof (step_good _ _ _ _ _ _ _ _ (proj1 (proj2 R1))) as G1.
  destruct (gives_commit_full o ck k Hpp D w1 n s 1 G1 Hs Hn HD ltac:(lia)) as [w2 [h2 [I2 [R2 [H2 N2]]]]]. pose proof (step_le _ _ _ _ _ _ _ _ (proj1 (proj2 R2))) as L2.
  exists w2, (mkBag h1 h2). split; [|split; [eapply hasf_le; [exact G1|exact L2|exact (conj H1 I1)]|split; [exact (conj H2 I2)|auto]]].
  cbn [b_poly b_sel]. eapply gives_ext; [eapply (gives_seq _ _ _ _ _ _ _ _ _ _ _ _ _ _ _ _ _ _ _ _ _ (commit_bag dbg (ws w) (mkMle n c, mkMle n s)) (mkBag h1 h2) (fun debug v => take_over debug v [n; n]) [h1; h2] R1 R2)|reflexivity|tauto|reflexivity].
  - intros X Y. unfold commit_bag. cbn [fst snd]. rewrite X. cbn [bind]. rewrite Y. cbn [bind]. unfold bag_new. rewrite N1, N2, Nat.eqb_refl. destruct dbg; reflexivity.
  - intros debug v v1 v2 X Y. cbn [take_over]. rewrite X. cbn [bind]. rewrite Y. cbn [bind]. destruct h1, h2; cbn in *; subst; reflexivity.
Qed.
Lemma split_at : forall w a b al asl bl bsl d, good w -> hasb w a al asl d -> hasb w b bl bsl d -> b_nv a <= k -> b_nv b <= k -> sorted_first al asl -> sorted_first bl bsl ->
  exists w1 L MA MB R l ls ma mas mb mbs r rs, split_parts al asl bl bsl l ls ma mas mb mbs r rs /\
    gives w w1 (bag_lmr_split dbg (ws w) a b) (L, MA, MB, R) [] True (fun debug v => take_over debug v (split_shape a b)) (columns_of_bags [L; MA; MB; R]) /\
    new_bag w1 L (b_nv a) l ls /\ new_bag w1 MA (b_nv a) ma mas /\ new_bag w1 MB (b_nv b) mb mbs /\ new_bag w1 R (b_nv b) r rs.
Proof.
  intros w a b al asl bl bsl d G Ha Hb Ka Kb Sa Sb. destruct (hasb_len o ck k D _ _ _ _ _ G Ha) as [La [Lsa _]]. destruct (hasb_len o ck k D _ _ _ _ _ G Hb) as [Lb [Lsb _]].
  assert (H1 : @F1 p <> F0) by exact (F1_neq_0 Hp).
  destruct (lmr_split_ok (b_nv a) (b_nv b) al asl bl bsl H1 La Lsa Lb Lsb Sa Sb) as [l [ls [ma [mas [mb [mbs [r [rs [Q [Fa [Fb HS]]]]]]]]]]].
  inversion Fa as [|? ? A1 Fa1]; subst. inversion Fa1 as [|? ? A2 Fa2]; subst. inversion Fa2 as [|? ? A3 Fa3]; subst. inversion Fa3 as [|? ? A4 _]; subst. clear Fa Fa1 Fa2 Fa3.
  inversion Fb as [|? ? B1 Fb1]; subst. inversion Fb1 as [|? ? B2 Fb2]; subst. inversion Fb2 as [|? ? B3 Fb3]; subst. inversion Fb3 as [|? ? B4 _]; subst. clear Fb Fb1 Fb2 Fb3.
  destruct Ha as [Ha1 [Ha2 _]], Hb as [Hb1 [Hb2 _]].
  destruct (evals4_at o ck k D w _ _ _ _ _ _ _ _ d G Ha1 Ha2 Hb1 Hb2) as [x1 [x2 [x3 [w0 [E1 [E2 [E3 [E4 [S0 T0]]]]]]]]]. pose proof (step_good _ _ _ _ _ _ _ _ S0) as G0.
  destruct (commit_bag_at w0 _ l ls G0 A1 A2 Ka) as [w1 [L [R1 N1]]]. pose proof (proj1 (proj2 R1)) as S1. pose proof (step_good _ _ _ _ _ _ _ _ S1) as G1.
  destruct (commit_bag_at w1 _ ma mas G1 A3 A4 Ka) as [w2 [MA [R2 N2]]]. pose proof (proj1 (proj2 R2)) as S2. pose proof (step_good _ _ _ _ _ _ _ _ S2) as G2.
  destruct (commit_bag_at w2 _ mb mbs G2 B1 B2 Kb) as [w3 [MB [R3 N3]]]. pose proof (proj1 (proj2 R3)) as S3. pose proof (step_good _ _ _ _ _ _ _ _ S3) as G3.
  destruct (commit_bag_at w3 _ r rs G3 B3 B4 Kb) as [w4 [R [R4 N4]]]. pose proof (proj1 (proj2 R4)) as S4.
  exists w4, L, MA, MB, R, l, ls, ma, mas, mb, mbs, r, rs. split; [exact HS|]. split; [|split; [|split; [|split]]].
  2: { eapply new_bag_le; [exact G3|exact S4|]. eapply new_bag_le; [exact G2|exact S3|]. eapply new_bag_le; [exact G1|exact S2|exact N1]. }
  2: { eapply new_bag_le; [exact G3|exact S4|]. eapply new_bag_le; [exact G2|exact S3|exact N2]. }
  2: { eapply new_bag_le; [exact G3|exact S4|exact N3]. }
  2: exact N4.
  destruct R1 as [Q1 [_ T1]], R2 as [Q2 [_ T2]], R3 as [Q3 [_ T3]], R4 as [Q4 [_ T4]]. split; [|split].
  - unfold bag_lmr_split. rewrite E1. cbn [bind]. rewrite E2. cbn [bind]. rewrite E3. cbn [bind]. rewrite E4. cbn [bind]. rewrite Q. cbn [bind]. rewrite Q1. cbn [bind]. rewrite Q2. cbn [bind]. rewrite Q3. cbn [bind]. rewrite Q4. reflexivity.
  - eapply step_imp; [exact (step_trans _ _ _ _ _ _ _ _ _ _ _ S0 (step_trans _ _ _ _ _ _ _ _ _ _ _ S1 (step_trans _ _ _ _ _ _ _ _ _ _ _ S2 (step_trans _ _ _ _ _ _ _ _ _ _ _ S3 S4))))|tauto].
  - intros cp vk N v debug Lk C4. pose proof (cov_le _ _ _ _ _ _ _ _ G3 (step_le _ _ _ _ _ _ _ _ S4) C4) as C3. pose proof (cov_le _ _ _ _ _ _ _ _ G2 (step_le _ _ _ _ _ _ _ _ S3) C3) as C2. pose proof (cov_le _ _ _ _ _ _ _ _ G1 (step_le _ _ _ _ _ _ _ _ S2) C2) as C1.
    destruct (T1 cp vk N v debug (T0 _ _ _ Lk) C1) as [v1 [X1 [L1 V1]]]. destruct (T2 cp vk N v1 debug L1 C2) as [v2 [X2 [L2 V2]]]. destruct (T3 cp vk N v2 debug L2 C3) as [v3 [X3 [L3 V3]]]. destruct (T4 cp vk N v3 debug L3 C4) as [v4 [X4 [L4 V4]]].
    exists v4. split; [|split; [exact L4|eapply vext_trans; [eapply vext_trans; [eapply vext_trans; eassumption|exact V3]|exact V4]]].
    exact (take_app _ _ _ _ _ _ _ _ X1 (take_app _ _ _ _ _ _ _ _ X2 (take_app _ _ _ _ _ _ _ _ X3 X4))).
Qed.
Lemma nodup_l : forall A (l m : list A), NoDup (l ++ m) -> NoDup l.
Proof. intros A l m. induction l as [|x l IH]; intros H; [constructor|]. inversion H; subst. constructor; [intros X; match goal with N : ~ In x _ |- _ => apply N end; apply in_or_app; left; exact X|auto]. Qed.
Lemma nodup_r : forall A (l m : list A), NoDup (l ++ m) -> NoDup m. Proof. intros A l m. induction l as [|x l IH]; intros H; [exact H|]. inversion H; auto. Qed.
Lemma nodup_both : forall A (l m : list A), NoDup l -> NoDup m -> (forall x, In x l -> ~ In x m) -> NoDup (l ++ m).
Proof.
  intros A l m Hl Hm. induction Hl as [|x l N Hl IH]; intros H; [exact Hm|]. cbn [app]. constructor; [|apply IH; intros y Y; apply H; right; exact Y].
  intros X. apply in_app_or in X. destruct X as [X|X]; [contradiction|]. apply (H x); [left; reflexivity|exact X].
Qed.
Lemma nodup_apart : forall A (l m : list A), NoDup (l ++ m) -> forall x, In x l -> ~ In x m.
Proof. intros A l m H x X Y. apply in_split in X. destruct X as [u [v ->]]. rewrite <- app_assoc in H. cbn [app] in H. apply NoDup_remove_2 in H. apply H. apply in_or_app. right. apply in_or_app. right. exact Y. Qed.
(** For two sets the two middle parts have the same rows. *)
Lemma split_sets : forall al asl bl bsl l ls ma mas mb mbs r rs : list (F p), split_parts al asl bl bsl l ls ma mas mb mbs r rs -> NoDup (rows al asl) -> NoDup (rows bl bsl) ->
  Permutation (rows ma mas) (rows mb mbs) /\ NoDup (rows l ls ++ rows r rs).
Proof.
  intros al asl bl bsl l ls ma mas mb mbs r rs [_ [_ [_ [_ [Pa [Pb [Hl [Hr [Hma Hmb]]]]]]]]] Na Nb.
  pose proof (Permutation_NoDup Pa Na) as Na'. pose proof (Permutation_NoDup Pb Nb) as Nb'. split.
  - apply NoDup_Permutation; [exact (nodup_r _ _ _ Na')|exact (nodup_l _ _ _ Nb')|]. intros x. split; intros Hx.
    + pose proof (Permutation_in _ Pb (Hma x Hx)) as Y. apply in_app_or in Y. destruct Y as [Y|Y]; [exact Y|]. exfalso. apply (Hr x Y). apply (Permutation_in _ (Permutation_sym Pa)). apply in_or_app. auto.
    + pose proof (Permutation_in _ Pa (Hmb x Hx)) as Y. apply in_app_or in Y. destruct Y as [Y|Y]; [|exact Y]. exfalso. apply (Hl x Y). apply (Permutation_in _ (Permutation_sym Pb)). apply in_or_app. auto.
  - assert (Nl : NoDup (rows l ls)) by exact (nodup_l _ _ _ Na'). assert (Nr : NoDup (rows r rs)) by exact (nodup_r _ _ _ Nb').
    assert (Dj : forall x, In x (rows l ls) -> ~ In x (rows r rs)). { intros x X Y. apply (Hl x X). apply (Permutation_in _ (Permutation_sym Pb)). apply in_or_app. auto. }
    exact (nodup_both _ _ _ Nl Nr Dj).
Qed.
End T.
