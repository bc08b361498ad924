(** Both sides of a run for the index transform, the reduction of a join, the one-to-many join and grouping. *)
From Coq Require Import String List Arith Lia Bool ZArith Znumtheory Permutation.
Import ListNotations.
From Verif Require Import Res ResLemmas Fp FSum SpecMle SpecPoly PolyLemmas SpecKzg SpecTracker SpecIop SpecRel ModelMle MleLemmas MleProofs MleExtra ModelVp ModelTranscript ModelSumcheck Pairing ModelKzg ModelBatch
  ModelProver ModelVerifier ModelAdvice ModelIop ProverHist VerifierHist CompileHist IopHist TmapLemmas ProverProofs ProverExtra ProverStep HistExtra IopWorld IopBasic LogDeriv BagLemmas AdviceProofs AdviceProofs2 AdviceProofs3
  AdviceProofs4 AdviceProofs5 AdviceProofs6 IopMulti IopRuns IopSort IopComp CompSound CompSound2 CompSound3.
Local Open Scope string_scope.
Local Open Scope list_scope.
Local Open Scope nat_scope.

Section P.
Context {p : positive} {E : pairing p}.
Add Ring Fq : (@F_ring p).
Notation comm := (gcar (PG1 E)).
Hypothesis Hp : prime (Zpos p).
Hypothesis H2 : 2 < fsize p.
Variable o : oracle p comm.
Variable pp : pparam E.
Variable K : nat.
Hypothesis Hpp : forall n l, n <= K -> length l = 2 ^ n -> exists c, kzg_commit pp (mkMle n l) = Ok c.
Variable D : nat.
Implicit Types (w : wd (E:=E)) (v : vtrk E).
Notation good := (good o pp K D).
Notation step := (step o pp K D).
Notation ran := (ran o pp K D).
Notation ran_at := (ran_at o pp K D).
Notation verifying := (bool -> vtrk E -> res (vtrk E)).

(** ** Calls with a result on both sides *)
Definition gives {A B : Type} w w1 (r : res (A * ptrk E)) (x : A) (ds : list (F p)) (P : Prop) (ver : bool -> vtrk E -> res (B * vtrk E)) (y : B) : Prop :=
  r = Ok (x, ws w1) /\ step w w1 ds P /\ forall cp vk N v debug, lk cp vk w v -> cov cp N w1 -> exists v', ver debug v = Ok (y, v') /\ lk cp vk w1 v' /\ vext v v'.
Lemma gives_then : forall A B w w1 (r : res (A * ptrk E)) x ds P (ver : bool -> vtrk E -> res (B * vtrk E)) y (f : A * ptrk E -> res (ptrk E)) ds' P' (ver' : B -> verifying) b,
  gives w w1 r x ds P ver y -> ran w1 (f (x, ws w1)) ds' P' (ver' y) b -> ran w (bind r f) (ds ++ ds') (P /\ P') (fun debug v => ' (y, v) <- ver debug v ;; ver' y debug v) b.
Proof.
  intros A B w w1 r x ds P ver y f ds' P' ver' b [E1 [S1 T1]] [w2 [E2 [S2 T2]]]. exists w2. split; [rewrite E1; exact E2|]. split; [eapply step_trans; eassumption|].
  intros cp vk N v debug L Cv. pose proof (cov_le _ _ _ _ _ _ _ _ (step_good _ _ _ _ _ _ _ _ S1) (step_le _ _ _ _ _ _ _ _ S2) Cv) as Cv1.
  destruct (T1 cp vk N v debug L Cv1) as [v1 [X1 [L1 V1]]]. destruct (T2 cp vk N v1 debug L1 Cv) as [v2 [X2 [L2 V2]]]. exists v2. rewrite X1. cbn [bind]. split; [exact X2|]. split; [exact L2|eapply vext_trans; eassumption].
Qed.
Lemma gives_gives : forall A B A' B' w w1 w2 (r : res (A * ptrk E)) x ds P (ver : bool -> vtrk E -> res (B * vtrk E)) y (f : A * ptrk E -> res (A' * ptrk E)) x' ds' P' (ver' : B -> bool -> vtrk E -> res (B' * vtrk E)) y',
  gives w w1 r x ds P ver y -> gives w1 w2 (f (x, ws w1)) x' ds' P' (ver' y) y' -> gives w w2 (bind r f) x' (ds ++ ds') (P /\ P') (fun debug v => ' (y, v) <- ver debug v ;; ver' y debug v) y'.
Proof.
  intros A B A' B' w w1 w2 r x ds P ver y f x' ds' P' ver' y' [E1 [S1 T1]] [E2 [S2 T2]]. split; [rewrite E1; exact E2|]. split; [eapply step_trans; eassumption|].
  intros cp vk N v debug L Cv. pose proof (cov_le _ _ _ _ _ _ _ _ (step_good _ _ _ _ _ _ _ _ S1) (step_le _ _ _ _ _ _ _ _ S2) Cv) as Cv1.
  destruct (T1 cp vk N v debug L Cv1) as [v1 [X1 [L1 V1]]]. destruct (T2 cp vk N v1 debug L1 Cv) as [v2 [X2 [L2 V2]]]. exists v2. rewrite X1. cbn [bind]. split; [exact X2|]. split; [exact L2|eapply vext_trans; eassumption].
Qed.
Lemma gives_ext : forall A B w w1 (r r' : res (A * ptrk E)) x ds P P' (ver ver' : bool -> vtrk E -> res (B * vtrk E)) y, gives w w1 r x ds P ver y -> r' = r -> (P <-> P') -> (forall debug v, ver' debug v = ver debug v) -> gives w w1 r' x ds P' ver' y.
Proof.
  intros A B w w1 r r' x ds P P' ver ver' y [E1 [S1 T1]] -> HP HV. split; [exact E1|]. split; [eapply step_imp; eassumption|]. intros cp vk N v debug L Cv. destruct (T1 cp vk N v debug L Cv) as [v1 [X1 Y]]. exists v1. rewrite HV. auto.
Qed.
Ltac ong R := let S := fresh "S" in let G := fresh "G" in let L := fresh "L" in pose proof (proj1 (proj2 R)) as S; pose proof (step_good _ _ _ _ _ _ _ _ S) as G; pose proof (step_le _ _ _ _ _ _ _ _ S) as L;
  match type of S with IopWorld.step _ _ _ _ ?w _ _ _ => match goal with H : good w |- _ => carry H L end end; clear S.
Ltac on R := let G := fresh "G" in let L := fresh "L" in pose proof (ran_good _ _ _ _ _ _ _ _ _ _ _ R) as G; pose proof (ran_le _ _ _ _ _ _ _ _ _ _ _ R) as L;
  match type of R with IopComp.ran_at _ _ _ _ ?w _ _ _ _ _ _ => match goal with H : good w |- _ => carry H L end end.

Lemma gives_mul : forall w a b la lb da db, good w -> hasd w a la da -> hasd w b lb db -> tp_nv a = tp_nv b -> da + db <= D ->
  exists w1 h, gives w w1 (tp_mul (ws w) a b) h [] True (fun _ v => Ok (mul_comms v (tp_id a) (tp_id b))) (tp_id h) /\ hasd w1 h (zipw Fmul la lb) (da + db) /\ tp_nv h = tp_nv a.
Proof.
  intros w a b la lb da db G Ha Hb Hn HD. pose proof (fun cp vk v (L : lk cp vk w v) => lk_says _ _ _ _ _ _ _ L Ha) as I1. pose proof (fun cp vk v (L : lk cp vk w v) => lk_says _ _ _ _ _ _ _ L Hb) as I2. pose proof (step_refl o pp K D w G) as S.
  take S (call_mul o pp K D w a b la lb da db G Ha Hb Hn HD) as w1 h1 E1 H1 N1 T1. exists w1, h1. split; [|split; [exact H1|rewrite N1; reflexivity]]. split; [exact E1|]. split; [eapply step_imp; [exact S|tauto]|].
  intros cp vk N v debug L Cv. unfold mul_comms. pose proof (I1 _ _ _ L) as J1. pose proof (I2 _ _ _ L) as J2. clear I1 I2. pose proof (vext_refl v) as V. subst h1.
  vtake V L T1 as v1 L1 Y1. eexists. split; [rewrite <- (k_next _ _ _ _ L); reflexivity|]. split; [exact L1|exact V].
Qed.
Lemma gives_sub : forall w a b la lb da db, good w -> hasd w a la da -> hasd w b lb db -> tp_nv a = tp_nv b -> Nat.max da db <= D ->
  exists w1 h, gives w w1 (tp_sub (ws w) a b) h [] True (fun _ v => Ok (sub_comms v (tp_id a) (tp_id b))) (tp_id h) /\ hasd w1 h (zipw Fsub la lb) (Nat.max da db) /\ tp_nv h = tp_nv a.
Proof.
  intros w a b la lb da db G Ha Hb Hn HD. pose proof (fun cp vk v (L : lk cp vk w v) => lk_says _ _ _ _ _ _ _ L Ha) as I1. pose proof (fun cp vk v (L : lk cp vk w v) => lk_says _ _ _ _ _ _ _ L Hb) as I2. pose proof (step_refl o pp K D w G) as S.
  take S (call_sub o pp K D w a b la lb da db G Ha Hb Hn HD) as w1 h1 E1 H1 N1 T1. exists w1, h1. split; [|split; [exact H1|rewrite N1; reflexivity]]. split; [exact E1|]. split; [eapply step_imp; [exact S|tauto]|].
  intros cp vk N v debug L Cv. unfold sub_comms. pose proof (I1 _ _ _ L) as J1. pose proof (I2 _ _ _ L) as J2. clear I1 I2. pose proof (vext_refl v) as V. subst h1.
  vtake V L T1 as v1 L1 Y1. eexists. split; [rewrite <- (k_next _ _ _ _ L); reflexivity|]. split; [exact L1|exact V].
Qed.
Lemma gives_muls : forall w a c la da, good w -> hasd w a la da -> da <= D ->
  exists w1 h, gives w w1 (tp_mul_scalar (ws w) a c) h [] True (fun _ v => Ok (v_mul_scalar v (tp_id a) c)) (tp_id h) /\ hasd w1 h (map (fun x => Fmul x c) la) da /\ tp_nv h = tp_nv a.
Proof.
  intros w a c la da G Ha HD. pose proof (fun cp vk v (L : lk cp vk w v) => lk_says _ _ _ _ _ _ _ L Ha) as I1. pose proof (step_refl o pp K D w G) as S.
  take S (call_muls o pp K D w a c la da G Ha HD) as w1 h1 E1 H1 N1 T1. exists w1, h1. split; [|split; [exact H1|rewrite N1; reflexivity]]. split; [exact E1|]. split; [eapply step_imp; [exact S|tauto]|].
  intros cp vk N v debug L Cv. unfold v_mul_scalar. pose proof (I1 _ _ _ L) as J1. clear I1. pose proof (vext_refl v) as V. subst h1.
  vtake V L T1 as v1 L1 Y1. eexists. split; [rewrite <- (k_next _ _ _ _ L); reflexivity|]. split; [exact L1|exact V].
Qed.
Lemma gives_adds : forall w a c la da, good w -> hasd w a la da -> da <= D ->
  exists w1 h, gives w w1 (tp_add_scalar (ws w) a c) h [] True (fun _ v => Ok (v_add_scalar v (tp_id a) c)) (tp_id h) /\ hasd w1 h (map (fun x => Fadd x c) la) da /\ tp_nv h = tp_nv a.
Proof.
  intros w a c la da G Ha HD. pose proof (fun cp vk v (L : lk cp vk w v) => lk_says _ _ _ _ _ _ _ L Ha) as I1. pose proof (step_refl o pp K D w G) as S.
  take S (call_adds o pp K D w a c la da G Ha HD) as w1 h1 E1 H1 N1 T1. exists w1, h1. split; [|split; [exact H1|rewrite N1; reflexivity]]. split; [exact E1|]. split; [eapply step_imp; [exact S|tauto]|].
  intros cp vk N v debug L Cv. pose proof (I1 _ _ _ L) as J1. clear I1. pose proof (vext_refl v) as V. subst h1.
  vtake V L T1 as v1 L1 Y1. eexists. split; [cbn [tp_id]; rewrite <- (k_next _ _ _ _ L); reflexivity|]. split; [exact L1|exact V].
Qed.
Lemma gives_chal : forall w l, good w -> exists w1 c, gives w w1 (pt_challenge o l (ws w)) c [c] True (fun _ v => vt_challenge o l v) c.
Proof. intros w l G. destruct (chal_step o pp K D w l G) as [w1 [c [E1 [S1 T1]]]]. exists w1, c. split; [exact E1|]. split; [exact S1|]. intros cp vk N v debug L Cv. exact (T1 cp vk v L). Qed.
Lemma gives_commit_full : forall w n l d, good w -> length l = 2 ^ n -> n <= K -> 1 <= D -> 1 <= d ->
  exists w1 h, In (h, l) (wf w1) /\ gives w w1 (tp_commit (ws w) (mkMle n l)) h [] True (fun debug v => v_transfer debug v) (tp_id h) /\ hasd w1 h l d /\ tp_nv h = n.
Proof.
  intros w n l d G Hl Hn HD Hd. destruct (commit_full o pp K Hpp D w n l d G Hl Hn HD Hd) as [w1 [h [I1 [[E1 [S1 [_ T1]]] [H1 N1]]]]]. exists w1, h. split; [exact I1|]. split; [|auto]. split; [exact E1|]. split; [exact S1|exact T1].
Qed.
Lemma gives_commit : forall w n l d, good w -> length l = 2 ^ n -> n <= K -> 1 <= D -> 1 <= d -> exists w1 h, gives w w1 (tp_commit (ws w) (mkMle n l)) h [] True (fun debug v => v_transfer debug v) (tp_id h) /\ hasd w1 h l d /\ tp_nv h = n.
Proof. intros w n l d G Hl Hn HD Hd. destruct (gives_commit_full w n l d G Hl Hn HD Hd) as [w1 [h [_ H]]]. exists w1, h. exact H. Qed.
Lemma gives_zero : forall w h l d, good w -> hasd w h l d -> ran w (Ok (add_zerocheck_claim (ws w) (tp_id h))) [] (lz l) (fun _ v => Ok (v_add_zerocheck_claim v (tp_id h))) true.
Proof.
  intros w h l d G H. destruct (zero_step o pp K D w h l d G H) as [w1 [E1 [S1 T1]]]. exists w1. split; [rewrite E1; reflexivity|]. split; [exact S1|]. intros cp vk N v debug L Cv. eexists. split; [reflexivity|]. split; [exact (T1 cp vk v L)|apply vext_same; reflexivity].
Qed.

(** ** Tables *)
Definition hast w (t : table) (cols : list (list (F p))) (sl : list (F p)) (d : nat) : Prop := Forall2 (fun c l => hasd w c l d /\ tp_nv c = t_nv t) (t_cols t) cols /\ hasd w (t_sel t) sl d.
Lemma cols_le : forall w w1 n d cs ls, good w -> le w w1 -> Forall2 (fun c l => hasd w c l d /\ tp_nv c = n) cs ls -> Forall2 (fun c l => hasd w1 c l d /\ tp_nv c = n) cs ls.
Proof. intros w w1 n d cs ls G L H. induction H as [|c l cs ls [H1 H3] H4 IH]; constructor; [|exact IH]. split; [eapply hasd_le; eassumption|exact H3]. Qed.
Lemma hast_le : forall w w1 t cols sl d, good w -> le w w1 -> hast w t cols sl d -> hast w1 t cols sl d.
Proof. intros w w1 t cols sl d G L [A B]. split; [eapply cols_le; eassumption|eapply hasd_le; eassumption]. Qed.
Lemma cols_len : forall w n d cs ls, good w -> Forall2 (fun c l => hasd w c l d /\ tp_nv c = n) cs ls -> Forall (fun l => length l = 2 ^ n) ls.
Proof. intros w n d cs ls G H. induction H as [|c l cs ls [H1 H3] H4 IH]; constructor; [|exact IH]. rewrite <- H3. eapply hasd_len; eassumption. Qed.
Lemma hast_len : forall w t cols sl d, good w -> hast w t cols sl d -> Forall (fun l => length l = 2 ^ t_nv t) cols /\ length sl = 2 ^ t_nv t /\ length cols = length (t_cols t).
Proof. intros w t cols sl d G [A B]. split; [eapply cols_len; eassumption|]. split; [exact (hasd_len _ _ _ _ _ _ _ _ G B)|clear -A; induction A; cbn; congruence]. Qed.
Ltac carryt G L := carry G L; repeat match goal with H : hast ?a ?t ?c ?s ?d |- _ => match type of G with IopWorld.good _ _ _ _ a => apply (hast_le _ _ _ _ _ _ G L) in H end end.

(** ** Folding the rows *)
Lemma agg_at : forall n d cols ls rs w acc la da, good w -> hasd w acc la da -> tp_nv acc = n -> Forall2 (fun c l => hasd w c l d /\ tp_nv c = n) cols ls -> length cols <= length rs -> da + length cols * d <= D ->
  exists w1 h, gives w w1 (agg_cols (ws w) acc cols rs) h [] True (fun _ v => agg_comms v (tp_id acc) (map tp_id cols) rs) (tp_id h) /\ hasd w1 h (aggfold la ls rs) (da + length cols * d) /\ tp_nv h = n.
Proof.
  induction cols as [|c cols IH]; intros ls rs w acc la da G Ha Na Hc Hr HD.
  - inversion Hc; subst. exists w, acc. cbn [agg_cols agg_comms map aggfold length]. rewrite Nat.add_0_r. split; [|split; [exact Ha|reflexivity]]. split; [reflexivity|]. split; [eapply step_imp; [apply step_refl; exact G|tauto]|].
    intros cp vk N v debug L Cv. exists v. split; [reflexivity|]. split; [exact L|apply vext_refl].
  - inversion Hc as [|? l ? ls' [Hc1 Nc] Hc2]; subst. destruct rs as [|r rs]; [cbn in Hr; lia|]. cbn [length] in Hr, HD. cbn [agg_cols agg_comms map aggfold length].
    destruct (gives_muls w c r l d G Hc1 ltac:(nia)) as [w1 [x [R1 [H1 N1]]]]. pose proof (cols_le _ _ _ _ _ _ G (step_le _ _ _ _ _ _ _ _ (proj1 (proj2 R1))) Hc2) as Hc3. ong R1. clear Hc1.
    destruct (gives_mul w1 acc x la _ da d ltac:(assumption) Ha H1 ltac:(congruence) ltac:(nia)) as [w2 [a2 [R2 [H3 N2]]]]. pose proof (cols_le _ _ _ _ _ _ ltac:(eassumption) (step_le _ _ _ _ _ _ _ _ (proj1 (proj2 R2))) Hc3) as Hc4. ong R2.
    destruct (IH ls' rs w2 a2 _ (da + d) ltac:(assumption) H3 N2 Hc4 ltac:(lia) ltac:(lia)) as [w3 [a3 [R3 [H4 N3]]]].
    exists w3, a3. split; [|split; [|exact N3]].
    + pose proof (gives_gives _ _ _ _ _ _ _ _ _ _ _ _ _ (fun z => let '(acc, s) := z in agg_cols s acc cols rs) _ _ _ (fun y _ v => agg_comms v y (map tp_id cols) rs) _ R2 R3) as R4. cbn [app] in R4.
      pose proof (gives_gives _ _ _ _ _ _ _ _ _ _ _ _ _ (fun z => let '(x, s) := z in ' (acc, s) <- tp_mul s acc x ;; agg_cols s acc cols rs) _ _ _ (fun y _ v => ' (a, v) <- Ok (mul_comms v (tp_id acc) y) ;; agg_comms v a (map tp_id cols) rs) _ R1 R4) as R5. cbn [app] in R5.
      eapply gives_ext; [exact R5|reflexivity|tauto|reflexivity].
    + replace (da + S (length cols) * d) with (da + d + length cols * d) by lia. replace (both la (map (fun y => (r * y)%F) l)) with (zipw Fmul la (map (fun y => (y * r)%F) l)); [exact H4|].
      replace (map (fun y => (r * y)%F) l) with (map (fun y => (y * r)%F) l); [reflexivity|]. apply map_ext. intros y. ring.
Qed.
Lemma row_agg_at : forall dbg w t cols sl d rs, good w -> hast w t cols sl d -> length (t_cols t) <= length rs -> d + length (t_cols t) * d <= D ->
  exists w1 b, gives w w1 (row_agg_prove dbg (ws w) t rs) b [] True (fun _ v => row_agg_verify v (tcomm_of t) rs) (comm_of b) /\ hasb w1 b (aggregated rs cols sl) sl (d + length (t_cols t) * d) /\ b_nv b = t_nv t.
Proof.
  intros dbg w t cols sl d rs G Ht Hr HD. destruct (hast_len _ _ _ _ _ G Ht) as [L1 [L2 L3]]. destruct Ht as [Hc Hs]. pose proof Hs as Hs'.
  destruct (agg_at (t_nv t) d (t_cols t) cols rs w (t_sel t) sl d G Hs' eq_refl Hc Hr HD) as [w1 [h [R1 [H1 N1]]]]. ong R1. exists w1, (mkBag h (t_sel t)).
  rewrite (aggfold_is H2) in H1 by (eapply Forall_impl; [|exact L1]; cbn; intros; congruence). split; [|split; [|exact N1]].
  - destruct R1 as [E1 [S1 T1]]. split; [unfold row_agg_prove; rewrite E1; cbn [bind]; rewrite bag_new_ok by exact N1; reflexivity|]. split; [exact S1|]. intros cp vk N v debug Lk Cv.
    destruct (T1 cp vk N v debug Lk Cv) as [v1 [X1 Y]]. exists v1. split; [|exact Y]. unfold row_agg_verify, tcomm_of. cbn [tc_sel tc_cols tc_nv]. rewrite X1. cbn [bind]. rewrite (comm_two h (t_sel t) (t_nv t) N1). reflexivity.
  - split; [exact H1|]. split; [eapply hasd_weak; [exact Hs|lia]|exact N1].
Qed.
Lemma powers_len : forall (r : F p) n, length (powers r n) = n. Proof. intros r n. unfold powers. rewrite map_length, seq_length. reflexivity. Qed.

(** ** The index transform *)
Lemma index_transform_at : forall dbg w ti to ic isl oc osl d, good w -> hast w ti ic isl d -> hast w to oc osl d -> boolean isl -> length (t_cols to) <= length (t_cols ti) -> 1 <= d -> 2 * (d + length (t_cols ti) * d) + 1 <= D ->
  exists w1 r h ml, let rs := powers r (length (t_cols ti)) in let il := aggregated rs ic isl in let ol := aggregated rs oc osl in incl_weights ol osl il isl ml /\
    ran_at w w1 (index_transform_prove o dbg (ws w) ti to) [r; h] (clear h ol /\ clear h il) (fun debug v => index_transform_verify o debug v (tcomm_of ti) (tcomm_of to)) (incl_fits ol osl il isl ml h).
Proof.
  intros dbg w ti to ic isl oc osl d G Hi Ho Bi Hn Hd HD. set (n := length (t_cols ti)) in *.
  destruct (gives_chal w "r" G) as [w1 [r R1]]. pose proof (hast_le _ _ _ _ _ _ G (step_le _ _ _ _ _ _ _ _ (proj1 (proj2 R1))) Hi) as Hi1. pose proof (hast_le _ _ _ _ _ _ G (step_le _ _ _ _ _ _ _ _ (proj1 (proj2 R1))) Ho) as Ho1. ong R1.
  destruct (row_agg_at dbg w1 ti ic isl d (powers r n) ltac:(assumption) Hi1 ltac:(rewrite powers_len; fold n; lia) ltac:(fold n; lia)) as [w2 [bi [R2 [H3 N2]]]].
  pose proof (hast_le _ _ _ _ _ _ ltac:(eassumption) (step_le _ _ _ _ _ _ _ _ (proj1 (proj2 R2))) Ho1) as Ho2. ong R2.
  destruct (row_agg_at dbg w2 to oc osl d (powers r n) ltac:(assumption) Ho2 ltac:(rewrite powers_len; lia) ltac:(nia)) as [w3 [bo [R3 [H4 N3]]]]. ong R3.
  fold n in H3. apply (hasb_weak _ _ _ _ _ (d + n * d)) in H4; [|nia].
  destruct (incl_at Hp H2 o pp K Hpp D w3 bo bi _ osl _ isl (d + n * d) ltac:(assumption) H4 H3 Bi ltac:(lia) ltac:(lia)) as [w4 [h [ml [HW R4]]]].
  pose proof (gives_then _ _ _ _ _ _ _ _ _ _ (fun z => let '(bo, s) := z in inclusion_prove o s bo bi) _ _ (fun bo debug v => inclusion_verify o debug v bo (comm_of bi)) _ R3 (at_ran _ _ _ _ _ _ _ _ _ _ _ R4)) as X1. cbn [app] in X1.
  pose proof (gives_then _ _ _ _ _ _ _ _ _ _ (fun z => let '(bi, s) := z in ' (bo, s) <- row_agg_prove dbg s to (powers r n) ;; inclusion_prove o s bo bi) _ _
    (fun bi debug v => ' (bo, v) <- row_agg_verify v (tcomm_of to) (powers r n) ;; inclusion_verify o debug v bo bi) _ R2 X1) as X2. cbn [app] in X2.
  pose proof (gives_then _ _ _ _ _ _ _ _ _ _ (fun z => let '(r, s) := z in ' (bi, s) <- row_agg_prove dbg s ti (powers r n) ;; ' (bo, s) <- row_agg_prove dbg s to (powers r n) ;; inclusion_prove o s bo bi) _ _
    (fun r debug v => ' (bi, v) <- row_agg_verify v (tcomm_of ti) (powers r n) ;; ' (bo, v) <- row_agg_verify v (tcomm_of to) (powers r n) ;; inclusion_verify o debug v bo bi) _ R1 X2) as X3. cbn [app] in X3.
  match type of X3 with IopRuns.ran _ _ _ _ _ _ ?ds _ _ ?b => assert (X4 : ran w (index_transform_prove o dbg (ws w) ti to) ds (clear h (aggregated (powers r n) oc osl) /\ clear h (aggregated (powers r n) ic isl)) (fun debug v => index_transform_verify o debug v (tcomm_of ti) (tcomm_of to)) b) end.
  { eapply ran_ext; [exact X3| |tauto| |reflexivity].
    - unfold index_transform_prove, rand_powers_prove. fold n. destruct (pt_challenge o "r" (ws w)) as [[r' s']| |]; reflexivity.
    - intros debug v. unfold index_transform_verify, rand_powers_verify. change (length (tc_cols (tcomm_of ti))) with (length (map tp_id (t_cols ti))). rewrite map_length. fold n. destruct (vt_challenge o "r" v) as [[r' v']| |]; reflexivity. }
  destruct X4 as [w5 X4]. exists w5, r, h, ml. cbv zeta. split; [exact HW|exact X4].
Qed.

(** ** The reduction of a join *)
Lemma one_minus_at : forall w a la d, good w -> hasd w a la d -> d <= D ->
  exists w1 h, gives w w1 (one_minus_prove (ws w) a) h [] True (fun _ v => Ok (one_minus_verify v (tp_id a))) (tp_id h) /\ hasd w1 h (opposite la) d /\ tp_nv h = tp_nv a.
Proof.
  intros w a la d G Ha HD. destruct (gives_muls w a (Fopp F1) la d G Ha HD) as [w1 [x [R1 [H1 N1]]]]. ong R1. destruct (gives_adds w1 x F1 _ d ltac:(assumption) H1 HD) as [w2 [y [R2' [H3 N2]]]]. exists w2, y.
  split; [|split; [|congruence]].
  - pose proof (gives_gives _ _ _ _ _ _ _ _ _ _ _ _ _ (fun z => let '(x, s) := z in tp_add_scalar s x F1) _ _ _ (fun y _ v => Ok (v_add_scalar v y F1)) _ R1 R2') as R3. cbn [app] in R3.
    eapply gives_ext; [exact R3|reflexivity|tauto|]. intros debug v. unfold one_minus_verify. destruct (v_mul_scalar v (tp_id a) (Fopp F1)) as [z v']. reflexivity.
  - rewrite map_map in H3. replace (opposite la) with (map (fun x0 : F p => (x0 * - F1 + F1)%F) la); [exact H3|]. unfold opposite. apply map_ext. intros z. ring.
Qed.
Definition dj_claims (n : nat) (vals l sl l' sl' rl : list (F p)) (g g1 g2 h h' : F p) : Prop :=
  let cl := merged n vals in let csl := merged_sel n vals in
  sort_claims n cl csl rl g g1 g2 /\ lz (zipw Fmul (merged_count n vals l sl) (merged_count n vals l' sl')) /\ (clear h l /\ clear h cl) /\ clear h' l' /\ clear h' cl.
Definition dj_fits (n : nat) (vals l sl l' sl' rl wl : list (F p)) (g2 h h' : F p) : bool :=
  let cl := merged n vals in let csl := merged_sel n vals in
  sort_fits cl rl wl g2 && (incl_fits l sl cl csl (merged_count n vals l sl) h && incl_fits l' sl' cl csl (merged_count n vals l' sl') h').
Definition dj_vals (n : nat) (vals l sl l' sl' rl wl : list (F p)) : Prop :=
  ascending vals /\ (forall x, In x vals <-> In x (rows l sl) \/ In x (rows l' sl')) /\ length vals <= 2 ^ n /\ range_weights (merged n vals) rl wl.
Lemma dj_at : forall w a b rx l sl l' sl' rl rsl d dbg, good w -> hasb w a l sl d -> hasb w b l' sl' d -> hasb w rx rl rsl d -> let n := Nat.max (b_nv a) (b_nv b) + 1 in n <= K -> 1 <= d -> 2 * d + 3 <= D ->
  exists w1 vals wl g g1 g2 h h', dj_vals n vals l sl l' sl' rl wl /\
    ran_at w w1 (bag_disjoint_prove o dbg (ws w) a b rx) [g; g1; g2; h; h'] (dj_claims n vals l sl l' sl' rl g g1 g2 h h')
      (fun debug v => bag_disjoint_verify o debug v (comm_of a) (comm_of b) (comm_of rx)) (dj_fits n vals l sl l' sl' rl wl g2 h h').
Proof.
  intros w a b rx l sl l' sl' rl rsl d dbg G Ha Hb Hr n Hn Hd HD.
  destruct (bag_disjoint_at Hp H2 o pp K Hpp D w a b rx l sl l' sl' rl rsl d dbg G Ha Hb Hr Hn Hd HD) as [vals [V1 [V3 [V4 [w1 [g [g1 [g2 [h [h' [wl [HW R]]]]]]]]]]]].
  exists w1, vals, wl, g, g1, g2, h, h'. split; [|exact R]. split; [exact V1|]. split; [exact V3|]. split; [exact V4|exact HW].
Qed.
Lemma join_reduction_any : forall w a b ls rs rx al asl bl bsl lsl rsl rl rrl d dbg, good w -> hasb w a al asl d -> hasb w b bl bsl d -> hasd w ls lsl d -> tp_nv ls = b_nv a -> hasd w rs rsl d -> tp_nv rs = b_nv b -> hasb w rx rl rrl d ->
  let na := b_nv a in let nb := b_nv b in let n := Nat.max na nb + 1 in n <= K -> 1 <= d -> 4 * d + 3 <= D ->
  let al' := both asl lsl in let bl' := both bsl rsl in let am := both asl (opposite lsl) in let bm := both bsl (opposite rsl) in
  exists w1 x1 u1 g1 g11 g12 h1 h1' x2 u2 g2 g21 g22 h2 h2' x3 u3 g3 g31 g32 h3 h3' h4 m4 h5 m5,
    dj_vals n x1 al al' bl bl' rl u1 /\ dj_vals (na + 1) x2 al al' al am rl u2 /\ dj_vals (nb + 1) x3 bl bl' bl bm rl u3 /\ (boolean bm -> incl_weights al am bl bm m4) /\ (boolean am -> incl_weights bl bm al am m5) /\
    ran_at w w1 (join_reduction_prove o dbg (ws w) a b ls rs rx) ([g1; g11; g12; h1; h1'] ++ [g2; g21; g22; h2; h2'] ++ [g3; g31; g32; h3; h3'] ++ [h4; h5])
      ((lz (sel_claim lsl) /\ lz (sel_claim rsl)) /\ dj_claims n x1 al al' bl bl' rl g1 g11 g12 h1 h1' /\ dj_claims (na + 1) x2 al al' al am rl g2 g21 g22 h2 h2' /\ dj_claims (nb + 1) x3 bl bl' bl bm rl g3 g31 g32 h3 h3' /\ (clear h4 al /\ clear h4 bl) /\ (clear h5 bl /\ clear h5 al))
      (fun debug v => join_reduction_verify o debug v (comm_of a) (comm_of b) (tp_id ls) (tp_id rs) (comm_of rx))
      (dj_fits n x1 al al' bl bl' rl u1 g12 h1 h1' && (dj_fits (na + 1) x2 al al' al am rl u2 g22 h2 h2' && (dj_fits (nb + 1) x3 bl bl' bl bm rl u3 g32 h3 h3' && (incl_fits al am bl bm m4 h4 && incl_fits bl bm al am m5 h5)))).
Proof.
  intros w a b ls rs rx al asl bl bsl lsl rsl rl rrl d dbg G Ha Hb Hls Nls Hrs Nrs Hr na nb n Hn Hd HD al' bl' am bm.
  pose proof (hasb_len o pp K D _ _ _ _ _ G Ha) as [La [Las Ka]]. pose proof (hasb_len o pp K D _ _ _ _ _ G Hb) as [Lb [Lbs Kb]]. fold na in La, Las, Ka. fold nb in Lb, Lbs, Kb. fold na in Nls. fold nb in Nrs.
  pose proof (hasd_len o pp K D _ _ _ _ G Hls) as Lls. pose proof (hasd_len o pp K D _ _ _ _ G Hrs) as Lrs. rewrite Nls in Lls. rewrite Nrs in Lrs.
  pose proof Ha as [Ha1 [Ha2 Ha3]]. pose proof Hb as [Hb1 [Hb2 Hb3]]. clear Ha Hb. fold (b_nv a) in Ha3. fold na in Ha3. fold (b_nv b) in Hb3. fold nb in Hb3.
  destruct (one_minus_at w ls lsl d G Hls ltac:(lia)) as [w1 [mas [R1 [M1 N1]]]]. ong R1.
  destruct (one_minus_at w1 rs rsl d ltac:(assumption) Hrs ltac:(lia)) as [w2 [mbs [R2 [M2 N2]]]]. ong R2.
  destruct (gives_mul w2 (b_sel a) ls _ _ d d ltac:(assumption) Ha2 Hls ltac:(congruence) ltac:(lia)) as [w3 [x3 [R3 [M3 N3]]]]. ong R3.
  destruct (gives_mul w3 (b_sel b) rs _ _ d d ltac:(assumption) Hb2 Hrs ltac:(congruence) ltac:(lia)) as [w4 [x4 [R4 [M4 N4]]]]. ong R4.
  destruct (gives_mul w4 (b_sel a) mas _ _ d d ltac:(assumption) Ha2 M1 ltac:(congruence) ltac:(lia)) as [w5 [x5 [R5 [M5 N5]]]]. ong R5.
  destruct (gives_mul w5 (b_sel b) mbs _ _ d d ltac:(assumption) Hb2 M2 ltac:(congruence) ltac:(lia)) as [w6 [x6 [R6 [M6 N6]]]]. ong R6.
  change (hasd w6 x3 al' (d + d)) in M3. change (hasd w6 x4 bl' (d + d)) in M4. change (hasd w6 x5 am (d + d)) in M5. change (hasd w6 x6 bm (d + d)) in M6.
  destruct (ran_some _ _ _ _ _ _ _ _ _ _ (selector_ran o pp K D w6 ls lsl d ltac:(assumption) Hls Hd ltac:(lia))) as [w7 R7]. on R7.
  destruct (ran_some _ _ _ _ _ _ _ _ _ _ (selector_ran o pp K D w7 rs rsl d ltac:(assumption) Hrs Hd ltac:(lia))) as [w8 R8]. on R8.
  assert (B3 : hasb w8 (mkBag (b_poly a) x3) al al' (d + d)) by (split; [eapply hasd_weak; [exact Ha1|lia]|split; [exact M3|cbn [b_poly b_sel]; unfold b_nv in na; fold na; congruence]]).
  assert (B4 : hasb w8 (mkBag (b_poly b) x4) bl bl' (d + d)) by (split; [eapply hasd_weak; [exact Hb1|lia]|split; [exact M4|cbn [b_poly b_sel]; unfold b_nv in nb; fold nb; congruence]]).
  assert (B5 : hasb w8 (mkBag (b_poly a) x5) al am (d + d)) by (split; [eapply hasd_weak; [exact Ha1|lia]|split; [exact M5|cbn [b_poly b_sel]; unfold b_nv in na; fold na; congruence]]).
  assert (B6 : hasb w8 (mkBag (b_poly b) x6) bl bm (d + d)) by (split; [eapply hasd_weak; [exact Hb1|lia]|split; [exact M6|cbn [b_poly b_sel]; unfold b_nv in nb; fold nb; congruence]]).
  apply (hasb_weak _ _ _ _ _ (d + d)) in Hr; [|lia].
  pose proof (dj_at w8 _ _ rx al al' bl bl' rl rrl (d + d) dbg ltac:(assumption) B3 B4 Hr) as X9. cbv zeta in X9. change (b_nv (mkBag (b_poly a) x3)) with na in X9. change (b_nv (mkBag (b_poly b) x4)) with nb in X9. fold n in X9.
  destruct (X9 Hn ltac:(lia) ltac:(lia)) as [w9 [v1 [w1' [g1 [g11 [g12 [h1 [h1' [V1 R9]]]]]]]]]. clear X9. on R9.
  pose proof (dj_at w9 _ _ rx al al' al am rl rrl (d + d) dbg ltac:(assumption) B3 B5 Hr) as X9. cbv zeta in X9. change (b_nv (mkBag (b_poly a) x3)) with na in X9. change (b_nv (mkBag (b_poly a) x5)) with na in X9. rewrite Nat.max_id in X9.
  destruct (X9 ltac:(lia) ltac:(lia) ltac:(lia)) as [w10 [v2 [w2' [g2 [g21 [g22 [h3 [h3' [V2 R10]]]]]]]]]. clear X9. on R10.
  pose proof (dj_at w10 _ _ rx bl bl' bl bm rl rrl (d + d) dbg ltac:(assumption) B4 B6 Hr) as X9. cbv zeta in X9. change (b_nv (mkBag (b_poly b) x4)) with nb in X9. change (b_nv (mkBag (b_poly b) x6)) with nb in X9. rewrite Nat.max_id in X9.
  destruct (X9 ltac:(lia) ltac:(lia) ltac:(lia)) as [w11 [v3 [w3' [g3 [g31 [g32 [h5 [h5' [V3 R11]]]]]]]]]. clear X9. on R11.
  destruct (incl_at_any Hp H2 o pp K Hpp D w11 _ _ al am bl bm (d + d) ltac:(assumption) B5 B6 ltac:(lia) ltac:(lia)) as [w12 [h6 [m6 [W6 R12]]]]. on R12.
  destruct (incl_at_any Hp H2 o pp K Hpp D w12 _ _ bl bm al am (d + d) ltac:(assumption) B6 B5 ltac:(lia) ltac:(lia)) as [w13 [h7 [m7 [W7 R13]]]]. on R13.
  set (lb := mkBag (b_poly a) x3) in *. set (rb := mkBag (b_poly b) x4) in *. set (mab := mkBag (b_poly a) x5) in *. set (mbb := mkBag (b_poly b) x6) in *.
  pose proof (ran_then o pp K D _ _ _ (fun s => inclusion_prove o s mbb mab) _ _ _ _ _ _ _ _ R12 (at_ran _ _ _ _ _ _ _ _ _ _ _ R13)) as Y1. cbn [app] in Y1.
  pose proof (ran_then o pp K D _ _ _ (fun s => s <- inclusion_prove o s mab mbb ;; inclusion_prove o s mbb mab) _ _ _ _ _ _ _ _ R11 Y1) as Y2. clear Y1. cbn [app] in Y2.
  pose proof (ran_then o pp K D _ _ _ (fun s => s <- bag_disjoint_prove o dbg s rb mbb rx ;; s <- inclusion_prove o s mab mbb ;; inclusion_prove o s mbb mab) _ _ _ _ _ _ _ _ R10 Y2) as Y3. clear Y2. cbn [app] in Y3.
  pose proof (ran_then o pp K D _ _ _ (fun s => s <- bag_disjoint_prove o dbg s lb mab rx ;; s <- bag_disjoint_prove o dbg s rb mbb rx ;; s <- inclusion_prove o s mab mbb ;; inclusion_prove o s mbb mab) _ _ _ _ _ _ _ _ R9 Y3) as Y4. clear Y3. cbn [app] in Y4.
  set (tl := fun s => s <- bag_disjoint_prove o dbg s lb rb rx ;; s <- bag_disjoint_prove o dbg s lb mab rx ;; s <- bag_disjoint_prove o dbg s rb mbb rx ;; s <- inclusion_prove o s mab mbb ;; inclusion_prove o s mbb mab).
  pose proof (ran_then o pp K D _ _ _ tl _ _ _ _ _ _ _ _ R8 Y4) as Y5. clear Y4. cbn [app andb] in Y5.
  pose proof (ran_then o pp K D _ _ _ (fun s => s <- selector_valid_prove s rs ;; tl s) _ _ _ _ _ _ _ _ R7 Y5) as Y6. clear Y5. cbn [app andb] in Y6.
  set (Z := fun s => s <- selector_valid_prove s ls ;; s <- selector_valid_prove s rs ;; tl s).
  change (ran w6 (Z (ws w6))) with (ran w6 (Z (snd (x6, ws w6)))) in Y6.
  set (V := fun (lbc rbc mabc mbbc : bagc) debug (v : vtrk E) => v <- selector_valid_verify v (tp_id ls) ;; v <- selector_valid_verify v (tp_id rs) ;; v <- bag_disjoint_verify o debug v lbc rbc (comm_of rx) ;;
    v <- bag_disjoint_verify o debug v lbc mabc (comm_of rx) ;; v <- bag_disjoint_verify o debug v rbc mbbc (comm_of rx) ;; v <- inclusion_verify o debug v mabc mbbc ;; inclusion_verify o debug v mbbc mabc).
  set (ca := fun i => mkBagc (tp_id (b_poly a)) i na). set (cb := fun i => mkBagc (tp_id (b_poly b)) i nb).
  pose proof (gives_then _ _ _ _ _ _ _ _ _ _ (fun z => Z (snd z)) _ _ (fun i => V (ca (tp_id x3)) (cb (tp_id x4)) (ca (tp_id x5)) (cb i)) _ R6 Y6) as Z6. clear Y6. cbn [app] in Z6.
  pose proof (gives_then _ _ _ _ _ _ _ _ _ _ (fun z => z <- tp_mul (snd z) (b_sel b) mbs ;; Z (snd z)) _ _ (fun i debug v => ' (j, v) <- Ok (mul_comms v (tp_id (b_sel b)) (tp_id mbs)) ;; V (ca (tp_id x3)) (cb (tp_id x4)) (ca i) (cb j) debug v) _ R5 Z6) as Z5. clear Z6. cbn [app] in Z5.
  pose proof (gives_then _ _ _ _ _ _ _ _ _ _ (fun z => z <- tp_mul (snd z) (b_sel a) mas ;; z <- tp_mul (snd z) (b_sel b) mbs ;; Z (snd z)) _ _
    (fun x4 debug v => ' (i, v) <- Ok (mul_comms v (tp_id (b_sel a)) (tp_id mas)) ;; ' (j, v) <- Ok (mul_comms v (tp_id (b_sel b)) (tp_id mbs)) ;; V (ca (tp_id x3)) (cb x4) (ca i) (cb j) debug v) _ R4 Z5) as Z4. clear Z5. cbn [app] in Z4.
  pose proof (gives_then _ _ _ _ _ _ _ _ _ _ (fun z => z <- tp_mul (snd z) (b_sel b) rs ;; z <- tp_mul (snd z) (b_sel a) mas ;; z <- tp_mul (snd z) (b_sel b) mbs ;; Z (snd z)) _ _
    (fun x3 debug v => ' (x4, v) <- Ok (mul_comms v (tp_id (b_sel b)) (tp_id rs)) ;; ' (i, v) <- Ok (mul_comms v (tp_id (b_sel a)) (tp_id mas)) ;; ' (j, v) <- Ok (mul_comms v (tp_id (b_sel b)) (tp_id mbs)) ;; V (ca x3) (cb x4) (ca i) (cb j) debug v) _ R3 Z4) as Z3. clear Z4. cbn [app] in Z3.
  pose proof (gives_then _ _ _ _ _ _ _ _ _ _ (fun z => z <- tp_mul (snd z) (b_sel a) ls ;; z <- tp_mul (snd z) (b_sel b) rs ;; z <- tp_mul (snd z) (b_sel a) mas ;; z <- tp_mul (snd z) (b_sel b) mbs ;; Z (snd z)) _ _
    (fun mbs debug v => ' (x3, v) <- Ok (mul_comms v (tp_id (b_sel a)) (tp_id ls)) ;; ' (x4, v) <- Ok (mul_comms v (tp_id (b_sel b)) (tp_id rs)) ;; ' (i, v) <- Ok (mul_comms v (tp_id (b_sel a)) (tp_id mas)) ;; ' (j, v) <- Ok (mul_comms v (tp_id (b_sel b)) mbs) ;; V (ca x3) (cb x4) (ca i) (cb j) debug v) _ R2 Z3) as Z2. clear Z3. cbn [app] in Z2.
  pose proof (gives_then _ _ _ _ _ _ _ _ _ _ (fun z => z <- one_minus_prove (snd z) rs ;; z <- tp_mul (snd z) (b_sel a) ls ;; z <- tp_mul (snd z) (b_sel b) rs ;; z <- tp_mul (snd z) (b_sel a) mas ;; z <- tp_mul (snd z) (b_sel b) mbs ;; Z (snd z)) _ _
    (fun mas debug v => ' (mbs, v) <- Ok (one_minus_verify v (tp_id rs)) ;; ' (x3, v) <- Ok (mul_comms v (tp_id (b_sel a)) (tp_id ls)) ;; ' (x4, v) <- Ok (mul_comms v (tp_id (b_sel b)) (tp_id rs)) ;; ' (i, v) <- Ok (mul_comms v (tp_id (b_sel a)) mas) ;; ' (j, v) <- Ok (mul_comms v (tp_id (b_sel b)) mbs) ;; V (ca x3) (cb x4) (ca i) (cb j) debug v) _ R1 Z2) as Z1. clear Z2. cbn [app] in Z1.
  match type of Z1 with IopRuns.ran _ _ _ _ _ _ ?ds _ _ ?bb => assert (R : ran w (join_reduction_prove o dbg (ws w) a b ls rs rx) ds
    ((lz (sel_claim lsl) /\ lz (sel_claim rsl)) /\ dj_claims n v1 al al' bl bl' rl g1 g11 g12 h1 h1' /\ dj_claims (na + 1) v2 al al' al am rl g2 g21 g22 h3 h3' /\ dj_claims (nb + 1) v3 bl bl' bl bm rl g3 g31 g32 h5 h5' /\ (clear h6 al /\ clear h6 bl) /\ (clear h7 bl /\ clear h7 al))
    (fun debug v => join_reduction_verify o debug v (comm_of a) (comm_of b) (tp_id ls) (tp_id rs) (comm_of rx)) bb) end.
  { eapply ran_ext; [exact Z1| |clear; tauto| |reflexivity].
    - unfold join_reduction_prove. rewrite (proj1 R1). cbn [bind snd]. rewrite (proj1 R2). cbn [bind snd]. rewrite (proj1 R3). cbn [bind snd]. rewrite bag_new_ok by (unfold b_nv in na; fold na; congruence). cbn [bind].
      rewrite (proj1 R4). cbn [bind snd]. rewrite bag_new_ok by (unfold b_nv in nb; fold nb; congruence). cbn [bind].
      rewrite (proj1 R5). cbn [bind snd]. rewrite bag_new_ok by (unfold b_nv in na; fold na; congruence). cbn [bind].
      rewrite (proj1 R6). cbn [bind snd]. rewrite bag_new_ok by (unfold b_nv in nb; fold nb; congruence). cbn [bind]. reflexivity.
    - intros debug v. unfold join_reduction_verify. cbn [bind]. destruct (one_minus_verify v (tp_id ls)) as [y1 v1']. destruct (one_minus_verify v1' (tp_id rs)) as [y2 v2']. cbn [comm_of bc_sel].
      destruct (mul_comms v2' (tp_id (b_sel a)) (tp_id ls)) as [y3 v3']. destruct (mul_comms v3' (tp_id (b_sel b)) (tp_id rs)) as [y4 v4']. destruct (mul_comms v4' (tp_id (b_sel a)) y1) as [y5 v5']. destruct (mul_comms v5' (tp_id (b_sel b)) y2) as [y6 v6']. reflexivity. }
  destruct R as [wz R].
  exists wz, v1, w1', g1, g11, g12, h1, h1', v2, w2', g2, g21, g22, h3, h3', v3, w3', g3, g31, g32, h5, h5', h6, m6, h7, m7.
  split; [exact V1|]. split; [exact V2|]. split; [exact V3|]. split; [exact W6|]. split; [exact W7|]. exact R.
Qed.
Lemma join_reduction_at : forall w a b ls rs rx al asl bl bsl lsl rsl rl rrl d dbg, good w -> hasb w a al asl d -> hasb w b bl bsl d -> hasd w ls lsl d -> tp_nv ls = b_nv a -> hasd w rs rsl d -> tp_nv rs = b_nv b -> hasb w rx rl rrl d ->
  boolean asl -> boolean bsl -> boolean lsl -> boolean rsl -> let na := b_nv a in let nb := b_nv b in let n := Nat.max na nb + 1 in n <= K -> 1 <= d -> 4 * d + 3 <= D ->
  let al' := both asl lsl in let bl' := both bsl rsl in let am := both asl (opposite lsl) in let bm := both bsl (opposite rsl) in
  exists w1 x1 u1 g1 g11 g12 h1 h1' x2 u2 g2 g21 g22 h2 h2' x3 u3 g3 g31 g32 h3 h3' h4 m4 h5 m5,
    dj_vals n x1 al al' bl bl' rl u1 /\ dj_vals (na + 1) x2 al al' al am rl u2 /\ dj_vals (nb + 1) x3 bl bl' bl bm rl u3 /\ incl_weights al am bl bm m4 /\ incl_weights bl bm al am m5 /\
    ran_at w w1 (join_reduction_prove o dbg (ws w) a b ls rs rx) ([g1; g11; g12; h1; h1'] ++ [g2; g21; g22; h2; h2'] ++ [g3; g31; g32; h3; h3'] ++ [h4; h5])
      (dj_claims n x1 al al' bl bl' rl g1 g11 g12 h1 h1' /\ dj_claims (na + 1) x2 al al' al am rl g2 g21 g22 h2 h2' /\ dj_claims (nb + 1) x3 bl bl' bl bm rl g3 g31 g32 h3 h3' /\ (clear h4 al /\ clear h4 bl) /\ (clear h5 bl /\ clear h5 al))
      (fun debug v => join_reduction_verify o debug v (comm_of a) (comm_of b) (tp_id ls) (tp_id rs) (comm_of rx))
      (dj_fits n x1 al al' bl bl' rl u1 g12 h1 h1' && (dj_fits (na + 1) x2 al al' al am rl u2 g22 h2 h2' && (dj_fits (nb + 1) x3 bl bl' bl bm rl u3 g32 h3 h3' && (incl_fits al am bl bm m4 h4 && incl_fits bl bm al am m5 h5)))).
Proof.
  intros w a b ls rs rx al asl bl bsl lsl rsl rl rrl d dbg G Ha Hb Hls Nls Hrs Nrs Hr Ba Bb Bl Br na nb n Hn Hd HD al' bl' am bm.
  pose proof (hasb_len o pp K D _ _ _ _ _ G Ha) as [La [Las _]]. pose proof (hasb_len o pp K D _ _ _ _ _ G Hb) as [Lb [Lbs _]].
  pose proof (hasd_len o pp K D _ _ _ _ G Hls) as Lls. pose proof (hasd_len o pp K D _ _ _ _ G Hrs) as Lrs. rewrite Nls in Lls. rewrite Nrs in Lrs.
  assert (Bam : boolean am) by (apply bool_both; [rewrite opp_len; congruence|exact Ba|apply bool_opp; exact Bl]). assert (Bbm : boolean bm) by (apply bool_both; [rewrite opp_len; congruence|exact Bb|apply bool_opp; exact Br]).
  assert (Ql : lz (sel_claim lsl)) by (apply (sel_claim_zero Hp); exact Bl). assert (Qr : lz (sel_claim rsl)) by (apply (sel_claim_zero Hp); exact Br).
  destruct (join_reduction_any w a b ls rs rx al asl bl bsl lsl rsl rl rrl d dbg G Ha Hb Hls Nls Hrs Nrs Hr Hn Hd HD)
    as [w1 [x1 [u1 [g1 [g11 [g12 [h1 [h1' [x2 [u2 [g2 [g21 [g22 [h2 [h2' [x3 [u3 [g3 [g31 [g32 [h3 [h3' [h4 [m4 [h5 [m5 [V1 [V2 [V3 [V4 [V5 R]]]]]]]]]]]]]]]]]]]]]]]]]]]]]]].
  exists w1, x1, u1, g1, g11, g12, h1, h1', x2, u2, g2, g21, g22, h2, h2', x3, u3, g3, g31, g32, h3, h3', h4, m4, h5, m5.
  split; [exact V1|]. split; [exact V2|]. split; [exact V3|]. split; [exact (V4 Bbm)|]. split; [exact (V5 Bam)|]. 
  destruct R as [R1 [R2 R3]]. split; [exact R1|]. split; [|exact R3]. eapply step_imp; [exact R2|]. clear - Ql Qr. tauto.
Qed.
End P.
