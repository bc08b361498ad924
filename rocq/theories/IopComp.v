(** Both sides of a run for the protocols composed of others: supports, disjoint bags and the set operations. *)
From Coq Require Import String List Arith Lia Bool ZArith Znumtheory Permutation.
Import ListNotations.
From Verif Require Import Res ResLemmas Fp FSum SpecMle SpecPoly PolyLemmas SpecKzg SpecTracker SpecIop SpecRel ModelMle MleLemmas MleProofs MleExtra ModelVp ModelTranscript ModelSumcheck Pairing ModelKzg ModelBatch
  ModelProver ModelVerifier ModelAdvice ModelIop ProverHist VerifierHist CompileHist IopHist TmapLemmas ProverProofs ProverExtra ProverStep HistExtra IopWorld IopBasic LogDeriv BagLemmas AdviceProofs AdviceProofs2 AdviceProofs3
  IopMulti IopRuns IopSort.
Local Open Scope string_scope.
Local Open Scope list_scope.
Local Open Scope nat_scope.

Section P.
Context {p : positive} {E : pairing p}.
Add Ring Fq : (@F_ring p).
Notation comm := (gcar (PG1 E)).
Hypothesis Hp : prime (Zpos p).
Hypothesis H2 : 2 < fsize p.
Variable o : oracle p comm.
Variable pp : pparam E.
Variable K : nat.
Hypothesis Hpp : forall n l, n <= K -> length l = 2 ^ n -> exists c, kzg_commit pp (mkMle n l) = Ok c.
Variable D : nat.
Implicit Types (w : wd (E:=E)) (v : vtrk E).
Notation good := (good o pp K D).
Notation step := (step o pp K D).
Notation ran := (ran o pp K D).
Notation verifying := (bool -> vtrk E -> res (vtrk E)).

(** ** Sequences of runs *)
Definition ran_at w w' (r : res (ptrk E)) (ds : list (F p)) (P : Prop) (verify : verifying) (b : bool) : Prop :=
  r = Ok (ws w') /\ step w w' ds P /\
    forall cp vk N v debug, lk cp vk w v -> cov cp N w' -> exists v', verify debug v = (if b then Ok v' else Err IOPInvalidVerifier) /\ lk cp vk w' v' /\ vext v v'.
Lemma ran_step : forall w w' r ds P ver b, ran_at w w' r ds P ver b -> step w w' ds P. Proof. intros w w' r ds P ver b H. apply H. Qed.
Lemma ran_good : forall w w' r ds P ver b, ran_at w w' r ds P ver b -> good w'. Proof. intros w w' r ds P ver b H. apply H. Qed.
Lemma ran_le : forall w w' r ds P ver b, ran_at w w' r ds P ver b -> le w w'. Proof. intros w w' r ds P ver b H. apply H. Qed.

Lemma ran_then : forall w w1 r (f : ptrk E -> res (ptrk E)) ds ds' P P' (ver ver' : verifying) b b', ran_at w w1 r ds P ver b -> ran w1 (f (ws w1)) ds' P' ver' b' ->
  ran w (bind r f) (ds ++ ds') (P /\ P') (fun debug v => v <- ver debug v ;; ver' debug v) (b && b').
Proof.
  intros w w1 r f ds ds' P P' ver ver' b b' [E1 [S1 T1]] [w2 [E2 [S2 T2]]]. exists w2. split; [rewrite E1; exact E2|]. split; [eapply step_trans; eassumption|].
  intros cp vk N v debug L Cv. pose proof (cov_le _ _ _ _ _ _ _ _ (step_good _ _ _ _ _ _ _ _ S1) (step_le _ _ _ _ _ _ _ _ S2) Cv) as Cv1.
  destruct (T1 cp vk N v debug L Cv1) as [v1 [X1 [L1 V1]]]. destruct (T2 cp vk N v1 debug L1 Cv) as [v2 [X2 [L2 V2]]]. exists v2.
  split; [|split; [exact L2|eapply vext_trans; eassumption]]. rewrite X1. destruct b; [exact X2|reflexivity].
Qed.
Lemma ran_ext : forall w r r' ds P P' (ver ver' : verifying) b b', ran w r ds P ver b -> r' = r -> (P <-> P') -> (forall debug v, ver' debug v = ver debug v) -> b' = b -> ran w r' ds P' ver' b'.
Proof.
  intros w r r' ds P P' ver ver' b b' [w1 [E1 [S1 T1]]] -> HP HV ->. exists w1. split; [exact E1|]. split; [eapply step_imp; eassumption|]. intros cp vk N v debug L Cv.
  destruct (T1 cp vk N v debug L Cv) as [v1 [X1 Y]]. exists v1. rewrite HV. auto.
Qed.
(** After a call that concerns the prover alone. *)
Lemma ran_after : forall A w w1 (r : res (A * ptrk E)) x (f : A * ptrk E -> res (ptrk E)) ds P (ver : verifying) b, r = Ok (x, ws w1) -> step w w1 [] True -> (forall cp vk v, lk cp vk w v -> lk cp vk w1 v) ->
  ran w1 (f (x, ws w1)) ds P ver b -> ran w (bind r f) ds P ver b.
Proof.
  intros A w w1 r x f ds P ver b E1 S1 T1 [w2 [E2 [S2 T2]]]. exists w2. split; [rewrite E1; exact E2|]. pose proof (step_trans _ _ _ _ _ _ _ _ _ _ _ S1 S2) as S. cbn [app] in S. split; [eapply step_imp; [exact S|tauto]|].
  intros cp vk N v debug L Cv. exact (T2 cp vk N v debug (T1 cp vk v L) Cv).
Qed.
(** After committing to a table. *)
Definition committed w w1 (m : mle p) (h : tpoly) : Prop := tp_commit (ws w) m = Ok (h, ws w1) /\ step w w1 [] True /\ h = mkTp (pt_next (ws w)) (nv m) /\
  forall cp vk N v debug, lk cp vk w v -> cov cp N w1 -> exists v', v_transfer debug v = Ok (tp_id h, v') /\ lk cp vk w1 v' /\ vext v v'.
Lemma commit_run : forall w n l d, good w -> length l = 2 ^ n -> n <= K -> 1 <= D -> 1 <= d -> exists w1 h, committed w w1 (mkMle n l) h /\ hasd w1 h l d /\ tp_nv h = n.
Proof.
  intros w n l d G Hl Hn HD Hd. destruct (call_commit o pp K Hpp D w n l G Hl Hn HD) as [w1 [h [E1 [C1 [H1 [N1 T1]]]]]]. exists w1, h. split; [|split; [eapply hasd_weak; [exact H1|exact Hd]|rewrite N1; reflexivity]].
  split; [exact E1|]. split; [apply callp_step; exact C1|]. split; [exact N1|]. intros cp vk N v debug L Cv. destruct (T1 cp vk N v debug L Cv) as [v' [X [Y [Z _]]]]. exists v'. auto.
Qed.
Lemma commit_full : forall w n l d, good w -> length l = 2 ^ n -> n <= K -> 1 <= D -> 1 <= d -> exists w1 h, In (h, l) (wf w1) /\ committed w w1 (mkMle n l) h /\ hasd w1 h l d /\ tp_nv h = n.
Proof.
  intros w n l d G Hl Hn HD Hd. destruct (call_commit_full o pp K Hpp D w n l G Hl Hn HD) as [w1 [h [I1 [E1 [C1 [H1 [N1 T1]]]]]]]. exists w1, h. split; [exact I1|]. split; [|split; [eapply hasd_weak; [exact H1|exact Hd]|rewrite N1; reflexivity]].
  split; [exact E1|]. split; [apply callp_step; exact C1|]. split; [exact N1|]. intros cp vk N v debug L Cv. destruct (T1 cp vk N v debug L Cv) as [v' [X [Y [Z _]]]]. exists v'. auto.
Qed.
Lemma ran_commit : forall w w1 m h (f : tpoly * ptrk E -> res (ptrk E)) ds P (ver : nat -> verifying) b, committed w w1 m h -> ran w1 (f (h, ws w1)) ds P (ver (tp_id h)) b ->
  ran w (bind (tp_commit (ws w) m) f) ds P (fun debug v => ' (c, v) <- v_transfer debug v ;; ver c debug v) b.
Proof.
  intros w w1 m h f ds P ver b [E1 [S1 [_ T1]]] [w2 [E2 [S2 T2]]]. exists w2. split; [rewrite E1; exact E2|]. pose proof (step_trans _ _ _ _ _ _ _ _ _ _ _ S1 S2) as S. cbn [app] in S. split; [eapply step_imp; [exact S|tauto]|].
  intros cp vk N v debug L Cv. pose proof (cov_le _ _ _ _ _ _ _ _ (step_good _ _ _ _ _ _ _ _ S1) (step_le _ _ _ _ _ _ _ _ S2) Cv) as Cv1.
  destruct (T1 cp vk N v debug L Cv1) as [v1 [X1 [L1 V1]]]. destruct (T2 cp vk N v1 debug L1 Cv) as [v2 [X2 [L2 V2]]]. exists v2. rewrite X1. cbn [bind]. split; [exact X2|]. split; [exact L2|eapply vext_trans; eassumption].
Qed.

Lemma no_zeros_ran : forall w b l sl d, good w -> hasb w b l sl d -> 1 <= d -> 2 * d + 1 <= D ->
  ran w (no_zeros_prove (ws w) b) [] (lz (nz_claim l sl)) (fun debug v => no_zeros_verify debug v (comm_of b)) true.
Proof.
  intros w b l sl d G [B1 [B2 B3]] Hd HD. destruct (no_zeros_run o pp K Hpp D w b l sl d G B1 B2 B3 Hd HD) as [w1 [E1 [S1 T1]]]. exists w1. split; [exact E1|]. split; [exact S1|].
  intros cp vk N v debug L Cv. exact (T1 cp vk N v debug L Cv).
Qed.
Lemma selector_ran : forall w sel l d, good w -> hasd w sel l d -> 1 <= d -> 2 * d <= D ->
  ran w (selector_valid_prove (ws w) sel) [] (lz (sel_claim l)) (fun debug v => selector_valid_verify v (tp_id sel)) true.
Proof.
  intros w sel l d G H Hd HD. destruct (selector_run o pp K D w sel l d G H Hd HD) as [w1 [E1 [S1 T1]]]. exists w1. split; [exact E1|]. split; [exact S1|].
  intros cp vk N v debug L Cv. exact (T1 cp vk N v L Cv).
Qed.
(** A product claimed to be zero. *)
Lemma zero_mul_ran : forall w a b la lb da db, good w -> hasd w a la da -> hasd w b lb db -> tp_nv a = tp_nv b -> da + db <= D ->
  ran w (' (m, s) <- tp_mul (ws w) a b ;; Ok (add_zerocheck_claim s (tp_id m))) [] (lz (zipw Fmul la lb)) (fun debug v => let '(m, v) := mul_comms v (tp_id a) (tp_id b) in Ok (v_add_zerocheck_claim v m)) true.
Proof.
  intros w a b la lb da db G Ha Hb Hn HD. pose proof (fun cp vk v (L : lk cp vk w v) => lk_says _ _ _ _ _ _ _ L Ha) as I1. pose proof (fun cp vk v (L : lk cp vk w v) => lk_says _ _ _ _ _ _ _ L Hb) as I2. pose proof (step_refl o pp K D w G) as S.
  take S (call_mul o pp K D w a b la lb da db G Ha Hb Hn HD) as w1 h1 E1 H1 N1 T1.
  destruct (zero_step o pp K D w1 h1 _ _ ltac:(gd S) H1) as [w2 [E2 [S2 T2]]]. pass S S2. exists w2. split; [rewrite E1; cbn [bind]; rewrite E2; reflexivity|]. split; [eapply step_imp; [exact S|tauto]|].
  intros cp vk N v debug L Cv. unfold mul_comms. pose proof (I1 _ _ _ L) as J1. pose proof (I2 _ _ _ L) as J2. clear I1 I2. pose proof (vext_refl v) as V. subst h1.
  vtake V L T1 as v1 L1 Y1. eexists. split; [reflexivity|]. split; [exact (T2 cp vk v1 L1)|]. eapply vext_trans; [exact V|apply vext_same; reflexivity].
Qed.

(** ** Sorting, as a condition on its challenges and a verdict *)
Definition sort_claims (n : nat) (l sl rl : list (F p)) (g g1 g2 : F p) : Prop :=
  clear g1 (hats g (ordered_evals n) l) /\ clear g2 (diffs l) /\ clear g2 rl /\ lz (nz_claim (diffs l) sl).
Definition sort_fits (l rl ml : list (F p)) (g2 : F p) : bool := Feqb (logd (wcol (diffs l) (dsel (length l)) (ones (length l))) g2) (logd (wcol rl (ones (length rl)) ml) g2).
Definition incl_fits (l sl l' sl' ml : list (F p)) (g : F p) : bool := Feqb (logd (wcol l sl (ones (length l))) g) (logd (wcol l' sl' ml) g).
Definition range_weights (l rl ml : list (F p)) : Prop := incl_weights (diffs l) (dsel (length l)) rl (ones (length rl)) ml.

Lemma ran_some : forall w r ds P ver b, ran w r ds P ver b -> exists w1, ran_at w w1 r ds P ver b. Proof. intros w r ds P ver b H. exact H. Qed.
Lemma at_ran : forall w w1 r ds P ver b, ran_at w w1 r ds P ver b -> ran w r ds P ver b. Proof. intros w w1 r ds P ver b H. exists w1. exact H. Qed.
Lemma incl_wa_at : forall w fx gx m l sl l' sl' ml d, good w -> hasb w fx l sl d -> hasb w gx l' sl' d -> hasd w m ml d -> b_nv gx = tp_nv m -> 1 <= d -> 2 * d + 1 <= D ->
  exists w1 h, ran_at w w1 (inclusion_prove_with_advice o (ws w) fx gx m) [h] (clear h l /\ clear h l') (fun debug v => inclusion_verify_with_advice o debug v (comm_of fx) (comm_of gx) (tp_id m)) (incl_fits l sl l' sl' ml h).
Proof. intros w fx gx m l sl l' sl' ml d G H1 H3 H4 H5 H6 H7. destruct (inclusion_wa_run Hp H2 o pp K Hpp D w fx gx m l sl l' sl' ml d G H1 H3 H4 H5 H6 H7) as [h [w1 R]]. exists w1, h. exact R. Qed.
Lemma incl_at : forall w fx gx l sl l' sl' d, good w -> hasb w fx l sl d -> hasb w gx l' sl' d -> boolean sl' -> 1 <= d -> 2 * d + 1 <= D ->
  exists w1 h ml, incl_weights l sl l' sl' ml /\ ran_at w w1 (inclusion_prove o (ws w) fx gx) [h] (clear h l /\ clear h l') (fun debug v => inclusion_verify o debug v (comm_of fx) (comm_of gx)) (incl_fits l sl l' sl' ml h).
Proof. intros w fx gx l sl l' sl' d G H1 H3 H4 H5 H6. destruct (inclusion_run Hp H2 o pp K Hpp D w fx gx l sl l' sl' d G H1 H3 H4 H5 H6) as [h [ml [W [w1 R]]]]. exists w1, h, ml. split; [exact W|exact R]. Qed.
Lemma incl_at_any : forall w fx gx l sl l' sl' d, good w -> hasb w fx l sl d -> hasb w gx l' sl' d -> 1 <= d -> 2 * d + 1 <= D ->
  exists w1 h ml, (boolean sl' -> incl_weights l sl l' sl' ml) /\ ran_at w w1 (inclusion_prove o (ws w) fx gx) [h] (clear h l /\ clear h l') (fun debug v => inclusion_verify o debug v (comm_of fx) (comm_of gx)) (incl_fits l sl l' sl' ml h).
Proof. intros w fx gx l sl l' sl' d G H1 H3 H5 H6. destruct (inclusion_run_any Hp H2 o pp K Hpp D w fx gx l sl l' sl' d G H1 H3 H5 H6) as [h [ml [[_ W] [w1 R]]]]. exists w1, h, ml. split; [exact W|exact R]. Qed.
Lemma sort_at : forall w fx rx l sl rl rsl d dbg, good w -> hasb w fx l sl d -> hasb w rx rl rsl d -> 1 <= d -> 2 * d + 3 <= D ->
  exists w1 g g1 g2 wl, range_weights l rl wl /\ ran_at w w1 (strict_sort_prove o dbg (ws w) fx rx) [g; g1; g2] (sort_claims (b_nv fx) l sl rl g g1 g2) (fun debug v => strict_sort_verify o debug v (comm_of fx) (comm_of rx)) (sort_fits l rl wl g2).
Proof. intros w fx rx l sl rl rsl d dbg G H1 H3 H4 H5. destruct (strict_sort_run Hp H2 o pp K Hpp D w fx rx l sl rl rsl d dbg G H1 H3 H4 H5) as [g [g1 [g2 [wl [W [w1 R]]]]]]. exists w1, g, g1, g2, wl. split; [exact W|exact R]. Qed.
Definition sum_fits (l0 sl0 l1 sl1 l sl : list (F p)) (g : F p) : bool := Feqb (logd (wcol l0 sl0 (ones (length l0)) ++ wcol l1 sl1 (ones (length l1))) g) (logd (wcol l sl (ones (length l))) g).
Lemma sum_at : forall w f0 f1 gx l0 sl0 l1 sl1 l sl d, good w -> hasb w f0 l0 sl0 d -> hasb w f1 l1 sl1 d -> hasb w gx l sl d -> 1 <= d -> 2 * d + 1 <= D ->
  exists w1 g, ran_at w w1 (bag_sum_prove o (ws w) f0 f1 gx) [g] (clear g l0 /\ clear g l1 /\ clear g l) (fun debug v => bag_sum_verify o debug v (comm_of f0) (comm_of f1) (comm_of gx)) (sum_fits l0 sl0 l1 sl1 l sl g).
Proof. intros w f0 f1 gx l0 sl0 l1 sl1 l sl d G H1 H3 H4 H5 H6. destruct (bag_sum_run Hp H2 o pp K Hpp D w f0 f1 gx l0 sl0 l1 sl1 l sl d G H1 H3 H4 H5 H6) as [g [w1 R]]. exists w1, g. exact R. Qed.
Ltac on R := let G := fresh "G" in let L := fresh "L" in pose proof (ran_good _ _ _ _ _ _ _ R) as G; pose proof (ran_le _ _ _ _ _ _ _ R) as L;
  match type of R with ran_at ?w _ _ _ _ _ _ => match goal with H : good w |- _ => carry H L end end.
Ltac onc R := let S := fresh "S" in let G := fresh "G" in let L := fresh "L" in pose proof (proj1 (proj2 R)) as S; pose proof (step_good _ _ _ _ _ _ _ _ S) as G; pose proof (step_le _ _ _ _ _ _ _ _ S) as L;
  match type of R with committed ?w _ _ _ => match goal with H : good w |- _ => carry H L end end; clear S.
Ltac ons S := let G := fresh "G" in let L := fresh "L" in pose proof (step_good _ _ _ _ _ _ _ _ S) as G; pose proof (step_le _ _ _ _ _ _ _ _ S) as L;
  match type of S with IopWorld.step _ _ _ _ ?w _ _ _ => match goal with H : good w |- _ => carry H L end end.

(** ** Supports *)
Lemma supp_wa_at : forall w b sup m rx l sl l' sl' ml rl rsl d dbg, good w -> hasb w b l sl d -> hasb w sup l' sl' d -> hasd w m ml d -> b_nv sup = tp_nv m -> hasb w rx rl rsl d -> 1 <= d -> 2 * d + 3 <= D ->
  exists w1 h g g1 g2 wl, range_weights l' rl wl /\
    ran_at w w1 (supp_prove_with_advice o dbg (ws w) b sup m rx) [h; g; g1; g2] ((clear h l /\ clear h l') /\ lz (nz_claim ml sl') /\ sort_claims (b_nv sup) l' sl' rl g g1 g2)
      (fun debug v => supp_verify_with_advice o debug v (comm_of b) (comm_of sup) (tp_id m) (comm_of rx)) (incl_fits l sl l' sl' ml h && sort_fits l' rl wl g2).
Proof.
  intros w b sup m rx l sl l' sl' ml rl rsl d dbg G Hb Hs Hm Hn Hr Hd HD.
  destruct (incl_wa_at w b sup m l sl l' sl' ml d G Hb Hs Hm Hn Hd ltac:(lia)) as [w1 [h R1]]. on R1.
  assert (Hb' : hasb w1 (mkBag m (b_sel sup)) ml sl' d) by (destruct Hs as [S1 [S2 S3]]; split; [exact Hm|split; [exact S2|cbn; rewrite <- Hn; exact S3]]).
  destruct (ran_some _ _ _ _ _ _ (no_zeros_ran w1 _ _ _ d G0 Hb' Hd ltac:(lia))) as [w2 R2]. on R2.
  destruct (sort_at w2 sup rx l' sl' rl rsl d dbg G1 Hs Hr Hd HD) as [w3 [g [g1 [g2 [wl [HW R3]]]]]].
  pose proof (ran_then w1 w2 _ (fun s => strict_sort_prove o dbg s sup rx) _ _ _ _ _ _ _ _ R2 (at_ran _ _ _ _ _ _ _ R3)) as R4. cbn [app andb] in R4.
  pose proof (ran_then w w1 _ (fun s => s <- no_zeros_prove s (mkBag m (b_sel sup)) ;; strict_sort_prove o dbg s sup rx) _ _ _ _ _ _ _ _ R1 R4) as R6. cbn [app] in R6.
  assert (R7 : ran w (supp_prove_with_advice o dbg (ws w) b sup m rx) [h; g; g1; g2] ((clear h l /\ clear h l') /\ lz (nz_claim ml sl') /\ sort_claims (b_nv sup) l' sl' rl g g1 g2)
      (fun debug v => supp_verify_with_advice o debug v (comm_of b) (comm_of sup) (tp_id m) (comm_of rx)) (incl_fits l sl l' sl' ml h && sort_fits l' rl wl g2)).
  { eapply ran_ext; [exact R6| |reflexivity| |reflexivity].
    - unfold supp_prove_with_advice. rewrite bag_new_ok; [reflexivity|]. destruct Hs as [_ [_ S3]]. unfold b_nv in Hn. congruence.
    - intros debug v. unfold supp_verify_with_advice. destruct (inclusion_verify_with_advice o debug v (comm_of b) (comm_of sup) (tp_id m)); [|reflexivity|reflexivity]. cbn [bind].
      assert (X : comm_of (mkBag m (b_sel sup)) = mkBagc (tp_id m) (bc_sel (comm_of sup)) (bc_nv (comm_of sup))) by (unfold comm_of; cbn [b_poly b_sel bc_sel bc_nv]; f_equal; rewrite Hn; reflexivity). rewrite X. reflexivity. }
  destruct R7 as [w4 R7]. exists w4, h, g, g1, g2, wl. split; [exact HW|exact R7].
Qed.
Lemma supp_at : forall w b sup rx l sl l' sl' rl rsl d dbg, good w -> hasb w b l sl d -> hasb w sup l' sl' d -> hasb w rx rl rsl d -> boolean sl' -> 1 <= d -> 2 * d + 3 <= D ->
  exists w1 h g g1 g2 ml wl, incl_weights l sl l' sl' ml /\ range_weights l' rl wl /\
    ran_at w w1 (supp_prove o dbg (ws w) b sup rx) [h; g; g1; g2] ((clear h l /\ clear h l') /\ lz (nz_claim ml sl') /\ sort_claims (b_nv sup) l' sl' rl g g1 g2)
      (fun debug v => supp_verify o debug v (comm_of b) (comm_of sup) (comm_of rx)) (incl_fits l sl l' sl' ml h && sort_fits l' rl wl g2).
Proof.
  intros w b sup rx l sl l' sl' rl rsl d dbg G Hb Hs Hr Bs Hd HD. pose proof (hasb_len o pp K D _ _ _ _ _ G Hs) as [Lg [Lgs Kg]].
  destruct (inclusion_advice_run o pp K D w b sup l sl l' sl' d G Hb Hs Bs) as [w1 [ml [E1 [HW [S1 T1]]]]]. ons S1.
  assert (Lm : length ml = 2 ^ b_nv sup) by (destruct HW as [HW _]; congruence).
  destruct (commit_run w1 (b_nv sup) ml d ltac:(assumption) Lm Kg ltac:(lia) Hd) as [w2 [m [C2 [H2' N2]]]]. onc C2.
  destruct (supp_wa_at w2 b sup m rx l sl l' sl' ml rl rsl d dbg ltac:(assumption) Hb Hs H2' (eq_sym N2) Hr Hd HD) as [w3 [h [g [g1 [g2 [wl [HW' R]]]]]]].
  pose proof (ran_commit w1 w2 _ m (fun x => let '(m, s) := x in supp_prove_with_advice o dbg s b sup m rx) _ _ (fun m debug v => supp_verify_with_advice o debug v (comm_of b) (comm_of sup) m (comm_of rx)) _ C2 (at_ran _ _ _ _ _ _ _ R)) as R3.
  pose proof (ran_after _ w w1 _ _ (fun x => let '(m, s) := x in ' (m, s) <- tp_commit s m ;; supp_prove_with_advice o dbg s b sup m rx) _ _ _ _ E1 S1 T1 R3) as [w4 R4].
  exists w4, h, g, g1, g2, ml, wl. split; [exact HW|]. split; [exact HW'|exact R4].
Qed.

(** ** Disjoint bags *)
Lemma evals_at : forall w a la da, good w -> hasd w a la da -> exists w1, tp_evaluations (ws w) a = Ok (la, ws w1) /\ step w w1 [] True /\ (forall cp vk v, lk cp vk w v -> lk cp vk w1 v).
Proof. intros w a la da G H. destruct (call_evals o pp K D w a la da G H) as [w1 [E1 [C1 T1]]]. exists w1. split; [exact E1|]. split; [apply callp_step; exact C1|exact T1]. Qed.
(** Reading four columns in a row. *)
Lemma evals4_at : forall w a b c e la lb lc le' da, good w -> hasd w a la da -> hasd w b lb da -> hasd w c lc da -> hasd w e le' da ->
  exists w1 w2 w3 w4, tp_evaluations (ws w) a = Ok (la, ws w1) /\ tp_evaluations (ws w1) b = Ok (lb, ws w2) /\ tp_evaluations (ws w2) c = Ok (lc, ws w3) /\ tp_evaluations (ws w3) e = Ok (le', ws w4) /\
    step w w4 [] True /\ (forall cp vk v, lk cp vk w v -> lk cp vk w4 v).
Proof.
  intros w a b c e la lb lc le' da G Ha Hb Hc He. destruct (evals_at w a la da G Ha) as [w1 [E1 [S1 T1]]]. ons S1. destruct (evals_at w1 b lb da ltac:(assumption) Hb) as [w2 [E2 [S2 T2]]]. ons S2.
  destruct (evals_at w2 c lc da ltac:(assumption) Hc) as [w3 [E3 [S3 T3]]]. ons S3. destruct (evals_at w3 e le' da ltac:(assumption) He) as [w4 [E4 [S4 T4]]]. ons S4.
  exists w1, w2, w3, w4. split; [exact E1|]. split; [exact E2|]. split; [exact E3|]. split; [exact E4|]. split; [|intros; apply T4, T3, T2, T1; assumption].
  eapply step_imp; [exact (step_trans _ _ _ _ _ _ _ _ _ _ _ S1 (step_trans _ _ _ _ _ _ _ _ _ _ _ S2 (step_trans _ _ _ _ _ _ _ _ _ _ _ S3 S4)))|tauto].
Qed.
Lemma disjoint_wa_at : forall w a b c ma mb rx l sl l' sl' cl csl mal mbl rl rsl d dbg, good w -> hasb w a l sl d -> hasb w b l' sl' d -> hasb w c cl csl d -> hasd w ma mal d -> hasd w mb mbl d ->
  b_nv c = tp_nv ma -> b_nv c = tp_nv mb -> hasb w rx rl rsl d -> 1 <= d -> 2 * d + 3 <= D ->
  exists w1 g g1 g2 h h' wl, range_weights cl rl wl /\
    ran_at w w1 (bag_disjoint_prove_with_advice o dbg (ws w) a b c ma mb rx) [g; g1; g2; h; h'] (sort_claims (b_nv c) cl csl rl g g1 g2 /\ lz (zipw Fmul mal mbl) /\ (clear h l /\ clear h cl) /\ clear h' l' /\ clear h' cl)
      (fun debug v => bag_disjoint_verify_with_advice o debug v (comm_of a) (comm_of b) (comm_of c) (tp_id ma) (tp_id mb) (comm_of rx)) (sort_fits cl rl wl g2 && (incl_fits l sl cl csl mal h && incl_fits l' sl' cl csl mbl h')).
Proof.
  intros w a b c ma mb rx l sl l' sl' cl csl mal mbl rl rsl d dbg G Ha Hb Hc Hma Hmb Na Nb Hr Hd HD.
  destruct (sort_at w c rx cl csl rl rsl d dbg G Hc Hr Hd HD) as [w1 [g [g1 [g2 [wl [HW R1]]]]]]. on R1.
  destruct (ran_some _ _ _ _ _ _ (zero_mul_ran w1 ma mb mal mbl d d ltac:(assumption) Hma Hmb ltac:(congruence) ltac:(lia))) as [w2 R2]. on R2.
  destruct (incl_wa_at w2 a c ma l sl cl csl mal d ltac:(assumption) Ha Hc Hma Na Hd ltac:(lia)) as [w3 [h R3]]. on R3.
  destruct (incl_wa_at w3 b c mb l' sl' cl csl mbl d ltac:(assumption) Hb Hc Hmb Nb Hd ltac:(lia)) as [w4 [h' R4]]. on R4.
  pose proof (ran_then _ _ _ (fun s => inclusion_prove_with_advice o s b c mb) _ _ _ _ _ _ _ _ R3 (at_ran _ _ _ _ _ _ _ R4)) as X1. cbn [app] in X1.
  pose proof (ran_then _ _ _ (fun s => s <- inclusion_prove_with_advice o s a c ma ;; inclusion_prove_with_advice o s b c mb) _ _ _ _ _ _ _ _ R2 X1) as X2. cbn [app andb] in X2.
  pose proof (ran_then _ _ _ (fun s => s <- (' (m, s) <- tp_mul s ma mb ;; Ok (add_zerocheck_claim s (tp_id m))) ;; s <- inclusion_prove_with_advice o s a c ma ;; inclusion_prove_with_advice o s b c mb) _ _ _ _ _ _ _ _ R1 X2) as X3. cbn [app] in X3.
  assert (X4 : ran w (bag_disjoint_prove_with_advice o dbg (ws w) a b c ma mb rx) [g; g1; g2; h; h'] (sort_claims (b_nv c) cl csl rl g g1 g2 /\ lz (zipw Fmul mal mbl) /\ (clear h l /\ clear h cl) /\ clear h' l' /\ clear h' cl)
      (fun debug v => bag_disjoint_verify_with_advice o debug v (comm_of a) (comm_of b) (comm_of c) (tp_id ma) (tp_id mb) (comm_of rx)) (sort_fits cl rl wl g2 && (incl_fits l sl cl csl mal h && incl_fits l' sl' cl csl mbl h'))).
  { eapply ran_ext; [exact X3| |reflexivity| |reflexivity].
    - unfold bag_disjoint_prove_with_advice. destruct (strict_sort_prove o dbg (ws w) c rx) as [s| |]; [|reflexivity|reflexivity]. cbn [bind]. destruct (tp_mul s ma mb) as [[m s']| |]; reflexivity.
    - intros debug v. unfold bag_disjoint_verify_with_advice. destruct (strict_sort_verify o debug v (comm_of c) (comm_of rx)) as [v1| |]; [|reflexivity|reflexivity]. cbn [bind]. destruct (mul_comms v1 (tp_id ma) (tp_id mb)) as [m v2]. reflexivity. }
  destruct X4 as [w5 X4]. exists w5, g, g1, g2, h, h', wl. split; [exact HW|exact X4].
Qed.
Lemma comm_two : forall x y n, tp_nv x = n -> comm_of (mkBag x y) = mkBagc (tp_id x) (tp_id y) n. Proof. intros x y n <-. reflexivity. Qed.

(** The merged support of two bags: unselected zeros, then the values of both in ascending order. *)
Definition merged_sel (n : nat) (vals : list (F p)) : list (F p) := repeat F0 (2 ^ n - length vals) ++ repeat F1 (length vals).
Definition merged_count (n : nat) (vals l sl : list (F p)) : list (F p) := repeat F0 (2 ^ n - length vals) ++ map (fun x => ofN (count_occ F_dec (rows l sl) x)) vals.
Lemma bag_disjoint_at : forall w a b rx l sl l' sl' rl rsl d dbg, good w -> hasb w a l sl d -> hasb w b l' sl' d -> hasb w rx rl rsl d -> let n := Nat.max (b_nv a) (b_nv b) + 1 in n <= K -> 1 <= d -> 2 * d + 3 <= D ->
  exists vals, ascending vals /\ (forall x, In x vals <-> In x (rows l sl) \/ In x (rows l' sl')) /\ length vals <= 2 ^ n /\
  let cl := merged n vals in let csl := merged_sel n vals in let mal := merged_count n vals l sl in let mbl := merged_count n vals l' sl' in
  exists w1 g g1 g2 h h' wl, range_weights cl rl wl /\
    ran_at w w1 (bag_disjoint_prove o dbg (ws w) a b rx) [g; g1; g2; h; h'] (sort_claims n cl csl rl g g1 g2 /\ lz (zipw Fmul mal mbl) /\ (clear h l /\ clear h cl) /\ clear h' l' /\ clear h' cl)
      (fun debug v => bag_disjoint_verify o debug v (comm_of a) (comm_of b) (comm_of rx)) (sort_fits cl rl wl g2 && (incl_fits l sl cl csl mal h && incl_fits l' sl' cl csl mbl h')).
Proof.
  intros w a b rx l sl l' sl' rl rsl d dbg G Ha Hb Hr n Hn Hd HD. pose proof (hasb_len o pp K D _ _ _ _ _ G Ha) as [La [Las Ka]]. pose proof (hasb_len o pp K D _ _ _ _ _ G Hb) as [Lb [Lbs Kb]].
  destruct (disjoint_advice_ok (b_nv a) (b_nv b) l sl l' sl' La Las Lb Lbs) as [vals [V1 [V2 V3]]]. cbv zeta in V3. fold n in V3. destruct V3 as [V3 V4]. exists vals. split; [exact V1|]. split; [exact V2|]. split; [exact V3|]. cbv zeta.
  change (disjoint_advice (b_nv a) (b_nv b) l sl l' sl' = Ok (mkMle n (merged n vals), mkMle n (merged_sel n vals), mkMle n (merged_count n vals l sl), mkMle n (merged_count n vals l' sl'))) in V4.
  assert (Q1 : length (merged n vals) = 2 ^ n) by (unfold merged; rewrite app_length, repeat_length; lia).
  assert (Q2 : length (merged_sel n vals) = 2 ^ n) by (unfold merged_sel; rewrite app_length, !repeat_length; lia).
  assert (Q3 : forall l sl, length (merged_count n vals l sl) = 2 ^ n) by (intros; unfold merged_count; rewrite app_length, map_length, repeat_length; lia).
  pose proof (Q3 l sl) as Q4. pose proof (Q3 l' sl') as Q5. clear Q3.
  set (cl := merged n vals) in *. set (csl := merged_sel n vals) in *. set (mal := merged_count n vals l sl) in *. set (mbl := merged_count n vals l' sl') in *. clearbody cl csl mal mbl.
  pose proof Ha as [A1 [A2 A3]]. pose proof Hb as [B1 [B2 B3]].
  destruct (evals4_at w _ _ _ _ _ _ _ _ d G A1 A2 B1 B2) as [w1 [w2 [w3 [w4 [E1 [E2 [E3 [E4 [S4 T4]]]]]]]]]. ons S4. clear A1 A2 A3 B1 B2 B3.
  destruct (commit_run w4 n cl d ltac:(assumption) Q1 Hn ltac:(lia) Hd) as [w5 [hc [C5 [H5 N5]]]]. onc C5.
  destruct (commit_run w5 n csl d ltac:(assumption) Q2 Hn ltac:(lia) Hd) as [w6 [hs [C6 [H6 N6]]]]. onc C6.
  destruct (commit_run w6 n mal d ltac:(assumption) Q4 Hn ltac:(lia) Hd) as [w7 [ma [C7 [H7 N7]]]]. onc C7.
  destruct (commit_run w7 n mbl d ltac:(assumption) Q5 Hn ltac:(lia) Hd) as [w8 [mb [C8 [H8 N8]]]]. onc C8.
  assert (Hc : hasb w8 (mkBag hc hs) cl csl d) by (split; [exact H5|split; [exact H6|cbn; congruence]]).
  destruct (disjoint_wa_at w8 a b (mkBag hc hs) ma mb rx l sl l' sl' cl csl mal mbl rl rsl d dbg ltac:(assumption) Ha Hb Hc H7 H8) as [w9 [g [g1 [g2 [h [h' [wl [HW R]]]]]]]]; [unfold b_nv; cbn; congruence|unfold b_nv; cbn; congruence|exact Hr|exact Hd|exact HD|].
  rewrite (comm_two hc hs n N5) in R. replace (b_nv (mkBag hc hs)) with n in R by (symmetry; exact N5).
  pose proof (ran_commit w7 w8 _ mb (fun x => let '(mb, s) := x in bag_disjoint_prove_with_advice o dbg s a b (mkBag hc hs) ma mb rx) _ _ (fun mb debug v => bag_disjoint_verify_with_advice o debug v (comm_of a) (comm_of b) (mkBagc (tp_id hc) (tp_id hs) n) (tp_id ma) mb (comm_of rx)) _ C8 (at_ran _ _ _ _ _ _ _ R)) as R1.
  pose proof (ran_commit w6 w7 _ ma (fun x => let '(ma, s) := x in ' (mb, s) <- tp_commit s (mkMle n mbl) ;; bag_disjoint_prove_with_advice o dbg s a b (mkBag hc hs) ma mb rx) _ _
    (fun ma debug v => ' (mb, v) <- v_transfer debug v ;; bag_disjoint_verify_with_advice o debug v (comm_of a) (comm_of b) (mkBagc (tp_id hc) (tp_id hs) n) ma mb (comm_of rx)) _ C7 R1) as R2.
  pose proof (ran_commit w5 w6 _ hs (fun x => let '(hs, s) := x in ' (ma, s) <- tp_commit s (mkMle n mal) ;; ' (mb, s) <- tp_commit s (mkMle n mbl) ;; bag_disjoint_prove_with_advice o dbg s a b (mkBag hc hs) ma mb rx) _ _
    (fun hs debug v => ' (ma, v) <- v_transfer debug v ;; ' (mb, v) <- v_transfer debug v ;; bag_disjoint_verify_with_advice o debug v (comm_of a) (comm_of b) (mkBagc (tp_id hc) hs n) ma mb (comm_of rx)) _ C6 R2) as R3.
  pose proof (ran_commit w4 w5 _ hc (fun x => let '(hc, s) := x in ' (hs, s) <- tp_commit s (mkMle n csl) ;; ' (ma, s) <- tp_commit s (mkMle n mal) ;; ' (mb, s) <- tp_commit s (mkMle n mbl) ;; bag_disjoint_prove_with_advice o dbg s a b (mkBag hc hs) ma mb rx) _ _
    (fun hc debug v => ' (hs, v) <- v_transfer debug v ;; ' (ma, v) <- v_transfer debug v ;; ' (mb, v) <- v_transfer debug v ;; bag_disjoint_verify_with_advice o debug v (comm_of a) (comm_of b) (mkBagc hc hs n) ma mb (comm_of rx)) _ C5 R3) as R4.
  assert (X : disjoint_advice_bag (ws w) a b = Ok ((mkMle n cl, mkMle n csl, mkMle n mal, mkMle n mbl), ws w4)).
  { unfold disjoint_advice_bag. rewrite E1. cbn [bind]. rewrite E2. cbn [bind]. rewrite E3. cbn [bind]. rewrite E4. cbn [bind]. rewrite V4. reflexivity. }
  pose proof (ran_after _ w w4 _ _ (fun x => ' (hc, s) <- tp_commit (snd x) (mkMle n cl) ;; ' (hs, s) <- tp_commit s (mkMle n csl) ;; ' (ma, s) <- tp_commit s (mkMle n mal) ;; ' (mb, s) <- tp_commit s (mkMle n mbl) ;; bag_disjoint_prove_with_advice o dbg s a b (mkBag hc hs) ma mb rx) _ _ _ _ X S4 T4 R4) as R5.
  match type of R5 with IopRuns.ran _ _ _ _ _ _ ?ds ?P _ ?bb => assert (R6 : ran w (bag_disjoint_prove o dbg (ws w) a b rx) ds P (fun debug v => bag_disjoint_verify o debug v (comm_of a) (comm_of b) (comm_of rx)) bb) end.
  { eapply ran_ext; [exact R5| |reflexivity|reflexivity|reflexivity]. unfold bag_disjoint_prove. rewrite X. cbn [bind snd].
    destruct C5 as [C5 _], C6 as [C6 _]. rewrite C5. cbn [bind]. rewrite C6. cbn [bind]. rewrite bag_new_ok by congruence. reflexivity. }
  destruct R6 as [wz R6]. exists wz, g, g1, g2, h, h', wl. split; [exact HW|exact R6].
Qed.

(** ** Set operations *)
Lemma set_disjoint_at : forall w a b rx l sl l' sl' rl rsl d dbg, good w -> hasb w a l sl d -> hasb w b l' sl' d -> hasb w rx rl rsl d -> boolean sl -> boolean sl' -> let n := Nat.max (b_nv a) (b_nv b) + 1 in n <= K -> 1 <= d -> 2 * d + 3 <= D ->
  exists cl csl, length cl = 2 ^ n /\ length csl = 2 ^ n /\ boolean csl /\ Permutation (rows cl csl) (rows l sl ++ rows l' sl') /\
    (forall i j, i < j -> j < 2 ^ n -> (val (nth i cl F0) <= val (nth j cl F0))%Z) /\ (NoDup (rows l sl ++ rows l' sl') -> forall i, S i < 2 ^ n -> nth i csl F0 <> F0 -> nth (S i) cl F0 <> nth i cl F0) /\
  exists w1 h g g1 g2 wl, range_weights cl rl wl /\
    ran_at w w1 (set_disjoint_prove o dbg (ws w) a b rx) [h; g; g1; g2] ((clear h l /\ clear h l' /\ clear h cl) /\ sort_claims n cl csl rl g g1 g2)
      (fun debug v => set_disjoint_verify o debug v (comm_of a) (comm_of b) (comm_of rx)) (sum_fits l sl l' sl' cl csl h && sort_fits cl rl wl g2).
Proof.
  intros w a b rx l sl l' sl' rl rsl d dbg G Ha Hb Hr Ba Bb n Hn Hd HD. pose proof (hasb_len o pp K D _ _ _ _ _ G Ha) as [La [Las Ka]]. pose proof (hasb_len o pp K D _ _ _ _ _ G Hb) as [Lb [Lbs Kb]].
  destruct (set_disjoint_sum_ok (b_nv a) (b_nv b) l l' sl sl' La Las Lb Lbs Ba Bb) as [cl [csl [V1 [V2 [V3 [V4 [V5 [V6 V7]]]]]]]]. fold n in V1, V2, V3, V6, V7. exists cl, csl. split; [exact V2|]. split; [exact V3|]. split; [exact V4|]. split; [exact V5|]. split; [exact V6|]. split; [exact V7|].
  pose proof Ha as [A1 [A2 A3]]. pose proof Hb as [B1 [B2 B3]].
  destruct (evals4_at w _ _ _ _ _ _ _ _ d G A1 B1 A2 B2) as [w1 [w2 [w3 [w4 [E1 [E2 [E3 [E4 [S4 T4]]]]]]]]]. ons S4. clear A1 A2 A3 B1 B2 B3.
  destruct (commit_run w4 n cl d ltac:(assumption) V2 Hn ltac:(lia) Hd) as [w5 [hc [C5 [H5 N5]]]]. onc C5.
  destruct (commit_run w5 n csl d ltac:(assumption) V3 Hn ltac:(lia) Hd) as [w6 [hs [C6 [H6 N6]]]]. onc C6.
  assert (Hc : hasb w6 (mkBag hc hs) cl csl d) by (split; [exact H5|split; [exact H6|cbn; congruence]]).
  destruct (sum_at w6 a b (mkBag hc hs) l sl l' sl' cl csl d ltac:(assumption) Ha Hb Hc Hd ltac:(lia)) as [w7 [h R7]]. on R7.
  destruct (sort_at w7 (mkBag hc hs) rx cl csl rl rsl d dbg ltac:(assumption) Hc Hr Hd HD) as [w8 [g [g1 [g2 [wl [HW R8]]]]]].
  pose proof (ran_then _ _ _ (fun s => strict_sort_prove o dbg s (mkBag hc hs) rx) _ _ _ _ _ _ _ _ R7 (at_ran _ _ _ _ _ _ _ R8)) as R. cbn [app] in R.
  rewrite (comm_two hc hs n N5) in R. replace (b_nv (mkBag hc hs)) with n in R by (symmetry; exact N5).
  pose proof (ran_commit w5 w6 _ hs (fun x => let '(hs, s) := x in s <- bag_sum_prove o s a b (mkBag hc hs) ;; strict_sort_prove o dbg s (mkBag hc hs) rx) _ _
    (fun hs debug v => v <- bag_sum_verify o debug v (comm_of a) (comm_of b) (mkBagc (tp_id hc) hs n) ;; strict_sort_verify o debug v (mkBagc (tp_id hc) hs n) (comm_of rx)) _ C6 R) as R3.
  pose proof (ran_commit w4 w5 _ hc (fun x => let '(hc, s) := x in ' (hs, s) <- tp_commit s (mkMle n csl) ;; s <- bag_sum_prove o s a b (mkBag hc hs) ;; strict_sort_prove o dbg s (mkBag hc hs) rx) _ _
    (fun hc debug v => ' (hs, v) <- v_transfer debug v ;; v <- bag_sum_verify o debug v (comm_of a) (comm_of b) (mkBagc hc hs n) ;; strict_sort_verify o debug v (mkBagc hc hs n) (comm_of rx)) _ C5 R3) as R4.
  set (rr := ' (ap, s) <- tp_evaluations (ws w) (b_poly a) ;; ' (bp, s) <- tp_evaluations s (b_poly b) ;; ' (asl, s) <- tp_evaluations s (b_sel a) ;; ' (bsl, s) <- tp_evaluations s (b_sel b) ;; Ok (tt, s)).
  assert (X : rr = Ok (tt, ws w4)) by (unfold rr; rewrite E1; cbn [bind]; rewrite E2; cbn [bind]; rewrite E3; cbn [bind]; rewrite E4; reflexivity).
  pose proof (ran_after _ w w4 rr tt (fun x => ' (hc, s) <- tp_commit (snd x) (mkMle n cl) ;; ' (hs, s) <- tp_commit s (mkMle n csl) ;; s <- bag_sum_prove o s a b (mkBag hc hs) ;; strict_sort_prove o dbg s (mkBag hc hs) rx) _ _ _ _ X S4 T4 R4) as R5.
  match type of R5 with IopRuns.ran _ _ _ _ _ _ ?ds ?P _ ?bb => assert (R6 : ran w (set_disjoint_prove o dbg (ws w) a b rx) ds P (fun debug v => set_disjoint_verify o debug v (comm_of a) (comm_of b) (comm_of rx)) bb) end.
  { eapply ran_ext; [exact R5| |reflexivity|reflexivity|reflexivity]. rewrite X. unfold set_disjoint_prove. rewrite E1. cbn [bind]. rewrite E2. cbn [bind]. rewrite E3. cbn [bind]. rewrite E4. cbn [bind]. rewrite V1. cbn [bind snd].
    destruct C5 as [C5 _], C6 as [C6 _]. rewrite C5. cbn [bind]. rewrite C6. cbn [bind]. rewrite bag_new_ok by congruence. reflexivity. }
  destruct R6 as [wz R6]. exists wz, h, g, g1, g2, wl. split; [exact HW|exact R6].
Qed.
Lemma set_union_at : forall w a b un rx l sl l' sl' ul usl rl rsl d dbg, good w -> hasb w a l sl d -> hasb w b l' sl' d -> hasb w un ul usl d -> hasb w rx rl rsl d -> boolean usl -> let n := Nat.max (b_nv a) (b_nv b) + 1 in n <= K -> 1 <= d -> 2 * d + 3 <= D ->
  exists cl csl, length cl = 2 ^ n /\ length csl = 2 ^ n /\ rows cl csl = rows l sl ++ rows l' sl' /\ (boolean sl -> boolean sl' -> boolean csl) /\
  exists w1 h0 h g g1 g2 ml wl, incl_weights cl csl ul usl ml /\ range_weights ul rl wl /\
    ran_at w w1 (set_union_prove o dbg (ws w) a b un rx) [h0; h; g; g1; g2] ((clear h0 l /\ clear h0 l' /\ clear h0 cl) /\ (clear h cl /\ clear h ul) /\ lz (nz_claim ml usl) /\ sort_claims (b_nv un) ul usl rl g g1 g2)
      (fun debug v => set_union_verify o debug v (comm_of a) (comm_of b) (comm_of un) (comm_of rx)) (sum_fits l sl l' sl' cl csl h0 && (incl_fits cl csl ul usl ml h && sort_fits ul rl wl g2)).
Proof.
  intros w a b un rx l sl l' sl' ul usl rl rsl d dbg G Ha Hb Hu Hr Bu n Hn Hd HD. pose proof (hasb_len o pp K D _ _ _ _ _ G Ha) as [La [Las Ka]]. pose proof (hasb_len o pp K D _ _ _ _ _ G Hb) as [Lb [Lbs Kb]].
  destruct (set_union_sum_ok (b_nv a) (b_nv b) l l' sl sl' La Las Lb Lbs) as [cl [csl [V1 [V2 [V3 [V4 V5]]]]]]. fold n in V1, V2, V3. exists cl, csl. split; [exact V2|]. split; [exact V3|]. split; [exact V4|]. split; [exact V5|].
  pose proof Ha as [A1 [A2 A3]]. pose proof Hb as [B1 [B2 B3]].
  destruct (evals4_at w _ _ _ _ _ _ _ _ d G A1 B1 A2 B2) as [w1 [w2 [w3 [w4 [E1 [E2 [E3 [E4 [S4 T4]]]]]]]]]. ons S4. clear A1 A2 A3 B1 B2 B3.
  destruct (commit_run w4 n cl d ltac:(assumption) V2 Hn ltac:(lia) Hd) as [w5 [hc [C5 [H5 N5]]]]. onc C5.
  destruct (commit_run w5 n csl d ltac:(assumption) V3 Hn ltac:(lia) Hd) as [w6 [hs [C6 [H6 N6]]]]. onc C6.
  assert (Hc : hasb w6 (mkBag hc hs) cl csl d) by (split; [exact H5|split; [exact H6|cbn; congruence]]).
  destruct (sum_at w6 a b (mkBag hc hs) l sl l' sl' cl csl d ltac:(assumption) Ha Hb Hc Hd ltac:(lia)) as [w7 [h0 R7]]. on R7.
  destruct (supp_at w7 (mkBag hc hs) un rx cl csl ul usl rl rsl d dbg ltac:(assumption) Hc Hu Hr Bu Hd HD) as [w8 [h [g [g1 [g2 [ml [wl [HW [HW' R8]]]]]]]]].
  pose proof (ran_then _ _ _ (fun s => supp_prove o dbg s (mkBag hc hs) un rx) _ _ _ _ _ _ _ _ R7 (at_ran _ _ _ _ _ _ _ R8)) as R. cbn [app] in R.
  rewrite (comm_two hc hs n N5) in R.
  pose proof (ran_commit w5 w6 _ hs (fun x => let '(hs, s) := x in s <- bag_sum_prove o s a b (mkBag hc hs) ;; supp_prove o dbg s (mkBag hc hs) un rx) _ _
    (fun hs debug v => v <- bag_sum_verify o debug v (comm_of a) (comm_of b) (mkBagc (tp_id hc) hs n) ;; supp_verify o debug v (mkBagc (tp_id hc) hs n) (comm_of un) (comm_of rx)) _ C6 R) as R3.
  pose proof (ran_commit w4 w5 _ hc (fun x => let '(hc, s) := x in ' (hs, s) <- tp_commit s (mkMle n csl) ;; s <- bag_sum_prove o s a b (mkBag hc hs) ;; supp_prove o dbg s (mkBag hc hs) un rx) _ _
    (fun hc debug v => ' (hs, v) <- v_transfer debug v ;; v <- bag_sum_verify o debug v (comm_of a) (comm_of b) (mkBagc hc hs n) ;; supp_verify o debug v (mkBagc hc hs n) (comm_of un) (comm_of rx)) _ C5 R3) as R4.
  set (rr := ' (ap, s) <- tp_evaluations (ws w) (b_poly a) ;; ' (bp, s) <- tp_evaluations s (b_poly b) ;; ' (asl, s) <- tp_evaluations s (b_sel a) ;; ' (bsl, s) <- tp_evaluations s (b_sel b) ;; Ok (tt, s)).
  assert (X : rr = Ok (tt, ws w4)) by (unfold rr; rewrite E1; cbn [bind]; rewrite E2; cbn [bind]; rewrite E3; cbn [bind]; rewrite E4; reflexivity).
  pose proof (ran_after _ w w4 rr tt (fun x => ' (hc, s) <- tp_commit (snd x) (mkMle n cl) ;; ' (hs, s) <- tp_commit s (mkMle n csl) ;; s <- bag_sum_prove o s a b (mkBag hc hs) ;; supp_prove o dbg s (mkBag hc hs) un rx) _ _ _ _ X S4 T4 R4) as R5.
  match type of R5 with IopRuns.ran _ _ _ _ _ _ ?ds ?P _ ?bb => assert (R6 : ran w (set_union_prove o dbg (ws w) a b un rx) ds P (fun debug v => set_union_verify o debug v (comm_of a) (comm_of b) (comm_of un) (comm_of rx)) bb) end.
  { eapply ran_ext; [exact R5| |reflexivity|reflexivity|reflexivity]. rewrite X. unfold set_union_prove. rewrite E1. cbn [bind]. rewrite E2. cbn [bind]. rewrite E3. cbn [bind]. rewrite E4. cbn [bind]. rewrite V1. cbn [bind snd].
    destruct C5 as [C5 _], C6 as [C6 _]. rewrite C5. cbn [bind]. rewrite C6. cbn [bind]. rewrite bag_new_ok by congruence. reflexivity. }
  destruct R6 as [wz R6]. exists wz, h0, h, g, g1, g2, ml, wl. split; [exact HW|]. split; [exact HW'|exact R6].
Qed.
Lemma set_diff_at : forall w a b lb mb bm rx al asl bl bsl ll lsl ml msl bml rl rsl d dbg, good w -> hasb w a al asl d -> hasb w b bl bsl d -> hasb w lb ll lsl d -> hasb w mb ml msl d -> hasd w bm bml d -> b_nv b = tp_nv bm -> hasb w rx rl rsl d ->
  boolean lsl -> boolean bsl -> let n := Nat.max (b_nv lb) (b_nv b) + 1 in n <= K -> 1 <= d -> 2 * d + 3 <= D ->
  exists cl csl, length cl = 2 ^ n /\ length csl = 2 ^ n /\ boolean csl /\ Permutation (rows cl csl) (rows ll lsl ++ rows bl bsl) /\
    (forall i j, i < j -> j < 2 ^ n -> (val (nth i cl F0) <= val (nth j cl F0))%Z) /\ (NoDup (rows ll lsl ++ rows bl bsl) -> forall i, S i < 2 ^ n -> nth i csl F0 <> F0 -> nth (S i) cl F0 <> nth i cl F0) /\
  exists w1 h g g1 g2 h1 h2 wl, range_weights cl rl wl /\
    ran_at w w1 (set_diff_prove o dbg (ws w) a b lb mb bm rx) [h; g; g1; g2; h1; h2] (((clear h ll /\ clear h bl /\ clear h cl) /\ sort_claims n cl csl rl g g1 g2) /\ (clear h1 ll /\ clear h1 ml /\ clear h1 al) /\ clear h2 ml /\ clear h2 bl)
      (fun debug v => set_diff_verify o debug v (comm_of a) (comm_of b) (comm_of lb) (comm_of mb) (tp_id bm) (comm_of rx)) ((sum_fits ll lsl bl bsl cl csl h && sort_fits cl rl wl g2) && (sum_fits ll lsl ml msl al asl h1 && incl_fits ml msl bl bsl bml h2)).
Proof.
  intros w a b lb mb bm rx al asl bl bsl ll lsl ml msl bml rl rsl d dbg G Ha Hb Hl Hm Hbm Nb Hr Bl Bb n Hn Hd HD.
  destruct (set_disjoint_at w lb b rx ll lsl bl bsl rl rsl d dbg G Hl Hb Hr Bl Bb Hn Hd HD) as [cl [csl [V1 [V2 [V3 [V4 [V5 [V6 [w1 [h [g [g1 [g2 [wl [HW R1]]]]]]]]]]]]]]]. exists cl, csl. split; [exact V1|]. split; [exact V2|]. split; [exact V3|]. split; [exact V4|]. split; [exact V5|]. split; [exact V6|]. on R1.
  destruct (sum_at w1 lb mb a ll lsl ml msl al asl d ltac:(assumption) Hl Hm Ha Hd ltac:(lia)) as [w2 [h1 R2]]. on R2.
  destruct (incl_wa_at w2 mb b bm ml msl bl bsl bml d ltac:(assumption) Hm Hb Hbm Nb Hd ltac:(lia)) as [w3 [h2 R3]].
  pose proof (ran_then _ _ _ (fun s => inclusion_prove_with_advice o s mb b bm) _ _ _ _ _ _ _ _ R2 (at_ran _ _ _ _ _ _ _ R3)) as X1. cbn [app] in X1.
  pose proof (ran_then _ _ _ (fun s => s <- bag_sum_prove o s lb mb a ;; inclusion_prove_with_advice o s mb b bm) _ _ _ _ _ _ _ _ R1 X1) as [w4 X2]. cbn [app] in X2.
  exists w4, h, g, g1, g2, h1, h2, wl. split; [exact HW|exact X2].
Qed.
Lemma set_intersect_at : forall w a b lb mb rb rx al asl bl bsl ll lsl ml msl sl ssl rl rsl d dbg, good w -> hasb w a al asl d -> hasb w b bl bsl d -> hasb w lb ll lsl d -> hasb w mb ml msl d -> hasb w rb sl ssl d -> hasb w rx rl rsl d ->
  boolean lsl -> boolean ssl -> let n := Nat.max (b_nv lb) (b_nv rb) + 1 in n <= K -> 1 <= d -> 2 * d + 3 <= D ->
  exists cl csl, length cl = 2 ^ n /\ length csl = 2 ^ n /\ boolean csl /\ Permutation (rows cl csl) (rows ll lsl ++ rows sl ssl) /\
    (forall i j, i < j -> j < 2 ^ n -> (val (nth i cl F0) <= val (nth j cl F0))%Z) /\ (NoDup (rows ll lsl ++ rows sl ssl) -> forall i, S i < 2 ^ n -> nth i csl F0 <> F0 -> nth (S i) cl F0 <> nth i cl F0) /\
  exists w1 h1 h2 h g g1 g2 wl, range_weights cl rl wl /\
    ran_at w w1 (set_intersect_prove o dbg (ws w) a b lb mb rb rx) [h1; h2; h; g; g1; g2] ((clear h1 ll /\ clear h1 ml /\ clear h1 al) /\ (clear h2 ml /\ clear h2 sl /\ clear h2 bl) /\ (clear h ll /\ clear h sl /\ clear h cl) /\ sort_claims n cl csl rl g g1 g2)
      (fun debug v => set_intersect_verify o debug v (comm_of a) (comm_of b) (comm_of lb) (comm_of mb) (comm_of rb) (comm_of rx)) (sum_fits ll lsl ml msl al asl h1 && (sum_fits ml msl sl ssl bl bsl h2 && (sum_fits ll lsl sl ssl cl csl h && sort_fits cl rl wl g2))).
Proof.
  intros w a b lb mb rb rx al asl bl bsl ll lsl ml msl sl ssl rl rsl d dbg G Ha Hb Hl Hm Hs Hr Bl Bs n Hn Hd HD.
  destruct (sum_at w lb mb a ll lsl ml msl al asl d ltac:(assumption) Hl Hm Ha Hd ltac:(lia)) as [w1 [h1 R1]]. on R1.
  destruct (sum_at w1 mb rb b ml msl sl ssl bl bsl d ltac:(assumption) Hm Hs Hb Hd ltac:(lia)) as [w2 [h2 R2]]. on R2.
  destruct (set_disjoint_at w2 lb rb rx ll lsl sl ssl rl rsl d dbg ltac:(assumption) Hl Hs Hr Bl Bs Hn Hd HD) as [cl [csl [V1 [V2 [V3 [V4 [V5 [V6 [w3 [h [g [g1 [g2 [wl [HW R3]]]]]]]]]]]]]]]. exists cl, csl. split; [exact V1|]. split; [exact V2|]. split; [exact V3|]. split; [exact V4|]. split; [exact V5|]. split; [exact V6|].
  pose proof (ran_then _ _ _ (fun s => set_disjoint_prove o dbg s lb rb rx) _ _ _ _ _ _ _ _ R2 (at_ran _ _ _ _ _ _ _ R3)) as X1. cbn [app] in X1.
  pose proof (ran_then _ _ _ (fun s => s <- bag_sum_prove o s mb rb b ;; set_disjoint_prove o dbg s lb rb rx) _ _ _ _ _ _ _ _ R1 X1) as [w4 X2]. cbn [app] in X2.
  exists w4, h1, h2, h, g, g1, g2, wl. split; [exact HW|exact X2].
Qed.
End P.
