(** Bag equality, bag sum, inclusion and prescribed permutation: both sides of a run. *)
From Coq Require Import String List Arith Lia Bool ZArith Znumtheory.
Import ListNotations.
From Verif Require Import Res ResLemmas Fp FSum SpecMle SpecPoly PolyLemmas SpecKzg SpecTracker SpecIop ModelMle MleLemmas MleProofs MleExtra ModelVp ModelTranscript ModelSumcheck Pairing ModelKzg ModelBatch
  ModelProver ModelVerifier ModelAdvice ModelIop ProverHist VerifierHist CompileHist IopHist TmapLemmas ProverProofs ProverExtra ProverStep HistExtra IopWorld IopBasic LogDeriv BagLemmas AdviceProofs IopMulti.
Local Open Scope string_scope.
Local Open Scope list_scope.
Local Open Scope nat_scope.

Section P.
Context {p : positive} {E : pairing p}.
Add Ring Fq : (@F_ring p).
Notation comm := (gcar (PG1 E)).
Hypothesis Hp : prime (Zpos p).
Hypothesis H2 : 2 < fsize p.
Variable o : oracle p comm.
Variable pp : pparam E.
Variable K : nat.
Hypothesis Hpp : forall n l, n <= K -> length l = 2 ^ n -> exists c, kzg_commit pp (mkMle n l) = Ok c.
Variable D : nat.
Implicit Types (w : wd (E:=E)) (v : vtrk E).
Notation good := (good o pp K D).
Notation step := (step o pp K D).

(** A run of a protocol: the prover's call succeeds, draws [ds], its zero claims hold when [P] does, and the verifier's
    call succeeds exactly when [b] is true. *)
Definition ran w (r : res (ptrk E)) (ds : list (F p)) (P : Prop) (verify : bool -> vtrk E -> res (vtrk E)) (b : bool) : Prop :=
  exists w', r = Ok (ws w') /\ step w w' ds P /\
    forall cp vk N v debug, lk cp vk w v -> cov cp N w' -> exists v', verify debug v = (if b then Ok v' else Err IOPInvalidVerifier) /\ lk cp vk w' v' /\ vext v v'.

Lemma one_mle_ok : forall n, one_mle (p:=p) n = Ok (mkMle n (ones (2 ^ n))).
Proof. intros n. unfold one_mle, from_evaluations, ones. rewrite repeat_length, Nat.eqb_refl. reflexivity. Qed.
Lemma ones_len : forall n, length (ones (p:=p) n) = n. Proof. intros n. apply repeat_length. Qed.
Lemma Ok_pair : forall A B (x : A * B) y, Ok x = Ok y -> x = y. Proof. intros A B x y H. inversion H. reflexivity. Qed.

Lemma one_fun_ok : forall n k, k < 2 ^ n -> one_fun (p:=p) (bpoint n k) = Ok (nth k (ones (2 ^ n)) F0).
Proof. intros n k H. unfold one_fun, ones. f_equal. rewrite (nth_indep _ F0 F1) by (rewrite repeat_length; exact H). symmetry. apply nth_repeat. Qed.
Lemma items1 : forall (c : rdg (E:=E)) v b m l sl ml, bsays c v b l sl -> says c v m (bc_nv b) ml -> Forall2 (isays c v) (combine [b] [m]) [(l, sl, ml)].
Proof. intros c v b m l sl ml [A B] C. constructor; [|constructor]. split; [exact A|]. split; [exact B|exact C]. Qed.
Definition clear (g : F p) (l : list (F p)) : Prop := lz (phi_claim g l).

Lemma bag_eq_run : forall w fx gx l sl l' sl' d, good w -> hasb w fx l sl d -> hasb w gx l' sl' d -> b_nv fx = b_nv gx -> 1 <= d -> 2 * d + 1 <= D ->
  exists g,
    ran w (bag_eq_prove o (ws w) fx gx) [g] (clear g l /\ clear g l') (fun debug v => bag_eq_verify o debug v (comm_of fx) (comm_of gx))
      (Feqb (logd (wcol l sl (ones (length l))) g) (logd (wcol l' sl' (ones (length l'))) g)).
Proof.
  intros w fx gx l sl l' sl' d G Hf Hg Hn Hd HD. pose proof (hasb_says _ _ _ _ _ Hf) as I1. pose proof (hasb_says _ _ _ _ _ Hg) as I2. pose proof (step_refl o pp K D w G) as S.
  pose proof (hasb_len o pp K D _ _ _ _ _ G Hf) as [Lf [Lfs Kf]]. pose proof (hasb_len o pp K D _ _ _ _ _ G Hg) as [Lg [Lgs _]].
  destruct Hf as [F1' [F2' F3']], Hg as [G1' [G2' G3']].
  take S (call_tab o pp K D w (b_nv fx) (ones (2 ^ b_nv fx)) G (ones_len _) Kf ltac:(lia)) as w1 h1 E1 H1 N1 T1. apply Ok_pair in E1.
  apply (hasd_weak _ _ _ _ d) in H1; [|lia].
  destruct (multitool_run o pp K Hpp D Hp H2 w1 d [fx] [gx] [h1] [h1] [(l, sl, ones (2 ^ b_nv fx))] [(l', sl', ones (2 ^ b_nv fx))] ltac:(gd S)) as [w2 [g [E2 [S2 T2]]]]; try discriminate; try reflexivity; try assumption.
  { constructor; [|constructor]. repeat split; cbn [fst snd]; try assumption. rewrite N1. reflexivity. }
  { constructor; [|constructor]. repeat split; cbn [fst snd]; try assumption. rewrite N1. symmetry. exact Hn. }
  pass S S2. exists g, w2. split; [|split].
  - unfold bag_eq_prove. rewrite Hn, Nat.eqb_refl. cbn [ensure bind]. rewrite <- Hn, one_mle_ok. cbn [bind]. rewrite E1. exact E2.
  - eapply step_imp; [exact S|]. unfold phis_zero, clear. cbn [app]. rewrite !Forall_cons_iff. cbn [fst snd]. pose proof (Forall_nil (fun t : list (F p) * list (F p) * list (F p) => lz (phi_claim g (fst (fst t))))). tauto.
  - intros cp vk N v debug L Cv. unfold bag_eq_verify, track_virtual_comm. pose proof (I1 _ _ _ L) as J1. pose proof (I2 _ _ _ L) as J2. clear I1 I2. pose proof (vext_refl v) as V.
    destruct (T1 cp vk N v one_fun L ltac:(cvr) (one_fun_ok _)) as [v1 [-> [L1 [X1 Y1]]]]. vmove V X1.
    destruct (T2 cp vk N v1 [comm_of fx] [comm_of gx] [pt_next (ws w)] [pt_next (ws w)] debug L1 Cv) as [v2 [-> [L2 X2]]]; try reflexivity.
    { apply items1; [exact J1|exact Y1]. } { apply items1; [exact J2|]. cbn [comm_of bc_nv]. rewrite <- Hn. exact Y1. }
    exists v2. split; [|split; [exact L2|eapply vext_trans; eassumption]]. unfold wcols. cbn [flat_map fst snd]. rewrite !app_nil_r, Lf, Lg, <- Hn. reflexivity.
Qed.

Lemma bag_sum_run : forall w f0 f1 gx l0 sl0 l1 sl1 l sl d, good w -> hasb w f0 l0 sl0 d -> hasb w f1 l1 sl1 d -> hasb w gx l sl d -> 1 <= d -> 2 * d + 1 <= D ->
  exists g,
    ran w (bag_sum_prove o (ws w) f0 f1 gx) [g] (clear g l0 /\ clear g l1 /\ clear g l) (fun debug v => bag_sum_verify o debug v (comm_of f0) (comm_of f1) (comm_of gx))
      (Feqb (logd (wcol l0 sl0 (ones (length l0)) ++ wcol l1 sl1 (ones (length l1))) g) (logd (wcol l sl (ones (length l))) g)).
Proof.
  intros w f0 f1 gx l0 sl0 l1 sl1 l sl d G H0' H1' Hg Hd HD. pose proof (hasb_says _ _ _ _ _ H0') as I0. pose proof (hasb_says _ _ _ _ _ H1') as I1. pose proof (hasb_says _ _ _ _ _ Hg) as I2. pose proof (step_refl o pp K D w G) as S.
  pose proof (hasb_len o pp K D _ _ _ _ _ G H0') as [La [_ Ka]]. pose proof (hasb_len o pp K D _ _ _ _ _ G H1') as [Lb [_ Kb]]. pose proof (hasb_len o pp K D _ _ _ _ _ G Hg) as [Lc [_ Kc]].
  destruct H0' as [A1 [A2 A3]], H1' as [B1 [B2 B3]], Hg as [G1' [G2' G3']].
  take S (call_tab o pp K D w (b_nv f0) (ones (2 ^ b_nv f0)) G (ones_len _) Ka ltac:(lia)) as w1 h1 E1 H1 N1 T1. apply Ok_pair in E1.
  take S (call_tab o pp K D w1 (b_nv f1) (ones (2 ^ b_nv f1)) ltac:(gd S) (ones_len _) Kb ltac:(lia)) as w2 h2 E2 H2' N2 T2. apply Ok_pair in E2.
  take S (call_tab o pp K D w2 (b_nv gx) (ones (2 ^ b_nv gx)) ltac:(gd S) (ones_len _) Kc ltac:(lia)) as w3 h3 E3 H3 N3 T3. apply Ok_pair in E3.
  apply (hasd_weak _ _ _ _ d) in H1; [|lia]. apply (hasd_weak _ _ _ _ d) in H2'; [|lia]. apply (hasd_weak _ _ _ _ d) in H3; [|lia].
  destruct (multitool_run o pp K Hpp D Hp H2 w3 d [f0; f1] [gx] [h1; h2] [h3] [(l0, sl0, ones (2 ^ b_nv f0)); (l1, sl1, ones (2 ^ b_nv f1))] [(l, sl, ones (2 ^ b_nv gx))] ltac:(gd S)) as [w4 [g [E4 [S4 T4]]]]; try discriminate; try reflexivity; try assumption.
  { constructor; [|constructor; [|constructor]]; repeat split; cbn [fst snd]; try assumption; [rewrite N1; reflexivity|rewrite N2; reflexivity]. }
  { constructor; [|constructor]. repeat split; cbn [fst snd]; try assumption. rewrite N3. reflexivity. }
  pass S S4. exists g, w4. split; [|split].
  - unfold bag_sum_prove. rewrite !one_mle_ok. cbn [bind]. rewrite E1, E2, E3. exact E4.
  - eapply step_imp; [exact S|]. unfold phis_zero, clear. cbn [app]. rewrite !Forall_cons_iff. cbn [fst snd]. pose proof (Forall_nil (fun t : list (F p) * list (F p) * list (F p) => lz (phi_claim g (fst (fst t))))). tauto.
  - intros cp vk N v debug L Cv. unfold bag_sum_verify, track_virtual_comm. pose proof (I0 _ _ _ L) as J0. pose proof (I1 _ _ _ L) as J1. pose proof (I2 _ _ _ L) as J2. clear I0 I1 I2. pose proof (vext_refl v) as V.
    destruct (T1 cp vk N v one_fun L ltac:(cvr) (one_fun_ok _)) as [v1 [-> [L1 [X1 Y1]]]]. vmove V X1.
    destruct (T2 cp vk N v1 one_fun L1 ltac:(cvr) (one_fun_ok _)) as [v2 [-> [L2 [X2 Y2]]]]. vmove V X2.
    destruct (T3 cp vk N v2 one_fun L2 ltac:(cvr) (one_fun_ok _)) as [v3 [-> [L3 [X3 Y3]]]]. vmove V X3.
    destruct (T4 cp vk N v3 [comm_of f0; comm_of f1] [comm_of gx] [pt_next (ws w); pt_next (ws w)] [pt_next (ws w)] debug L3 Cv) as [v4 [-> [L4 X4]]]; try reflexivity.
    { destruct J0 as [J0a J0b], J1 as [J1a J1b]. constructor; [|constructor; [|constructor]]; (split; [|split]); cbn [fst snd comm_of bc_nv]; try assumption.
      apply (says_ones _ _ _ (b_nv f0)); [exact Y1|]. exact (proj1 (proj2 Y2)). }
    { apply items1; [exact J2|]. cbn [comm_of bc_nv]. apply (says_ones _ _ _ (b_nv f0)); [exact Y1|]. exact (proj1 (proj2 Y3)). }
    exists v4. split; [|split; [exact L4|eapply vext_trans; eassumption]]. unfold wcols. cbn [flat_map fst snd]. rewrite !app_nil_r, La, Lb, Lc. reflexivity.
Qed.

Lemma inclusion_wa_run : forall w fx gx m l sl l' sl' ml d, good w -> hasb w fx l sl d -> hasb w gx l' sl' d -> hasd w m ml d -> b_nv gx = tp_nv m -> 1 <= d -> 2 * d + 1 <= D ->
  exists g,
    ran w (inclusion_prove_with_advice o (ws w) fx gx m) [g] (clear g l /\ clear g l') (fun debug v => inclusion_verify_with_advice o debug v (comm_of fx) (comm_of gx) (tp_id m))
      (Feqb (logd (wcol l sl (ones (length l))) g) (logd (wcol l' sl' ml) g)).
Proof.
  intros w fx gx m l sl l' sl' ml d G Hf Hg Hm Hn Hd HD. pose proof (hasb_says _ _ _ _ _ Hf) as I1. pose proof (hasb_says _ _ _ _ _ Hg) as I2.
  pose proof (fun cp vk v (L : lk cp vk w v) => lk_says _ _ _ _ _ _ _ L Hm) as I3. pose proof (step_refl o pp K D w G) as S.
  pose proof (hasb_len o pp K D _ _ _ _ _ G Hf) as [Lf [Lfs Kf]]. pose proof (hasb_len o pp K D _ _ _ _ _ G Hg) as [Lg [Lgs _]].
  destruct Hf as [F1' [F2' F3']], Hg as [G1' [G2' G3']].
  take S (call_tab o pp K D w (b_nv fx) (ones (2 ^ b_nv fx)) G (ones_len _) Kf ltac:(lia)) as w1 h1 E1 H1 N1 T1. apply Ok_pair in E1.
  apply (hasd_weak _ _ _ _ d) in H1; [|lia].
  destruct (multitool_run o pp K Hpp D Hp H2 w1 d [fx] [gx] [h1] [m] [(l, sl, ones (2 ^ b_nv fx))] [(l', sl', ml)] ltac:(gd S)) as [w2 [g [E2 [S2 T2]]]]; try discriminate; try reflexivity; try assumption.
  { constructor; [|constructor]. repeat split; cbn [fst snd]; try assumption. rewrite N1. reflexivity. }
  { constructor; [|constructor]. repeat split; cbn [fst snd]; try assumption. }
  pass S S2. exists g, w2. split; [|split].
  - unfold inclusion_prove_with_advice. rewrite one_mle_ok. cbn [bind]. rewrite E1. exact E2.
  - eapply step_imp; [exact S|]. unfold phis_zero, clear. cbn [app]. rewrite !Forall_cons_iff. cbn [fst snd]. pose proof (Forall_nil (fun t : list (F p) * list (F p) * list (F p) => lz (phi_claim g (fst (fst t))))). tauto.
  - intros cp vk N v debug L Cv. unfold inclusion_verify_with_advice, track_virtual_comm. pose proof (I1 _ _ _ L) as J1. pose proof (I2 _ _ _ L) as J2. pose proof (I3 _ _ _ L) as J3. clear I1 I2 I3. pose proof (vext_refl v) as V.
    destruct (T1 cp vk N v one_fun L ltac:(cvr) (one_fun_ok _)) as [v1 [-> [L1 [X1 Y1]]]]. vmove V X1.
    destruct (T2 cp vk N v1 [comm_of fx] [comm_of gx] [pt_next (ws w)] [tp_id m] debug L1 Cv) as [v2 [-> [L2 X2]]]; try reflexivity.
    { apply items1; [exact J1|exact Y1]. } { apply items1; [exact J2|]. cbn [comm_of bc_nv]. rewrite Hn. exact J3. }
    exists v2. split; [|split; [exact L2|eapply vext_trans; eassumption]]. unfold wcols. cbn [flat_map fst snd]. rewrite !app_nil_r, Lf. reflexivity.
Qed.

(** Reading the evaluations of a bag's two polynomials. *)
Lemma from_evals : forall n (l : list (F p)), length l = 2 ^ n -> from_evaluations n l = Ok (mkMle n l).
Proof. intros n l H. unfold from_evaluations. rewrite H, Nat.eqb_refl. reflexivity. Qed.
Lemma incl_fold_total : forall (sl ssl : list (F p)) m, length ssl = length sl -> exists st, foldM (incl_step sl ssl) (m, []) (seq 0 (length sl)) = Ok st /\ length (snd st) = length sl.
Proof.
  clear Hp H2. intros sl ssl m Hs. destruct (foldM_inv _ (incl_step sl ssl) (fun i st => length (snd st) = i) (length sl) (m, [])) as [st [E1 I1]].
  - reflexivity.
  - intros i [m0 acc] Hi J. cbn [fst snd] in *. unfold incl_step. rewrite (rnth_ok _ ssl i F0) by lia. cbn [bind fst snd]. destruct (Feqb (nth i ssl F0) F0); [eexists; split; [reflexivity|]; cbn [snd]; rewrite app_length; cbn; lia|].
    rewrite (rnth_ok _ sl i F0) by lia. cbn [bind]. destruct (fget m0 _); eexists; (split; [reflexivity|]); cbn [snd]; rewrite app_length; cbn; lia.
  - exists st. split; assumption.
Qed.
Lemma inclusion_advice_any : forall n n' (il isl sl ssl : list (F p)), length il = length isl -> length sl = 2 ^ n -> length ssl = length sl ->
  exists m, inclusion_advice_mle (mkMle n' il) (mkMle n' isl) (mkMle n sl) (mkMle n ssl) = Ok (mkMle n m) /\ length m = length sl /\ (boolean ssl -> incl_weights il isl sl ssl m).
Proof.
  clear Hp H2. intros n n' il isl sl ssl H1 H3 H4.
  assert (X : exists m, inclusion_advice_mle (mkMle n' il) (mkMle n' isl) (mkMle n sl) (mkMle n ssl) = Ok (mkMle n m) /\ length m = length sl).
  { unfold inclusion_advice_mle, mle_multiplicity_count. cbn [evs nv]. destruct (count_ok il isl H1) as [m [-> Hm]]. cbn [bind]. destruct (incl_fold_total sl ssl m H4) as [st [-> I1]]. cbn [bind].
    unfold from_evaluations. rewrite I1, H3, Nat.eqb_refl. cbn [rassert bind]. exists (snd st). split; [reflexivity|congruence]. }
  destruct X as [m [E1 L1]]. exists m. split; [exact E1|]. split; [exact L1|]. intros Hb. destruct (inclusion_advice_ok n n' il isl sl ssl H1 H3 H4 Hb) as [m' [E1' W]]. rewrite E1 in E1'. injection E1' as <-. exact W.
Qed.
Lemma inclusion_advice_run_any : forall w fx gx l sl l' sl' d, good w -> hasb w fx l sl d -> hasb w gx l' sl' d ->
  exists w' ml, inclusion_advice (ws w) fx gx = Ok (mkMle (b_nv gx) ml, ws w') /\ (length ml = length l' /\ (boolean sl' -> incl_weights l sl l' sl' ml)) /\ step w w' [] True /\ (forall cp vk v, lk cp vk w v -> lk cp vk w' v).
Proof.
  intros w fx gx l sl l' sl' d G Hf Hg. pose proof (step_refl o pp K D w G) as S.
  pose proof (hasb_len o pp K D _ _ _ _ _ G Hf) as [Lf [Lfs Kf]]. pose proof (hasb_len o pp K D _ _ _ _ _ G Hg) as [Lg [Lgs _]].
  destruct Hf as [F1' [F2' F3']], Hg as [G1' [G2' G3']].
  peek S (call_evals o pp K D w (b_poly fx) l d G F1') as w1 E1 T1.
  peek S (call_evals o pp K D w1 (b_sel fx) sl d ltac:(gd S) F2') as w2 E2 T2.
  peek S (call_evals o pp K D w2 (b_poly gx) l' d ltac:(gd S) G1') as w3 E3 T3.
  peek S (call_evals o pp K D w3 (b_sel gx) sl' d ltac:(gd S) G2') as w4 E4 T4.
  destruct (inclusion_advice_any (b_nv gx) (b_nv fx) l sl l' sl') as [ml [A1 A2]]; try congruence; try assumption.
  exists w4, ml. split; [|split; [exact A2|split; [eapply step_imp; [exact S|tauto]|auto]]].
  unfold inclusion_advice. rewrite E1. cbn [bind]. rewrite (from_evals _ _ Lf). cbn [bind]. rewrite E2. cbn [bind]. rewrite (from_evals _ _ Lfs). cbn [bind]. rewrite E3. cbn [bind].
  rewrite (from_evals _ _ Lg). cbn [bind]. rewrite E4. cbn [bind]. rewrite (from_evals _ _ Lgs). cbn [bind]. rewrite A1. reflexivity.
Qed.

Lemma inclusion_advice_run : forall w fx gx l sl l' sl' d, good w -> hasb w fx l sl d -> hasb w gx l' sl' d -> boolean sl' ->
  exists w' ml, inclusion_advice (ws w) fx gx = Ok (mkMle (b_nv gx) ml, ws w') /\ incl_weights l sl l' sl' ml /\ step w w' [] True /\ (forall cp vk v, lk cp vk w v -> lk cp vk w' v).
Proof. intros w fx gx l sl l' sl' d G Hf Hg Hb. destruct (inclusion_advice_run_any w fx gx l sl l' sl' d G Hf Hg) as [w' [ml [E1 [[_ W] R]]]]. exists w', ml. split; [exact E1|]. split; [exact (W Hb)|exact R]. Qed.

Lemma inclusion_run_any : forall w fx gx l sl l' sl' d, good w -> hasb w fx l sl d -> hasb w gx l' sl' d -> 1 <= d -> 2 * d + 1 <= D ->
  exists g ml, (length ml = length l' /\ (boolean sl' -> incl_weights l sl l' sl' ml)) /\
    ran w (inclusion_prove o (ws w) fx gx) [g] (clear g l /\ clear g l') (fun debug v => inclusion_verify o debug v (comm_of fx) (comm_of gx))
      (Feqb (logd (wcol l sl (ones (length l))) g) (logd (wcol l' sl' ml) g)).
Proof.
  intros w fx gx l sl l' sl' d G Hf Hg Hd HD. pose proof (step_refl o pp K D w G) as S.
  pose proof (hasb_len o pp K D _ _ _ _ _ G Hf) as [Lf [Lfs Kf]]. pose proof (hasb_len o pp K D _ _ _ _ _ G Hg) as [Lg [Lgs Kg]].
  destruct (inclusion_advice_run_any w fx gx l sl l' sl' d G Hf Hg) as [w1 [ml [E1 [HW [S1 T1]]]]].
  pass S S1.
  assert (Lm : length ml = 2 ^ b_nv gx) by (destruct HW as [HW _]; congruence).
  destruct (call_commit o pp K Hpp D w1 (b_nv gx) ml ltac:(gd S) Lm Kg ltac:(lia)) as [w2 [h2 [E2 [C2 [H2' [N2 T2]]]]]]. pose proof (callp_step _ _ _ _ _ _ C2) as S2.
  pass S S2.
  apply (hasd_weak _ _ _ _ d) in H2'; [|lia].
  destruct (inclusion_wa_run w2 fx gx h2 l sl l' sl' ml d ltac:(gd S) Hf Hg H2') as [g [w3 [E3 [S3 T3]]]]; [rewrite N2; reflexivity|exact Hd|exact HD|].
  exists g, ml. split; [exact HW|]. pass S S3. exists w3. split; [|split].
  - unfold inclusion_prove. rewrite E1. cbn [bind]. rewrite E2. cbn [bind]. exact E3.
  - eapply step_imp; [exact S|]. tauto.
  - intros cp vk N v debug L Cv. unfold inclusion_verify. destruct (T2 cp vk N v debug (T1 _ _ _ L) ltac:(cvr)) as [v2 [-> [L2 [X2 _]]]]. cbn [bind].
    destruct (T3 cp vk N v2 debug L2 Cv) as [v3 [-> [L3 X3]]]. exists v3. split; [reflexivity|]. split; [exact L3|eapply vext_trans; eassumption].
Qed.
Lemma inclusion_run : forall w fx gx l sl l' sl' d, good w -> hasb w fx l sl d -> hasb w gx l' sl' d -> boolean sl' -> 1 <= d -> 2 * d + 1 <= D ->
  exists g ml, incl_weights l sl l' sl' ml /\
    ran w (inclusion_prove o (ws w) fx gx) [g] (clear g l /\ clear g l') (fun debug v => inclusion_verify o debug v (comm_of fx) (comm_of gx))
      (Feqb (logd (wcol l sl (ones (length l))) g) (logd (wcol l' sl' ml) g)).
Proof. intros w fx gx l sl l' sl' d G Hf Hg Hb Hd HD. destruct (inclusion_run_any w fx gx l sl l' sl' d G Hf Hg Hd HD) as [g [ml [[_ W] R]]]. exists g, ml. split; [exact (W Hb)|exact R]. Qed.
End P.
