(** Selector validity and absence of zeros: both sides of a run. *)
From Coq Require Import String List Arith Lia Bool ZArith Znumtheory.
Import ListNotations.
From Verif Require Import Res ResLemmas Fp FSum SpecMle SpecKzg SpecTracker SpecIop ModelMle MleLemmas MleProofs MleExtra ModelVp ModelTranscript ModelSumcheck Pairing ModelKzg ModelBatch
  ModelProver ModelVerifier ModelAdvice ModelIop ProverHist VerifierHist CompileHist IopHist TmapLemmas ProverProofs ProverExtra ProverStep HistExtra IopWorld.
Local Open Scope string_scope.
Local Open Scope list_scope.
Local Open Scope nat_scope.

Section T.
Context {p : positive}.
Add Ring Fr : (@F_ring p).
Implicit Types l m : list (F p).
Definition lz l : Prop := Forall (fun y => y = F0) l.
Lemma lz_nth : forall l, lz l <-> forall k, k < length l -> nth k l F0 = F0.
Proof.
  intros l. unfold lz. rewrite Forall_forall. split; intros H.
  - intros k Hk. apply H. apply nth_In. exact Hk.
  - intros x Hx. apply (In_nth _ _ F0) in Hx. destruct Hx as [k [Hk <-]]. auto.
Qed.
Lemma Forall_nth_iff : forall (P : F p -> Prop) l, Forall P l <-> forall k, k < length l -> P (nth k l F0).
Proof.
  intros P l. rewrite Forall_forall. split; intros H.
  - intros k Hk. apply H. apply nth_In. exact Hk.
  - intros x Hx. apply (In_nth _ _ F0) in Hx. destruct Hx as [k [Hk <-]]. auto.
Qed.
Lemma map_nth0 : forall (f : F p -> F p) l k, k < length l -> nth k (map f l) F0 = f (nth k l F0).
Proof. intros f l k H. rewrite (nth_indep (map f l) F0 (f F0)) by (rewrite map_length; exact H). apply map_nth. Qed.
Lemma zipw_nth0 : forall f l m k, k < length l -> k < length m -> nth k (zipw f l m) F0 = f (nth k l F0) (nth k m F0).
Proof. intros f l m k H1 H2. exact (zipw_nth f l m k H1 H2). Qed.
Lemma zipw_len : forall (f : F p -> F p -> F p) l m, length l = length m -> length (zipw f l m) = length l.
Proof. intros f l m H. rewrite zipw_length. lia. Qed.
End T.

(** Turn equations between tables into equations between entries. *)
Ltac len := repeat first [rewrite zipw_length | rewrite map_length | rewrite seq_length | rewrite repeat_length]; try lia.

Section P.
Context {p : positive} {E : pairing p}.
Add Ring Fq : (@F_ring p).
Notation comm := (gcar (PG1 E)).
Variable o : oracle p comm.
Variable pp : pparam E.
Variable K : nat.
Hypothesis Hpp : forall n l, n <= K -> length l = 2 ^ n -> exists c, kzg_commit pp (mkMle n l) = Ok c.
Variable D : nat.
Implicit Types (w : wd (E:=E)) (v : vtrk E).
Notation good := (good o pp K D).
Notation step := (step o pp K D).

Definition sel_claim (l : list (F p)) : list (F p) := zipw Fmul l (map (fun x => Fadd x F1) (map (fun x => Fmul x (Fopp F1)) l)).
Lemma sel_claim_zero : prime (Zpos p) -> forall l, lz (sel_claim l) <-> boolean l.
Proof.
  intros Hp l. unfold boolean. rewrite lz_nth, Forall_nth_iff. unfold sel_claim. len. rewrite Nat.min_id.
  assert (H : forall k, k < length l -> nth k (zipw Fmul l (map (fun x => Fadd x F1) (map (fun x => Fmul x (Fopp F1)) l))) F0 = (nth k l F0 * (F1 - nth k l F0))%F).
  { intros k Hk. rewrite zipw_nth0, !map_nth0 by len. ring. }
  split; intros G k Hk; specialize (G k Hk).
  - rewrite H in G by exact Hk. apply (Fmul_integral Hp) in G. destruct G as [G|G]; [auto|]. right.
    transitivity (F1 - (F1 - nth k l F0))%F; [ring|]. rewrite G. ring.
  - rewrite H by exact Hk. destruct G as [-> | ->]; ring.
Qed.

Lemma selector_run : forall w sel l d, good w -> hasd w sel l d -> 1 <= d -> 2 * d <= D ->
  exists w', selector_valid_prove (ws w) sel = Ok (ws w') /\ step w w' [] (lz (sel_claim l)) /\
    forall cp vk N v, lk cp vk w v -> cov cp N w' -> exists v', selector_valid_verify v (tp_id sel) = Ok v' /\ lk cp vk w' v' /\ vext v v'.
Proof.
  intros w sel l d G H Hd HD. pose proof (fun cp vk v (L : lk cp vk w v) => lk_says _ _ _ _ _ _ _ L H) as I1. pose proof (step_refl o pp K D w G) as S.
  destruct (call_muls o pp K D w sel (Fopp F1) l d G H ltac:(lia)) as [w1 [h1 [E1 [C1 [H1 [N1 T1]]]]]]. pose proof (callp_step _ _ _ _ _ _ C1) as S1. pass S S1.
  destruct (call_adds o pp K D w1 h1 F1 _ d ltac:(gd S) H1 ltac:(lia)) as [w2 [h2 [E2 [C2 [H2 [N2 T2]]]]]]. pose proof (callp_step _ _ _ _ _ _ C2) as S2. pass S S2.
  destruct (call_mul o pp K D w2 sel h2 _ _ d d ltac:(gd S) H H2) as [w3 [h3 [E3 [C3 [H3 [N3 T3]]]]]]; [subst h2 h1; reflexivity|lia|].
  pose proof (callp_step _ _ _ _ _ _ C3) as S3. pass S S3.
  destruct (call_zero o pp K D w3 h3 _ _ ltac:(gd S) H3) as [w4 [E4 [G4 [L4 [D4 [_ [Z4 K4]]]]]]].
  assert (S4 : step w3 w4 [] (lz (sel_claim l))) by (split; [exact G4|split; [exact L4|split; [exact D4|exact Z4]]]). pass S S4.
  exists w4. split; [|split].
  - unfold selector_valid_prove. rewrite E1. cbn [bind]. rewrite E2. cbn [bind]. rewrite E3. cbn [bind]. rewrite E4. reflexivity.
  - eapply step_imp; [exact S|tauto].
  - intros cp vk N v L Cv. unfold selector_valid_verify, v_mul_scalar, mul_comms. pose proof (I1 _ _ _ L) as J1. clear I1. pose proof (vext_refl v) as V. subst h1 h2 h3.
    vtake V L T1 as v1 L1 Y1. vtake V L1 T2 as v2 L2 Y2. vtake V L2 T3 as v3 L3 Y3.
    eexists. split; [reflexivity|]. split; [exact (K4 cp vk v3 L3)|]. eapply vext_trans; [exact V|apply vext_same; reflexivity].
Qed.

(** A zero claim as the next step. *)
Lemma zero_step : forall w h l d, good w -> hasd w h l d ->
  exists w', ws w' = add_zerocheck_claim (ws w) (tp_id h) /\ step w w' [] (lz l) /\
    (forall cp vk v, lk cp vk w v -> lk cp vk w' (v_add_zerocheck_claim v (tp_id h))).
Proof.
  intros w h l d G H. destruct (call_zero o pp K D w h l d G H) as [w' [E1 [G1 [L1 [D1 [_ [Z1 K1]]]]]]].
  exists w'. split; [exact E1|]. split; [|exact K1]. split; [exact G1|]. split; [exact L1|]. split; [exact D1|exact Z1].
Qed.
Lemma sum_step : forall w h l d c, good w -> hasd w h l d ->
  exists w', ws w' = add_sumcheck_claim (ws w) (tp_id h) c /\ step w w' [] True /\
    (forall cp vk N v, lk cp vk w v -> cov cp N w' -> let y := (ofN (2 ^ (N - tp_nv h)) * Fsum l)%F in
       get_prover_claimed_sum v (tp_id h) = Ok y /\ lk cp vk w' (v_add_sumcheck_claim v (tp_id h) y)).
Proof.
  intros w h l d c G H. destruct (call_sum o pp K D w h l d c G H) as [w' [E1 [G1 [L1 [D1 [Z1 K1]]]]]].
  exists w'. split; [exact E1|]. split; [|exact K1]. split; [exact G1|]. split; [exact L1|]. split; [exact Z1|]. split; [auto|]. intros _. apply nozc_zeros; assumption.
Qed.
Lemma chal_step : forall w l, good w ->
  exists w' c, pt_challenge o l (ws w) = Ok (c, ws w') /\ step w w' [c] True /\
    (forall cp vk v, lk cp vk w v -> exists v', vt_challenge o l v = Ok (c, v') /\ lk cp vk w' v' /\ vext v v').
Proof.
  intros w l G. destruct (call_chal o pp K D w l G) as [w' [c [E1 [G1 [L1 [D1 [Z1 [_ K1]]]]]]]].
  exists w', c. split; [exact E1|]. split; [|exact K1]. split; [exact G1|]. split; [exact L1|]. split; [exact Z1|]. split; [auto|]. intros _. apply nozc_zeros; assumption.
Qed.

(** ** No zeros *)
Definition nz_claim (l sl : list (F p)) : list (F p) := zipw Fsub (zipw Fmul (zipw Fmul l sl) (map Finv l)) sl.
Lemma nz_claim_zero : prime (Zpos p) -> forall l sl, length l = length sl -> lz (nz_claim l sl) <-> ~ In F0 (rows l sl).
Proof.
  intros Hp l sl Hl. rewrite lz_nth. unfold nz_claim. len. rewrite <- Hl, !Nat.min_id.
  assert (Hn : forall k, k < length l -> nth k (zipw Fsub (zipw Fmul (zipw Fmul l sl) (map Finv l)) sl) F0 = (nth k l F0 * nth k sl F0 * Finv (nth k l F0) - nth k sl F0)%F).
  { intros k Hk. rewrite zipw_nth0 by len. rewrite zipw_nth0 by len. rewrite zipw_nth0 by len. rewrite map_nth0 by len. reflexivity. }
  assert (Hr : In F0 (rows l sl) <-> exists k, k < length l /\ nth k l F0 = F0 /\ nth k sl F0 <> F0).
  { unfold rows. rewrite in_map_iff. split.
    - intros [[x y] [Hx Hin]]. simpl in Hx. subst x. apply filter_In in Hin. destruct Hin as [Hin Hy]. apply (In_nth _ _ (F0, F0)) in Hin.
      destruct Hin as [k [Hk Hv]]. rewrite combine_length, <- Hl, Nat.min_id in Hk. rewrite combine_nth in Hv by exact Hl. injection Hv as V1 V2.
      exists k. split; [exact Hk|]. split; [exact V1|]. intros V. rewrite V in V2. subst y. cbn [snd] in Hy. rewrite Feqb_refl in Hy. discriminate.
    - intros [k [Hk [H1 H2]]]. exists (F0, nth k sl F0). split; [reflexivity|]. apply filter_In. split.
      + rewrite <- H1 at 1. rewrite <- (combine_nth l sl k F0 F0 Hl). apply nth_In. rewrite combine_length. lia.
      + cbn [snd]. apply Feqb_neq in H2. rewrite H2. reflexivity. }
  rewrite Hr. split.
  - intros G [k [Hk [H1 H2]]]. specialize (G k Hk). rewrite Hn, H1 in G by exact Hk. apply H2. transitivity (F0 - (F0 * nth k sl F0 * Finv F0 - nth k sl F0))%F; [ring|]. rewrite G. ring.
  - intros G k Hk. rewrite Hn by exact Hk. destruct (F_dec (nth k sl F0) F0) as [Hs|Hs]; [rewrite Hs; ring|].
    destruct (F_dec (nth k l F0) F0) as [Hv|Hv]; [exfalso; apply G; exists k; auto|].
    transitivity (nth k sl F0 * (Finv (nth k l F0) * nth k l F0) - nth k sl F0)%F; [ring|]. rewrite Finv_l by assumption. ring.
Qed.

Lemma no_zeros_run : forall w b l sl d, good w -> hasd w (b_poly b) l d -> hasd w (b_sel b) sl d -> tp_nv (b_poly b) = tp_nv (b_sel b) -> 1 <= d -> 2 * d + 1 <= D ->
  exists w', no_zeros_prove (ws w) b = Ok (ws w') /\ step w w' [] (lz (nz_claim l sl)) /\
    forall cp vk N v debug, lk cp vk w v -> cov cp N w' -> exists v', no_zeros_verify debug v (comm_of b) = Ok v' /\ lk cp vk w' v' /\ vext v v'.
Proof.
  intros w b l sl d G H Hs Hn Hd HD. pose proof (hasb_says w b l sl d (conj H (conj Hs Hn))) as I1. pose proof (step_refl o pp K D w G) as S.
  pose proof (hasd_at o pp K D _ _ _ _ G H) as [_ [Hl [Hk _]]].
  peek S (call_evals o pp K D w (b_poly b) l d G H) as w1 E1 T1.
  destruct (call_commit o pp K Hpp D w1 (b_nv b) (map Finv l) ltac:(gd S)) as [w2 [h2 [E2 [C2 [H2 [N2 T2]]]]]]; [rewrite map_length; exact Hl|exact Hk|lia|].
  pose proof (callp_step _ _ _ _ _ _ C2) as X2. pose proof S as Sc. pass S X2. clear X2.
  take S (call_mul o pp K D w2 _ _ _ _ _ _ ltac:(gd S) H Hs Hn) as w3 h3 E3 H3 N3 T3; [lia|].
  take S (call_mul o pp K D w3 h3 h2 _ _ _ _ ltac:(gd S) H3 H2) as w4 h4 E4 H4 N4 T4; [subst h3 h2; reflexivity|lia|].
  take S (call_sub o pp K D w4 h4 (b_sel b) _ _ _ _ ltac:(gd S) H4 Hs) as w5 h5 E5 H5 N5 T5; [subst h4 h3; exact Hn|lia|].
  destruct (zero_step w5 h5 _ _ ltac:(gd S) H5) as [w6 [E6 [S6 T6]]]. pose proof S as S5. pass S S6.
  exists w6. split; [|split].
  - unfold no_zeros_prove. rewrite E1. cbn [bind]. unfold from_evaluations. rewrite map_length. unfold b_nv. rewrite Hl, Nat.eqb_refl. cbn [rassert bind].
    unfold b_nv in E2. rewrite E2. cbn [bind]. rewrite E3. cbn [bind]. rewrite E4. cbn [bind]. rewrite E5. cbn [bind]. rewrite E6. reflexivity.
  - eapply step_imp; [exact S|tauto].
  - intros cp vk N v debug L Cv. unfold no_zeros_verify, mul_comms, sub_comms. destruct (I1 _ _ _ L) as [J1 J2]. clear I1. pose proof (vext_refl v) as V. subst h2 h3 h4 h5.
    destruct (T2 cp vk N v debug (T1 cp vk v L) ltac:(cvr)) as [v2 [-> [L2 [X2 Y2]]]]. cbn [bind]. vmove V X2.
    vtake V L2 T3 as v3 L3 Y3. vtake V L3 T4 as v4 L4 Y4. vtake V L4 T5 as v5 L5 Y5.
    eexists. split; [reflexivity|]. split; [exact (T6 cp vk v5 L5)|]. eapply vext_trans; [exact V|apply vext_same; reflexivity].
Qed.
End P.
