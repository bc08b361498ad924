(** The bag multitool and the protocols that are one use of it: both sides of a run. *)
From Coq Require Import String List Arith Lia Bool ZArith Znumtheory.
Import ListNotations.
From Verif Require Import Res ResLemmas Fp FSum SpecMle SpecPoly PolyLemmas SpecKzg SpecTracker SpecIop ModelMle MleLemmas MleProofs MleExtra ModelVp ModelTranscript ModelSumcheck Pairing ModelKzg ModelBatch
  ModelProver ModelVerifier ModelAdvice ModelIop ProverHist VerifierHist CompileHist IopHist TmapLemmas ProverProofs ProverExtra ProverStep HistExtra IopWorld IopBasic LogDeriv BagLemmas.
Local Open Scope string_scope.
Local Open Scope list_scope.
Local Open Scope nat_scope.

Section P.
Context {p : positive} {E : pairing p}.
Add Ring Fq : (@F_ring p).
Notation comm := (gcar (PG1 E)).
Variable o : oracle p comm.
Variable pp : pparam E.
Variable K : nat.
Hypothesis Hpp : forall n l, n <= K -> length l = 2 ^ n -> exists c, kzg_commit pp (mkMle n l) = Ok c.
Variable D : nat.
Implicit Types (w : wd (E:=E)) (v : vtrk E).
Notation good := (good o pp K D).
Notation step := (step o pp K D).

Lemma rnth_nth : forall A (l : list A) i d, i < length l -> rnth l i = Ok (nth i l d).
Proof. intros A l i d H. unfold rnth. rewrite (nth_error_nth' l d H). reflexivity. Qed.
Lemma foldM_ok : forall A B (f : B -> A -> res B) (l : list A), (forall b a, In a l -> exists b', f b a = Ok b') -> forall b, exists b', foldM f b l = Ok b'.
Proof.
  intros A B f l. induction l as [|a l IH]; intros H b; [exists b; reflexivity|]. cbn [foldM]. destruct (H b a (or_introl eq_refl)) as [b1 ->]. cbn [bind]. apply IH. intros. apply H. right. assumption.
Qed.

Definition phi_claim (g : F p) (l : list (F p)) : list (F p) :=
  map (fun x => (x + - F1)%F) (zipw Fsub (zipw Fmul l (phis g l)) (map (fun x => (x * g)%F) (phis g l))).
Lemma phi_claim_zero : prime (Zpos p) -> forall g l, lz (phi_claim g l) <-> ~ In g l.
Proof.
  intros Hp g l. rewrite lz_nth. unfold phi_claim, phis. len.
  assert (Hn : forall k, k < length l -> nth k (map (fun x => (x + - F1)%F) (zipw Fsub (zipw Fmul l (map (fun x => Finv (x - g)%F) l)) (map (fun x => (x * g)%F) (map (fun x => Finv (x - g)%F) l)))) F0
     = (Finv (nth k l F0 - g) * (nth k l F0 - g) - F1)%F).
  { intros k Hk. rewrite map_nth0 by len. rewrite zipw_nth0 by len. rewrite zipw_nth0 by len. rewrite !map_nth0 by len. ring. }
  split.
  - intros H Hg. apply (In_nth _ _ F0) in Hg. destruct Hg as [k [Hk Hg]]. specialize (H k ltac:(lia)). rewrite Hn, Hg in H by exact Hk.
    apply (F1_neq_0 Hp). transitivity (Finv (g - g) * (g - g) - (Finv (g - g) * (g - g) - F1))%F; [ring|]. rewrite H. ring.
  - intros H k Hk. rewrite Hn by lia. rewrite Finv_l; [ring|exact Hp|]. intros H0. apply H. assert (nth k l F0 = g) as <-; [|apply nth_In; lia].
    transitivity ((nth k l F0 - g) + g)%F; [ring|]. rewrite H0. ring.
Qed.

(** What a verifier's bag and multiplicity column stand for. *)
Definition isays (c : rdg) v (x : bagc * nat) (t : list (F p) * list (F p) * list (F p)) : Prop :=
  says c v (bc_poly (fst x)) (bc_nv (fst x)) (fst (fst t)) /\ says c v (bc_sel (fst x)) (bc_nv (fst x)) (snd (fst t)) /\ says c v (snd x) (bc_nv (fst x)) (snd t).
Lemma isays_ext : forall c v v' x t, vext v v' -> isays c v x t -> isays c v' x t.
Proof. intros c v v' x t X [A [B C]]. split; [|split]; eapply says_ext; eassumption. Qed.
Lemma isays_all_ext : forall c v v' xs ts, vext v v' -> Forall2 (isays c v) xs ts -> Forall2 (isays c v') xs ts.
Proof. intros c v v' xs ts X H. induction H; constructor; [eapply isays_ext; eassumption|assumption]. Qed.
Lemma isays_nv : forall c v x t n, isays c v x t -> length (fst (fst t)) = 2 ^ n -> bc_nv (fst x) = n.
Proof. intros c v x t n [[A _] _] H. rewrite A in H. apply Nat.pow_inj_r in H; [exact H|lia]. Qed.
Lemma sub_run : forall w g b m l sl ml d, good w -> hasd w (b_poly b) l d -> hasd w (b_sel b) sl d -> hasd w m ml d ->
  tp_nv (b_poly b) = tp_nv (b_sel b) -> tp_nv (b_poly b) = tp_nv m -> 1 <= d -> 2 * d + 1 <= D ->
  exists w', multitool_subclaim (ws w) g b m = Ok (ws w') /\ step w w' [] (lz (phi_claim g l)) /\
    forall cp vk N v b' m' debug, lk cp vk w v -> cov cp N w' -> isays cp v (b', m') (l, sl, ml) ->
      exists v', multitool_vsubclaim debug v g b' m' = Ok ((ofN (2 ^ (N - b_nv b)) * logd (wcol l sl ml) g)%F, v') /\ lk cp vk w' v' /\ vext v v'.
Proof.
  intros w g b m l sl ml d G H Hs Hm Ns Nm Hd HD. pose proof (step_refl o pp K D w G) as S.
  pose proof (hasd_at o pp K D _ _ _ _ G H) as [_ [Hl [Hk _]]].
  pose proof (hasd_len o pp K D _ _ _ _ G Hs) as Hls. pose proof (hasd_len o pp K D _ _ _ _ G Hm) as Hlm. rewrite <- Ns in Hls. rewrite <- Nm in Hlm.
  assert (Hlp : length (phis g l) = 2 ^ b_nv b) by (unfold phis; rewrite map_length; exact Hl).
  peek S (call_evals o pp K D w (b_poly b) l d G H) as w1 E1 T1.
  peek S (call_evals o pp K D w1 m ml d ltac:(gd S) Hm) as w2 E2 T2.
  peek S (call_evals o pp K D w2 (b_sel b) sl d ltac:(gd S) Hs) as w3 E3 T3.
  take S (call_commit o pp K Hpp D w3 (b_nv b) (phis g l) ltac:(gd S) Hlp Hk ltac:(lia)) as w4 h4 E4 H4 N4 T4.
  take S (call_mul o pp K D w4 h4 m _ _ _ _ ltac:(gd S) H4 Hm) as w5 h5 E5 H5 N5 T5; [subst h4; exact Nm|lia|].
  take S (call_mul o pp K D w5 h5 (b_sel b) _ _ _ _ ltac:(gd S) H5 Hs) as w6 h6 E6 H6 N6 T6; [subst h5 h4; exact Ns|lia|].
  take S (call_mul o pp K D w6 (b_poly b) h4 _ _ _ _ ltac:(gd S) H H4) as w7 h7 E7 H7 N7 T7; [subst h4; reflexivity|lia|].
  take S (call_muls o pp K D w7 h4 g _ _ ltac:(gd S) H4) as w8 h8 E8 H8 N8 T8; [lia|].
  take S (call_sub o pp K D w8 h7 h8 _ _ _ _ ltac:(gd S) H7 H8) as w9 h9 E9 H9 N9 T9; [subst h7 h8 h4; reflexivity|lia|].
  take S (call_adds o pp K D w9 h9 (Fopp F1) _ _ ltac:(gd S) H9) as w10 h10 E10 H10 N10 T10; [lia|].
  assert (exists c, foldM (fun acc i => x <- rnth (phis g l) i ;; y <- rnth ml i ;; z <- rnth sl i ;; Ok (Fadd acc (Fmul (Fmul x y) z))) F0 (seq 0 (2 ^ b_nv b)) = Ok c) as [c Ec].
  { apply foldM_ok. intros acc i Hi. apply in_seq in Hi. unfold b_nv in *. rewrite !(rnth_nth _ _ i F0) by lia. cbn [bind]. eexists. reflexivity. }
  destruct (sum_step o pp K D w10 h6 _ _ c ltac:(gd S) H6) as [w11 [E11 [S11 T11]]]. pass S S11.
  destruct (zero_step o pp K D w11 h10 _ _ ltac:(gd S) H10) as [w12 [E12 [S12 T12]]]. pass S S12.
  exists w12. split; [|split].
  - unfold multitool_subclaim. rewrite E1. cbn [bind]. unfold from_evaluations. rewrite map_length. unfold b_nv in *. rewrite Hl, Nat.eqb_refl. cbn [rassert bind].
    rewrite E2. cbn [bind]. rewrite E3. cbn [bind]. cbn [evs]. fold (phis g l). rewrite Ec. cbn [bind]. rewrite E4. cbn [bind]. rewrite E5. cbn [bind]. rewrite E6. cbn [bind]. rewrite E7. cbn [bind].
    rewrite E8. cbn [bind]. rewrite E9. cbn [bind]. rewrite E10. cbn [bind]. rewrite E12, E11. reflexivity.
  - eapply step_imp; [exact S|]. unfold phi_claim. tauto.
  - intros cp vk N v b' m' debug L Cv Is. unfold multitool_vsubclaim, mul_comms, sub_comms, v_mul_scalar. pose proof (isays_nv _ _ _ _ (b_nv b) Is Hl) as Nb. cbn [fst] in Nb.
    destruct Is as [J1 [J2 J3]]. cbn [fst snd] in J1, J2, J3. rewrite Nb in J1, J2, J3. pose proof (vext_refl v) as V. subst h4 h5 h6 h7 h8 h9 h10.
    destruct (T4 cp vk N v debug (T3 _ _ _ (T2 _ _ _ (T1 _ _ _ L))) ltac:(cvr)) as [v4 [-> [L4 [X4 Y4]]]]. cbn [bind]. vmove V X4.
    vtake V L4 T5 as v5 L5 Y5. vtake V L5 T6 as v6 L6 Y6. vtake V L6 T7 as v7 L7 Y7. vtake V L7 T8 as v8 L8 Y8. vtake V L8 T9 as v9 L9 Y9. vtake V L9 T10 as v10 L10 Y10.
    pose proof (T11 cp vk N v10 L10 ltac:(cvr)) as X. cbv zeta in X. rewrite logd_wcol in X by (unfold b_nv in *; lia). destruct X as [X1 X2]. cbn [tp_id tp_nv Nat.add] in X1, X2.
    rewrite X1. cbn [bind]. eexists. split; [reflexivity|]. split; [exact (T12 cp vk _ X2)|]. eapply vext_trans; [exact V|apply vext_same; reflexivity].
Qed.

(** A bag with its multiplicity column, and the three tables they stand for. *)
Definition item w (d : nat) (bm : bag * tpoly) (t : list (F p) * list (F p) * list (F p)) : Prop :=
  hasd w (b_poly (fst bm)) (fst (fst t)) d /\ hasd w (b_sel (fst bm)) (snd (fst t)) d /\ hasd w (snd bm) (snd t) d /\
  tp_nv (b_poly (fst bm)) = tp_nv (b_sel (fst bm)) /\ tp_nv (b_poly (fst bm)) = tp_nv (snd bm).
Lemma item_le : forall w w' d x t, good w -> le w w' -> item w d x t -> item w' d x t.
Proof.
  intros w w' d x t G L [H1 [H2 [H3 H4]]]. split; [eapply hasd_le; eassumption|]. split; [eapply hasd_le; eassumption|]. split; [eapply hasd_le; eassumption|exact H4].
Qed.
Lemma items_le : forall w w' d xs ts, good w -> le w w' -> Forall2 (item w d) xs ts -> Forall2 (item w' d) xs ts.
Proof. intros w w' d xs ts G L H. induction H; constructor; [eapply item_le; eassumption|assumption]. Qed.

Definition phis_zero (g : F p) (ts : list (list (F p) * list (F p) * list (F p))) : Prop := Forall (fun t => lz (phi_claim g (fst (fst t)))) ts.

Hypothesis Hp : prime (Zpos p).
Hypothesis H2 : 2 < fsize p.
Lemma two_pow : forall k, ofN (p:=p) (2 ^ k) <> F0.
Proof.
  intros k. induction k as [|k IH]; [apply (F1_neq_0 Hp)|]. rewrite Nat.pow_succ_r', ofN_mul. intros H0.
  apply (Fmul_integral Hp) in H0. destruct H0 as [H0|H0]; [|contradiction]. revert H0. apply ofN_neq_0; [lia|]. unfold fsize in H2. lia.
Qed.
Lemma two_scale : forall n mx N y, n <= mx -> mx <= N -> ((ofN (2 ^ (N - n)) * y) / ofN (2 ^ (mx - n)))%F = (ofN (p:=p) (2 ^ (N - mx)) * y)%F.
Proof.
  intros n mx N y H3 H4. replace (N - n) with ((N - mx) + (mx - n)) by lia. rewrite Nat.pow_add_r, ofN_mul. unfold Fdiv.
  transitivity (ofN (2 ^ (N - mx)) * y * (Finv (ofN (2 ^ (mx - n))) * ofN (2 ^ (mx - n))))%F; [ring|]. rewrite Finv_l; [ring|exact Hp|apply two_pow].
Qed.

Lemma items_run : forall g d xs ts w, good w -> Forall2 (item w d) xs ts -> 1 <= d -> 2 * d + 1 <= D ->
  exists w', foldM (fun s bm => multitool_subclaim s g (fst bm) (snd bm)) (ws w) xs = Ok (ws w') /\ step w w' [] (phis_zero g ts) /\
    forall cp vk N v xs' debug mx acc, lk cp vk w v -> cov cp N w' -> Forall2 (isays cp v) xs' ts ->
      (forall x, In x xs' -> bc_nv (fst x) <= mx) -> mx <= N ->
      exists v', foldM (multitool_side debug g mx) (acc, v) xs' = Ok ((acc + ofN (2 ^ (N - mx)) * logd (wcols ts) g)%F, v') /\ lk cp vk w' v' /\ vext v v'.
Proof.
  intros g d xs. induction xs as [|x xs IH]; intros ts w G HI Hd HD; inversion HI; subst; clear HI.
  - exists w. split; [reflexivity|]. split; [eapply step_imp; [apply step_refl; exact G|split; [intros _; constructor|auto]]|]. intros cp vk N v xs' debug mx acc L Cv HX HM HN. inversion HX; subst. exists v.
    split; [|split; [exact L|apply vext_refl]]. cbn [foldM]. f_equal. f_equal. change (logd (wcols []) g) with (@F0 p). ring.
  - match goal with H : item _ _ _ ?t |- _ => rename t into t0; destruct H as [I1 [I2 [I3 [I4 I5]]]] end. match goal with H : Forall2 (item w d) xs ?t |- _ => rename t into ts0; rename H into HI end.
    pose proof (step_refl o pp K D w G) as S.
    pose proof (hasd_len o pp K D _ _ _ _ G I1) as Hl0. destruct (sub_run w g (fst x) (snd x) _ _ _ d G I1 I2 I3 I4 I5 Hd HD) as [w1 [E1 [S1 T1]]].
    pose proof (items_le w w1 d _ _ G (step_le _ _ _ _ _ _ _ _ S1) HI) as HI1. pose proof (step_good _ _ _ _ _ _ _ _ S1) as G1.
    destruct (IH ts0 w1 G1 HI1 Hd HD) as [w2 [E2 [S2 T2]]]. pass S S1. pass S S2.
    exists w2. split; [cbn [foldM]; rewrite E1; cbn [bind]; exact E2|]. split.
    + eapply step_imp; [exact S|]. unfold phis_zero. rewrite Forall_cons_iff. cbn [fst snd]. tauto.
    + intros cp vk N v xs' debug mx acc L Cv HX HM HN. inversion HX; subst. match goal with H : isays _ _ ?y _ |- _ => rename y into x'; rename H into Hx' end.
      match goal with H : Forall2 _ ?l ts0 |- _ => rename l into xs''; rename H into HX' end. pose proof (isays_nv _ _ _ _ (b_nv (fst x)) Hx' Hl0) as Nx.
      cbn [foldM]. unfold multitool_side at 1. cbn [fst snd].
      destruct (T1 cp vk N v (fst x') (snd x') debug L ltac:(cvr) Hx') as [v1 [-> [L1 V1]]]. cbn [bind]. cbn [fst snd]. apply (isays_all_ext _ _ _ _ _ V1) in HX'.
      destruct (T2 cp vk N v1 xs'' debug mx (acc + ofN (2 ^ (N - b_nv (fst x))) * logd (wcol (fst (fst t0)) (snd (fst t0)) (snd t0)) g / ofN (2 ^ (mx - bc_nv (fst x'))))%F L1 Cv HX') as [v2 [E3 [L2 V2]]].
      { intros y Hy. apply HM. right. exact Hy. } { exact HN. }
      exists v2. split; [|split; [exact L2|eapply vext_trans; eassumption]]. rewrite E3. f_equal. f_equal. rewrite Nx, two_scale; [|rewrite <- Nx; apply HM; left; reflexivity|exact HN].
      unfold wcols. cbn [flat_map]. rewrite logd_app. ring.
Qed.

Lemma bagc_max_ge : forall l b, In b l -> bc_nv b <= bagc_max l.
Proof. intros l b. induction l as [|a l IH]; intros []; cbn [bagc_max fold_right]; [subst; lia|]. specialize (IH H). unfold bagc_max in IH. lia. Qed.
Lemma bagc_max_le : forall l N, (forall b, In b l -> bc_nv b <= N) -> bagc_max l <= N.
Proof. intros l N. induction l as [|a l IH]; intros H; cbn [bagc_max fold_right]; [lia|]. pose proof (H a (or_introl eq_refl)). specialize (IH ltac:(intros; apply H; right; assumption)). unfold bagc_max in IH. lia. Qed.

Lemma item_shape : forall w d fx mf ts, fx <> [] -> length fx = length mf -> Forall2 (item w d) (combine fx mf) ts -> multitool_shape fx mf = Ok tt.
Proof.
  intros w d fx mf ts H0 H1 HI. unfold multitool_shape. destruct fx as [|b fx]; [contradiction|]. rewrite (proj2 (Nat.eqb_eq _ _) H1). cbn [length Nat.eqb negb ensure bind].
  assert (H : forallb (fun bm => b_nv (fst bm) =? tp_nv (snd bm)) (combine (b :: fx) mf) = true); [|rewrite H; reflexivity].
  clear H0 H1. revert HI. generalize (combine (b :: fx) mf). intros l HI. induction HI as [|x t xs ts [_ [_ [_ [_ I5]]]] HI IH]; [reflexivity|]. cbn [forallb]. rewrite IH. unfold b_nv. rewrite I5, Nat.eqb_refl. reflexivity.
Qed.

Lemma multitool_run : forall w d fx gx mf mg ts us, good w -> fx <> [] -> gx <> [] -> length fx = length mf -> length gx = length mg ->
  Forall2 (item w d) (combine fx mf) ts -> Forall2 (item w d) (combine gx mg) us -> 1 <= d -> 2 * d + 1 <= D ->
  exists w' g, multitool_prove o (ws w) fx gx mf mg = Ok (ws w') /\ step w w' [g] (phis_zero g (ts ++ us)) /\
    forall cp vk N v fx' gx' mf' mg' debug, lk cp vk w v -> cov cp N w' -> length fx' = length mf' -> length gx' = length mg' ->
      Forall2 (isays cp v) (combine fx' mf') ts -> Forall2 (isays cp v) (combine gx' mg') us ->
      exists v', multitool_verify o debug v fx' gx' mf' mg' = (if Feqb (logd (wcols ts) g) (logd (wcols us) g) then Ok v' else Err IOPInvalidVerifier) /\ lk cp vk w' v' /\ vext v v'.
Proof.
  intros w d fx gx mf mg ts us G Nf Ng Lf Lg If Ig Hd HD. pose proof (step_refl o pp K D w G) as S.
  destruct (chal_step o pp K D w "gamma" G) as [w1 [g [E1 [S1 T1]]]].
  pose proof (items_le w w1 d _ _ G (step_le _ _ _ _ _ _ _ _ S1) If) as If1. pose proof (items_le w w1 d _ _ G (step_le _ _ _ _ _ _ _ _ S1) Ig) as Ig1. pass S S1.
  destruct (items_run g d _ _ w1 ltac:(gd S) If1 Hd HD) as [w2 [E2 [S2 T2]]].
  pose proof (items_le w1 w2 d _ _ ltac:(gd S) (step_le _ _ _ _ _ _ _ _ S2) Ig1) as Ig2. pass S S2.
  destruct (items_run g d _ _ w2 ltac:(gd S) Ig2 Hd HD) as [w3 [E3 [S3 T3]]]. pass S S3.
  exists w3, g. split; [|split].
  - unfold multitool_prove. rewrite (item_shape w d _ _ _ Nf Lf If), (item_shape w d _ _ _ Ng Lg Ig). cbn [bind]. rewrite E1. cbn [bind]. rewrite E2. cbn [bind]. exact E3.
  - eapply step_imp; [exact S|]. unfold phis_zero. rewrite Forall_app. tauto.
  - intros cp vk N v fx' gx' mf' mg' debug L Cv Mf Mg Vf Vg. unfold multitool_verify.
    assert (Nf' : ts <> []) by (destruct fx, mf; try discriminate; [contradiction|]; inversion If; discriminate).
    assert (Ng' : us <> []) by (destruct gx, mg; try discriminate; [contradiction|]; inversion Ig; discriminate).
    destruct fx' as [|f0 fx']; [inversion Vf; subst; contradiction|]. destruct gx' as [|g0 gx']; [inversion Vg; subst; contradiction|].
    assert (X1 : (length (f0 :: fx') =? length mf') = true) by (apply Nat.eqb_eq; exact Mf). assert (X2 : (length (g0 :: gx') =? length mg') = true) by (apply Nat.eqb_eq; exact Mg). rewrite X1, X2.
    change (length (f0 :: fx') =? 0) with false. change (length (g0 :: gx') =? 0) with false. cbn [negb ensure bind].
    set (FX := f0 :: fx') in *. set (GX := g0 :: gx') in *. clearbody FX GX.
    destruct (T1 cp vk v L) as [v1 [-> [L1 V1]]]. cbn [bind]. set (mx := Nat.max (bagc_max FX) (bagc_max GX)).
    apply (isays_all_ext _ _ _ _ _ V1) in Vf. apply (isays_all_ext _ _ _ _ _ V1) in Vg.
    assert (HN : snd cp = N) by (destruct Cv as [_ [_ [_ [HC _]]]]; symmetry; exact HC).
    assert (Hside : forall FX' (mf0 : list nat) ts0, length FX' = length mf0 -> Forall2 (isays cp v1) (combine FX' mf0) ts0 -> forall b, In b FX' -> bc_nv b <= N).
    { clear - HN. intros FX'. induction FX' as [|b' FX' IH]; intros [|m mf0] ts0 HL HI b Hb; cbn in HL; try discriminate; [destruct Hb|].
      cbn [combine] in HI. inversion HI; subst. destruct Hb as [<-|Hb]; [|eapply (IH mf0 _ ltac:(lia)); eassumption]. match goal with H : isays _ _ (b', m) _ |- _ => destruct H as [[_ [I1 _]] _] end. cbn [fst] in I1. lia. }
    assert (Hmx : mx <= N).
    { unfold mx. apply Nat.max_lub; apply bagc_max_le.
      - exact (Hside FX mf' ts Mf Vf).
      - exact (Hside GX mg' us Mg Vg). }
    destruct (T2 cp vk N v1 (combine FX mf') debug mx F0 L1 ltac:(cvr) Vf) as [v2 [E4 [L2 V2]]].
    { intros [x1 x2] Hx. apply in_combine_l in Hx. cbn [fst]. pose proof (bagc_max_ge _ _ Hx). unfold mx. lia. } { exact Hmx. }
    rewrite E4. cbn [bind]. apply (isays_all_ext _ _ _ _ _ V2) in Vg.
    destruct (T3 cp vk N v2 (combine GX mg') debug mx F0 L2 Cv Vg) as [v3 [E5 [L3 V3]]].
    { intros [x1 x2] Hx. apply in_combine_l in Hx. cbn [fst]. pose proof (bagc_max_ge _ _ Hx). unfold mx. lia. } { exact Hmx. }
    rewrite E5. cbn [bind]. exists v3. split; [|split; [exact L3|eapply vext_trans; [exact V1|eapply vext_trans; eassumption]]].
    assert (X : Feqb (F0 + ofN (2 ^ (N - mx)) * logd (wcols ts) g)%F (F0 + ofN (2 ^ (N - mx)) * logd (wcols us) g)%F = Feqb (logd (wcols ts) g) (logd (wcols us) g)).
    { destruct (Feqb (logd (wcols ts) g) (logd (wcols us) g)) eqn:Q.
      - apply Feqb_eq in Q. rewrite Q. apply Feqb_refl.
      - apply Feqb_neq. apply Feqb_neq in Q. intros H. apply Q. assert (H0 : (ofN (2 ^ (N - mx)) * (logd (wcols ts) g - logd (wcols us) g))%F = F0).
        { transitivity ((F0 + ofN (2 ^ (N - mx)) * logd (wcols ts) g) - (F0 + ofN (2 ^ (N - mx)) * logd (wcols us) g))%F; [ring|]. rewrite H. ring. }
        apply (Fmul_integral Hp) in H0. destruct H0 as [H0|H0]; [exfalso; apply (two_pow (N - mx)); exact H0|]. apply PolyLemmas.sub_eq_0. exact H0. }
    rewrite X. destruct (Feqb (logd (wcols ts) g) (logd (wcols us) g)); reflexivity.
Qed.
End P.
