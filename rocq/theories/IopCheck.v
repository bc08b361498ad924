(** Protocol runs after a history of tracker calls, from the prover's call to the verifier's verdict. *)
From Coq Require Import String List Arith Lia Bool ZArith Znumtheory Permutation.
Import ListNotations.
From Verif Require Import Res ResLemmas Fp FSum SpecMle SpecKzg SpecPoly SpecSumcheck SpecBatch SpecTracker SpecIop ModelMle MleLemmas MleProofs ModelVp ModelTranscript ModelSumcheck
  Pairing ModelKzg ModelBatch ModelProver ModelVerifier ModelAdvice ModelIop ProverHist VerifierHist CompileHist IopHist TmapLemmas ProverProofs HistExtra LockProofs
  CompileMain CompileSound IopWorld IopMain IopBasic LogDeriv BagLemmas AdviceProofs IopMulti IopRuns IopSort IopVer IopSound IopSound2 SortSound.
Local Open Scope string_scope.
Local Open Scope list_scope.
Local Open Scope nat_scope.

Section M.
Context {p : positive} {E : pairing p}.
Hypothesis HE : pairing_laws E.
Hypothesis Hp : prime (Zpos p).
Notation comm := (gcar (PG1 E)).
Implicit Types (w : wd (E:=E)) (v : vtrk E).

Add Ring Fq : (@F_ring p).
Section R.
Hypothesis H2 : 2 < fsize p.
Lemma sub_same : forall x : F p, (x - x)%F = F0. Proof. intros x. ring. Qed.
Lemma strict_rows : forall (l sl : list (F p)), l <> [] -> length l = length sl ->
  (~ In F0 (rows (diffs l) sl) <-> forall i, S i < length l -> nth i sl F0 <> F0 -> nth (S i) l F0 <> nth i l F0).
Proof.
  intros l sl Hne Hl. pose proof (diffs_len l Hne) as Ld. rewrite rows_In by lia. split.
  - intros H i Hi Hs He. apply H. exists i. split; [lia|]. split; [|exact Hs]. rewrite diffs_nth by lia. destruct (S i =? length l) eqn:Q; [apply Nat.eqb_eq in Q; lia|]. rewrite He. apply sub_same.
  - intros H [i [Hi [H0 Hs]]]. rewrite diffs_nth in H0 by lia. destruct (S i =? length l) eqn:Q; [exact (F1_neq_0 Hp H0)|]. apply Nat.eqb_neq in Q. apply (H i); [lia|exact Hs|]. apply PolyLemmas.sub_eq_0. exact H0.
Qed.
Lemma in_diffs : forall (l : list (F p)) g, l <> [] -> (In g (diffs l) <-> In g (F1 :: steps l)).
Proof.
  intros l g Hne. pose proof (diffs_len l Hne) as Ld. assert (Hlen : 0 < length l) by (destruct l; [contradiction|cbn; lia]). split.
  - intros H. apply (In_nth _ _ F0) in H. destruct H as [i [Hi H]]. rewrite diffs_nth in H by lia. destruct (S i =? length l) eqn:Q; [left; exact H|]. apply Nat.eqb_neq in Q. right. rewrite <- H. apply in_steps; (exact H2 || exact Hp || lia).
  - intros [H|H].
    + rewrite <- H. replace (@F1 p) with (nth (length l - 1) (diffs l) F0); [apply nth_In; lia|]. rewrite diffs_nth by lia. replace (S (length l - 1)) with (length l) by lia. rewrite Nat.eqb_refl. reflexivity.
    + unfold steps in H. apply in_map_iff in H. destruct H as [i [H Hi]]. apply in_seq in Hi. rewrite <- H.
      replace (nth (S i) l F0 - nth i l F0)%F with (nth i (diffs l) F0); [apply nth_In; lia|]. rewrite diffs_nth by lia. destruct (S i =? length l) eqn:Q; [apply Nat.eqb_eq in Q; lia|reflexivity].
Qed.
Lemma rows_app_pairs : forall (a b : list (F p * F p)), map fst (filter (fun vs => negb (Feqb (snd vs) F0)) (a ++ b)) = map fst (filter (fun vs => negb (Feqb (snd vs) F0)) a) ++ map fst (filter (fun vs => negb (Feqb (snd vs) F0)) b).
Proof. intros a b. rewrite filter_app, map_app. reflexivity. Qed.
Lemma rows_unit : forall (a : list (F p)), map fst (filter (fun vs => negb (Feqb (snd vs) F0)) (unit_bag a)) = a.
Proof.
  assert (Q : Feqb (@F1 p) F0 = false) by (destruct (Feqb (@F1 p) F0) eqn:Q; [exfalso; apply Feqb_eq in Q; exact (F1_neq_0 Hp Q)|reflexivity]).
  induction a as [|x a IH]; [reflexivity|]. unfold unit_bag in *. cbn [map filter snd]. rewrite Q. cbn [negb map fst]. rewrite IH. reflexivity.
Qed.
Lemma rows_diffs : forall (l : list (F p)), l <> [] -> rows (diffs l) (dsel (length l)) = steps l.
Proof.
  intros l Hne. unfold rows. pose proof (diffs_unit H2 l Hne) as D1. refine (eq_trans (f_equal (fun z => map fst (filter (fun vs => negb (Feqb (snd vs) F0)) z)) D1) _). cbv beta. rewrite rows_app_pairs, rows_unit.
  cbn [filter snd]. rewrite (proj2 (Feqb_eq F0 F0) eq_refl). cbn [negb map]. apply app_nil_r.
Qed.
End R.

Section S.
Variables (o : oracle p comm) (addr : nat -> nat) (k : nat) (ck : pparam E) (vk : vparam E) (ops : list (pop p)) (vops : list (vop E)) (s : ptrk E) (hs : list tpoly) (d D : nat).
Hypothesis HS : setting o addr k ck vk ops vops s hs d D.
Hypothesis HD : 1 <= D.
Hypothesis Hd : d <= D.
Let w0 : wd := start ops s hs.

Lemma max_nv_app : forall a b, max_nv a <= max_nv (a ++ b).
Proof. intros a b. unfold max_nv. rewrite map_app, list_max_app. lia. Qed.

(** A false zero claim among those that the protocol added. *)
Lemma set_refused : forall w, good o ck k D w -> le w0 w -> ~ zeros w0 w -> refused addr k (ws w).
Proof.
  intros w G L Z. pose proof L as [more [hs' [L1 [L2 _]]]]. cbn [w0 start wo ws wh] in L1, L2.
  destruct HS as [[g [h [rnd [N [srs [K1 [K2 [K3 K4]]]]]]]] Ha Hr Hm Hbk Hc Hz Hdg Hn Hcm H2 HDf].
  assert (Hmax : 0 < max_nv (wh w) <= k).
  { split; [rewrite L2; pose proof (max_nv_app hs hs'); lia|]. unfold max_nv. apply list_max_le. apply Forall_forall. intros x Hx. apply in_map_iff in Hx. destruct Hx as [hh [<- Hh]]. apply (g_nv _ _ _ _ w G hh Hh). }
  assert (Hcom : 2 <= commit_calls (wo w)) by (rewrite L1, commit_calls_app; lia).
  assert (Hnz : ~ zeros_hold (wo w)).
  { intros Hzh. apply Z. intros i Hi. apply Hzh. cbn [w0 start wo] in Hi. rewrite L1 in Hi |- *. rewrite skipn_len in Hi. rewrite zero_calls_app. apply in_or_app. auto. }
  exists (length (zero_calls (wo w)) + max_nv (wh w) + length (sum_calls (wo w))). intros sc sc' M.
  pose proof (hist_refuses HE Hp o sc sc' addr g h rnd N k srs ck vk (wo w) (ws w) (wh w) D M K1 K2 K3 K4 Ha (g_run _ _ _ _ w G) (g_deg _ _ _ _ w G) HD HDf H2 Hcom Hmax Hnz) as X.
  cbv zeta in X. eapply Nat.le_trans; [exact X|].
  replace (length (zero_calls (wo w)) + max_nv (wh w) + length (sum_calls (wo w)) + 1 + M - 1) with (length (zero_calls (wo w)) + max_nv (wh w) + length (sum_calls (wo w)) + M) by lia.
  apply Nat.mul_le_mono_r. lia.
Qed.

Lemma ran_check : forall r ds (P : Prop) verify b, ran o ck k D w0 r ds P verify b ->
  exists s', r = Ok s' /\ drawn (pt_tr s) (pt_tr s') = ds /\
    (P -> b = true -> accepted o addr vk vops s' verify) /\ (P -> b = false -> rejected o addr vk vops s' verify IOPInvalidVerifier) /\ (~ P -> refused addr k s').
Proof.
  intros r ds P verify b [w' [E1 [[G [L [Dr Z]]] T]]]. exists (ws w'). split; [exact E1|]. split; [exact Dr|]. split; [|split].
  - intros HP -> sc sc' debug vdebug. apply (set_check_ok HE Hp o addr k ck vk ops vops s hs d D HS HD); [exact G|exact L|apply Z; exact HP|].
    intros cp v K1 K2. destruct (T cp vk _ v vdebug K1 K2) as [v' [X [Y _]]]. exists v'. auto.
  - intros HP -> sc sc' debug vdebug. apply (set_check_err HE Hp o addr k ck vk ops vops s hs d D HS HD); [exact G|exact L|apply Z; exact HP|].
    intros cp v K1 K2. destruct (T cp vk _ v vdebug K1 K2) as [v' [X _]]. exact X.
  - intros HP. apply set_refused; [exact G|exact L|]. rewrite Z. exact HP.
Qed.

Lemma zeros_dec : forall w w' : wd (E:=E), zeros w w' \/ ~ zeros w w'.
Proof.
  intros w w'. unfold zeros. induction (zero_calls (skipn (length (wo w)) (wo w'))) as [|i l IH]; [left; intros i []|]. destruct IH as [IH|IH]; [|right; intros H; apply IH; intros j Hj; apply H; right; exact Hj].
  destruct (Forall_dec (fun y => y = F0) (fun y => F_dec y F0) (corners (poly_at (wo w') i))) as [Q|Q]; [left; intros j [<-|Hj]; auto|right; intros H; apply Q; apply H; left; reflexivity].
Qed.
Lemma ran_judge : forall r ds (P : Prop) verify b, ran o ck k D w0 r ds P verify b ->
  exists s', r = Ok s' /\ drawn (pt_tr s) (pt_tr s') = ds /\
    (P -> b = true -> accepted o addr vk vops s' verify) /\ (P -> b = false -> rejected o addr vk vops s' verify IOPInvalidVerifier) /\ (~ P -> refused addr k s') /\ (~ (P /\ b = true) -> turned_down o addr k vk vops s' verify).
Proof.
  intros r ds P verify b R. assert (HP : P \/ ~ P) by (destruct R as [w' [_ [[_ [_ [_ Z]]] _]]]; rewrite <- Z; apply zeros_dec).
  destruct (ran_check _ _ _ _ _ R) as [s' [A1 [A2 [A3 [A4 A5]]]]]. exists s'. repeat (split; [assumption|]). intros Hn. destruct HP as [HP|HP]; [|right; auto]. left. apply A4; [exact HP|]. destruct b; [exfalso; auto|reflexivity].
Qed.

Let G0 : good o ck k D w0 := set_good o addr k ck vk ops vops s hs d D HS HD Hd.
Lemma Hpp0 : forall n l, n <= k -> length l = 2 ^ n -> exists c, kzg_commit ck (mkMle n l) = Ok c.
Proof. exact (set_commit HE o addr k ck vk ops vops s hs d D HS). Qed.
Lemma bag_hasb : forall b l sl, bag_stands ops hs b l sl -> hasb w0 b l sl d.
Proof. intros b l sl [H1 [H3 H4]]. split; [|split; [|exact H4]]; apply (set_hasd o addr k ck vk ops vops s hs d D HS); auto. Qed.
Lemma stands_hasd : forall h l, stands ops hs h l -> hasd w0 h l d.
Proof. intros h l H. apply (set_hasd o addr k ck vk ops vops s hs d D HS); auto. Qed.
Lemma bag_len : forall b l sl, bag_stands ops hs b l sl -> length l = 2 ^ b_nv b /\ length sl = 2 ^ b_nv b.
Proof. intros b l sl H. destruct (hasb_len o ck k D w0 b l sl d G0 (bag_hasb _ _ _ H)) as [H1 [H3 _]]. auto. Qed.
Let H2 : 2 < fsize p := st_two _ _ _ _ _ _ _ _ _ _ _ HS.

Lemma selector_check : forall sel l, stands ops hs sel l -> 1 <= d -> 2 * d <= D ->
  exists s', selector_valid_prove s sel = Ok s' /\ drawn (pt_tr s) (pt_tr s') = [] /\
    (boolean l -> accepted o addr vk vops s' (fun _ v => selector_valid_verify v (tp_id sel))) /\ (~ boolean l -> refused addr k s').
Proof.
  intros sel l H H1 H3. destruct (selector_run o ck k D w0 sel l d G0 (stands_hasd _ _ H) H1 H3) as [w' [E1 [S1 T1]]].
  assert (R : ran o ck k D w0 (selector_valid_prove s sel) [] (lz (sel_claim l)) (fun _ v => selector_valid_verify v (tp_id sel)) true).
  { exists w'. split; [exact E1|]. split; [exact S1|]. intros cp vk' N v debug L C. apply (T1 cp vk' N); assumption. }
  destruct (ran_check _ _ _ _ _ R) as [s' [A1 [A2 [A3 [_ A4]]]]]. exists s'. rewrite (sel_claim_zero Hp) in *. auto.
Qed.
Lemma no_zeros_check : forall b l sl, bag_stands ops hs b l sl -> 1 <= d -> 2 * d + 1 <= D ->
  exists s', no_zeros_prove s b = Ok s' /\ drawn (pt_tr s) (pt_tr s') = [] /\
    (~ In F0 (rows l sl) -> accepted o addr vk vops s' (fun debug v => no_zeros_verify debug v (comm_of b))) /\ (In F0 (rows l sl) -> refused addr k s').
Proof.
  intros b l sl H H1 H3. destruct (bag_len _ _ _ H) as [L1 L2]. destruct (bag_hasb _ _ _ H) as [B1 [B2 B3]].
  destruct (no_zeros_run o ck k Hpp0 D w0 b l sl d G0 B1 B2 B3 H1 H3) as [w' [E1 [S1 T1]]].
  assert (R : ran o ck k D w0 (no_zeros_prove s b) [] (lz (nz_claim l sl)) (fun debug v => no_zeros_verify debug v (comm_of b)) true).
  { exists w'. split; [exact E1|]. split; [exact S1|]. intros cp vk' N v debug L C. apply (T1 cp vk' N); assumption. }
  destruct (ran_check _ _ _ _ _ R) as [s' [A1 [A2 [A3 [_ A4]]]]]. exists s'. rewrite (nz_claim_zero Hp) in * by lia. split; [exact A1|]. split; [exact A2|]. split; [auto|]. intros Hin. apply A4. tauto.
Qed.

(** ** The multiset tool and what is built on it *)
Lemma verdict : forall (a b : wbag (p:=p)) g, ~ In g (map fst a) -> ~ In g (map fst b) ->
  (same_bag a b -> Feqb (logd a g) (logd b g) = true) /\ (~ same_bag a b -> ~ unlucky a b g -> Feqb (logd a g) (logd b g) = false).
Proof.
  intros a b g Ha Hb. split.
  - intros H. apply Feqb_eq. apply same_bag_logd. exact H.
  - intros H Hu. destruct (Feqb (logd a g) (logd b g)) eqn:Q; [|reflexivity]. exfalso. apply Hu. apply Feqb_eq in Q. repeat split; assumption.
Qed.
Lemma item_item : forall bm t, item_stands ops hs bm t -> item w0 d bm t.
Proof. intros bm t [H1 [H3 H4]]. destruct (bag_hasb _ _ _ H1) as [B1 [B2 B3]]. split; [exact B1|]. split; [exact B2|]. split; [apply stands_hasd; exact H3|]. split; [exact B3|symmetry; exact H4]. Qed.
Lemma items_item : forall xs ts, Forall2 (item_stands ops hs) xs ts -> Forall2 (item w0 d) xs ts.
Proof. intros xs ts H. induction H; constructor; [apply item_item; assumption|assumption]. Qed.
Lemma item_len : forall bm t, item_stands ops hs bm t -> length (snd (fst t)) = length (fst (fst t)) /\ length (snd t) = length (fst (fst t)).
Proof.
  intros bm t [H1 [H3 H4]]. destruct (bag_len _ _ _ H1) as [L1 L2]. pose proof (hasd_len o ck k D w0 _ _ _ G0 (stands_hasd _ _ H3)) as L3. rewrite H4 in L3. split; congruence.
Qed.
Lemma wcols_fst : forall xs ts, Forall2 (item_stands ops hs) xs ts -> map fst (wcols ts) = flat_map (fun t => fst (fst t)) ts.
Proof.
  intros xs ts H. induction H as [|x t xs ts H _ IH]; [reflexivity|]. unfold wcols in *. cbn [flat_map]. rewrite map_app, IH. f_equal. destruct (item_len _ _ H). apply wcol_fst; assumption.
Qed.
Lemma phis_in : forall g (ts : list (list (F p) * list (F p) * list (F p))), phis_zero g ts <-> ~ In g (flat_map (fun t => fst (fst t)) ts).
Proof.
  intros g ts. unfold phis_zero. induction ts as [|t ts IH]; cbn [flat_map]; [split; [intros _ []|constructor]|]. rewrite Forall_cons_iff, IH, (phi_claim_zero Hp), in_app_iff. tauto.
Qed.
Lemma items_says : forall cp vk' v fx mf ts, lk cp vk' w0 v -> Forall2 (item_stands ops hs) (combine fx mf) ts -> Forall2 (isays cp v) (combine (map comm_of fx) (map tp_id mf)) ts.
Proof.
  intros cp vk' v fx. induction fx as [|b fx IH]; intros mf ts L H; [inversion H; constructor|]. destruct mf as [|m mf]; [inversion H; constructor|]. cbn [combine map] in *. inversion H as [|x t xs us [Hb [Hm Hn]] Hr]; subst. constructor; [|apply IH; assumption].
  cbn [fst snd] in Hb, Hm, Hn. pose proof (hasb_says _ _ _ _ _ (bag_hasb _ _ _ Hb) cp vk' v L) as [X1 X2]. split; [exact X1|]. split; [exact X2|]. cbn [fst snd comm_of bc_nv]. rewrite <- Hn. eapply lk_says; [exact L|apply stands_hasd; exact Hm].
Qed.
Lemma multitool_check : forall fx gx mf mg ts us, fx <> [] -> gx <> [] -> length fx = length mf -> length gx = length mg ->
  Forall2 (item_stands ops hs) (combine fx mf) ts -> Forall2 (item_stands ops hs) (combine gx mg) us -> 1 <= d -> 2 * d + 1 <= D ->
  exists s' g, multitool_prove o s fx gx mf mg = Ok s' /\ drawn (pt_tr s) (pt_tr s') = [g] /\
    let verify debug v := multitool_verify o debug v (map comm_of fx) (map comm_of gx) (map tp_id mf) (map tp_id mg) in
    (~ In g (map fst (wcols ts ++ wcols us)) -> (same_bag (wcols ts) (wcols us) -> accepted o addr vk vops s' verify) /\
      (~ same_bag (wcols ts) (wcols us) -> ~ unlucky (wcols ts) (wcols us) g -> rejected o addr vk vops s' verify IOPInvalidVerifier)) /\
    (In g (map fst (wcols ts ++ wcols us)) -> refused addr k s').
Proof.
  intros fx gx mf mg ts us N1 N2 L1 L2 I1 I2 H1 H3.
  destruct (multitool_run o ck k Hpp0 D Hp H2 w0 d fx gx mf mg ts us G0 N1 N2 L1 L2 (items_item _ _ I1) (items_item _ _ I2) H1 H3) as [w' [g [E1 [S1 T1]]]].
  assert (R : ran o ck k D w0 (multitool_prove o s fx gx mf mg) [g] (phis_zero g (ts ++ us)) (fun debug v => multitool_verify o debug v (map comm_of fx) (map comm_of gx) (map tp_id mf) (map tp_id mg))
    (Feqb (logd (wcols ts) g) (logd (wcols us) g))).
  { exists w'. split; [exact E1|]. split; [exact S1|]. intros cp vk' N v debug L C. apply (T1 cp vk' N); try assumption; rewrite ?map_length; try assumption; [apply (items_says cp vk' v); assumption|apply (items_says cp vk' v); assumption]. }
  destruct (ran_check _ _ _ _ _ R) as [s' [A1 [A2 [A3 [A4 A5]]]]]. exists s', g. split; [exact A1|]. split; [exact A2|]. cbv zeta.
  assert (Hphi : phis_zero g (ts ++ us) <-> ~ In g (map fst (wcols ts ++ wcols us))).
  { rewrite phis_in, map_app, (wcols_fst _ _ I1), (wcols_fst _ _ I2), flat_map_app. reflexivity. }
  split.
  - intros Hg. pose proof Hg as Hg'. rewrite map_app, in_app_iff in Hg'. destruct (verdict (wcols ts) (wcols us) g ltac:(tauto) ltac:(tauto)) as [V1 V2]. rewrite Hphi in A3, A4. split; auto.
  - intros Hg. apply A5. rewrite Hphi. tauto.
Qed.

Lemma clear_in : forall g (l : list (F p)), clear g l <-> ~ In g l. Proof. intros g l. unfold clear. apply (phi_claim_zero Hp). Qed.
Lemma combine_fst : forall (l sl : list (F p)), length sl = length l -> map fst (combine l sl) = l.
Proof. intros l sl H. rewrite <- wcol_one by exact H. apply wcol_fst; [exact H|apply repeat_length]. Qed.
Lemma bag_eq_check : forall fx gx l sl l' sl', bag_stands ops hs fx l sl -> bag_stands ops hs gx l' sl' -> b_nv fx = b_nv gx -> 1 <= d -> 2 * d + 1 <= D ->
  exists s' g, bag_eq_prove o s fx gx = Ok s' /\ drawn (pt_tr s) (pt_tr s') = [g] /\
    let verify debug v := bag_eq_verify o debug v (comm_of fx) (comm_of gx) in
    (~ In g (l ++ l') -> boolean sl -> boolean sl' -> length l < fsize p ->
      (Permutation (rows l sl) (rows l' sl') -> accepted o addr vk vops s' verify) /\
      (~ Permutation (rows l sl) (rows l' sl') -> ~ unlucky (combine l sl) (combine l' sl') g -> rejected o addr vk vops s' verify IOPInvalidVerifier)) /\
    (In g (l ++ l') -> refused addr k s').
Proof.
  intros fx gx l sl l' sl' B1 B2 Hn H1 H3. destruct (bag_len _ _ _ B1) as [L1 L2], (bag_len _ _ _ B2) as [L3 L4]. rewrite <- Hn in L3, L4.
  destruct (bag_eq_run Hp H2 o ck k Hpp0 D w0 fx gx l sl l' sl' d G0 (bag_hasb _ _ _ B1) (bag_hasb _ _ _ B2) Hn H1 H3) as [g R].
  destruct (ran_check _ _ _ _ _ R) as [s' [A1 [A2 [A3 [A4 A5]]]]]. exists s', g. split; [exact A1|]. split; [exact A2|]. cbv zeta.
  rewrite !clear_in in A3, A4, A5. rewrite in_app_iff. split; [|intros Hg; apply A5; tauto].
  intros Hg Hb Hb' Hl. rewrite !wcol_one in A3, A4 by lia. destruct (verdict (combine l sl) (combine l' sl') g) as [V1 V2]; [rewrite combine_fst by lia; tauto|rewrite combine_fst by lia; tauto|].
  pose proof (same_bag_rows Hp l sl l' sl' ltac:(lia) ltac:(lia) Hb Hb' Hl ltac:(lia)) as X. fold (@ones p (length l)) in X. fold (@ones p (length l')) in X. rewrite !wcol_one in X by lia. rewrite <- X.
  split; [intros Hs; apply A3; [tauto|auto]|intros Hs Hu; apply A4; [tauto|auto]].
Qed.
Lemma bag_sum_check : forall f0 f1 gx l0 sl0 l1 sl1 l sl, bag_stands ops hs f0 l0 sl0 -> bag_stands ops hs f1 l1 sl1 -> bag_stands ops hs gx l sl -> 1 <= d -> 2 * d + 1 <= D ->
  exists s' g, bag_sum_prove o s f0 f1 gx = Ok s' /\ drawn (pt_tr s) (pt_tr s') = [g] /\
    let verify debug v := bag_sum_verify o debug v (comm_of f0) (comm_of f1) (comm_of gx) in
    (~ In g (l0 ++ l1 ++ l) -> boolean sl0 -> boolean sl1 -> boolean sl -> length l0 + length l1 < fsize p -> length l < fsize p ->
      (Permutation (rows l0 sl0 ++ rows l1 sl1) (rows l sl) -> accepted o addr vk vops s' verify) /\
      (~ Permutation (rows l0 sl0 ++ rows l1 sl1) (rows l sl) -> ~ unlucky (combine l0 sl0 ++ combine l1 sl1) (combine l sl) g -> rejected o addr vk vops s' verify IOPInvalidVerifier)) /\
    (In g (l0 ++ l1 ++ l) -> refused addr k s').
Proof.
  intros f0 f1 gx l0 sl0 l1 sl1 l sl B1 B2 B3 H1 H3. destruct (bag_len _ _ _ B1) as [L1 L2], (bag_len _ _ _ B2) as [L3 L4], (bag_len _ _ _ B3) as [L5 L6].
  destruct (bag_sum_run Hp H2 o ck k Hpp0 D w0 f0 f1 gx l0 sl0 l1 sl1 l sl d G0 (bag_hasb _ _ _ B1) (bag_hasb _ _ _ B2) (bag_hasb _ _ _ B3) H1 H3) as [g R].
  destruct (ran_check _ _ _ _ _ R) as [s' [A1 [A2 [A3 [A4 A5]]]]]. exists s', g. split; [exact A1|]. split; [exact A2|]. cbv zeta.
  rewrite !clear_in in A3, A4, A5. rewrite !in_app_iff. split; [|intros Hg; apply A5; tauto].
  intros Hg Hb0 Hb1 Hb Hl Hl'. rewrite !wcol_one in A3, A4 by lia. destruct (verdict (combine l0 sl0 ++ combine l1 sl1) (combine l sl) g) as [V1 V2];
    [rewrite map_app, !combine_fst, in_app_iff by lia; tauto|rewrite combine_fst by lia; tauto|].
  pose proof (same_bag_rows Hp (l0 ++ l1) (sl0 ++ sl1) l sl ltac:(rewrite !app_length; lia) ltac:(lia) ltac:(apply Forall_app; split; assumption) Hb ltac:(rewrite app_length; lia) Hl') as X.
  fold (@ones p (length (l0 ++ l1))) in X. fold (@ones p (length l)) in X. rewrite !wcol_one, combine_app', rows_app in X by (rewrite ?app_length; lia). rewrite <- X.
  split; [intros Hs; apply A3; [tauto|auto]|intros Hs Hu; apply A4; [tauto|auto]].
Qed.
Lemma inclusion_check : forall fx gx l sl l' sl', bag_stands ops hs fx l sl -> bag_stands ops hs gx l' sl' -> boolean sl' -> 1 <= d -> 2 * d + 1 <= D ->
  exists s' g ml, inclusion_prove o s fx gx = Ok s' /\ drawn (pt_tr s) (pt_tr s') = [g] /\ length ml = length l' /\ counts_of (rows l sl) (rows l' sl') (wcol l' sl' ml) /\
    let verify debug v := inclusion_verify o debug v (comm_of fx) (comm_of gx) in
    (~ In g (l ++ l') -> boolean sl -> length l < fsize p ->
      (incl (rows l sl) (rows l' sl') -> accepted o addr vk vops s' verify) /\
      (~ incl (rows l sl) (rows l' sl') -> ~ unlucky (combine l sl) (wcol l' sl' ml) g -> rejected o addr vk vops s' verify IOPInvalidVerifier)) /\
    (In g (l ++ l') -> refused addr k s').
Proof.
  intros fx gx l sl l' sl' B1 B2 Hb' H1 H3. destruct (bag_len _ _ _ B1) as [L1 L2], (bag_len _ _ _ B2) as [L3 L4].
  destruct (inclusion_run Hp H2 o ck k Hpp0 D w0 fx gx l sl l' sl' d G0 (bag_hasb _ _ _ B1) (bag_hasb _ _ _ B2) Hb' H1 H3) as [g [ml [[W0 W] R]]].
  destruct (ran_check _ _ _ _ _ R) as [s' [A1 [A2 [A3 [A4 A5]]]]]. exists s', g, ml. split; [exact A1|]. split; [exact A2|]. split; [exact W0|]. split; [exact W|]. cbv zeta.
  rewrite !clear_in in A3, A4, A5. rewrite in_app_iff. split; [|intros Hg; apply A5; tauto].
  intros Hg Hb Hl. rewrite wcol_one in A3, A4 by lia. destruct (verdict (combine l sl) (wcol l' sl' ml) g) as [V1 V2]; [rewrite combine_fst by lia; tauto|rewrite wcol_fst by lia; tauto|].
  pose proof (incl_weights_same Hp l sl l' sl' ml ltac:(lia) Hb Hl ltac:(lia) (conj W0 W)) as X. fold (@ones p (length l)) in X. rewrite wcol_one in X by lia. rewrite <- X.
  split; [intros Hs; apply A3; [tauto|auto]|intros Hs Hu; apply A4; [tauto|auto]].
Qed.
Lemma inclusion_wa_check : forall fx gx m l sl l' sl' ml, bag_stands ops hs fx l sl -> bag_stands ops hs gx l' sl' -> stands ops hs m ml -> b_nv gx = tp_nv m -> 1 <= d -> 2 * d + 1 <= D ->
  exists s' g, inclusion_prove_with_advice o s fx gx m = Ok s' /\ drawn (pt_tr s) (pt_tr s') = [g] /\
    let verify debug v := inclusion_verify_with_advice o debug v (comm_of fx) (comm_of gx) (tp_id m) in
    (~ In g (l ++ l') ->
      (same_bag (combine l sl) (wcol l' sl' ml) -> accepted o addr vk vops s' verify) /\
      (~ same_bag (combine l sl) (wcol l' sl' ml) -> ~ unlucky (combine l sl) (wcol l' sl' ml) g -> rejected o addr vk vops s' verify IOPInvalidVerifier)) /\
    (In g (l ++ l') -> refused addr k s').
Proof.
  intros fx gx m l sl l' sl' ml B1 B2 Hm Hn H1 H3. destruct (bag_len _ _ _ B1) as [L1 L2], (bag_len _ _ _ B2) as [L3 L4].
  pose proof (hasd_len o ck k D w0 _ _ _ G0 (stands_hasd _ _ Hm)) as L5.
  destruct (inclusion_wa_run Hp H2 o ck k Hpp0 D w0 fx gx m l sl l' sl' ml d G0 (bag_hasb _ _ _ B1) (bag_hasb _ _ _ B2) (stands_hasd _ _ Hm) Hn H1 H3) as [g R].
  destruct (ran_check _ _ _ _ _ R) as [s' [A1 [A2 [A3 [A4 A5]]]]]. exists s', g. split; [exact A1|]. split; [exact A2|]. cbv zeta.
  rewrite !clear_in in A3, A4, A5. rewrite in_app_iff. split; [|intros Hg; apply A5; tauto].
  intros Hg. rewrite wcol_one in A3, A4 by lia. rewrite <- Hn in L5. destruct (verdict (combine l sl) (wcol l' sl' ml) g) as [V1 V2]; [rewrite combine_fst by lia; tauto|rewrite wcol_fst by lia; tauto|].
  split; [intros Hs; apply A3; [tauto|auto]|intros Hs Hu; apply A4; [tauto|auto]].
Qed.

(** ** Permutation and sort *)
Lemma hats_folded : forall g (a b : list (F p)), hats g a b = folded g (combine a b). Proof. reflexivity. Qed.
Lemma presc_perm_check : forall dbg fx gx perm l sl l' sl' pl, bag_stands ops hs fx l sl -> bag_stands ops hs gx l' sl' -> stands ops hs perm pl -> b_nv fx = b_nv gx -> b_nv fx = tp_nv perm ->
  1 <= d -> 2 * d + 1 <= D ->
  exists s' g g', presc_perm_prove o dbg s fx gx perm = Ok s' /\ drawn (pt_tr s) (pt_tr s') = [g; g'] /\
    let verify debug v := presc_perm_verify o debug v (comm_of fx) (comm_of gx) (tp_id perm) in
    let a := combine (index_column (b_nv fx)) l in let b := combine pl l' in
    (~ In g' (folded g a ++ folded g b) -> length l < fsize p ->
      (Permutation a b -> accepted o addr vk vops s' verify) /\
      (~ Permutation a b -> ~ clash a b g -> ~ unlucky (unit_bag (folded g a)) (unit_bag (folded g b)) g' -> rejected o addr vk vops s' verify IOPInvalidVerifier)) /\
    (In g' (folded g a ++ folded g b) -> refused addr k s').
Proof.
  intros dbg fx gx perm l sl l' sl' pl B1 B2 Hm Hn Hn' H1 H3. destruct (bag_len _ _ _ B1) as [L1 L2], (bag_len _ _ _ B2) as [L3 L4].
  pose proof (hasd_len o ck k D w0 _ _ _ G0 (stands_hasd _ _ Hm)) as L5. rewrite <- Hn' in L5. rewrite <- Hn in L3.
  destruct (presc_perm_run Hp H2 o ck k Hpp0 D w0 fx gx perm l sl l' sl' pl d dbg G0 (bag_hasb _ _ _ B1) (bag_hasb _ _ _ B2) (stands_hasd _ _ Hm) Hn Hn' H1 H3) as [g [g' R]]. cbv zeta in R.
  destruct (ran_check _ _ _ _ _ R) as [s' [A1 [A2 [A3 [A4 A5]]]]]. exists s', g, g'. split; [exact A1|]. split; [exact A2|]. cbv zeta.
  rewrite !hats_folded in A3, A4, A5. change (ordered_evals (b_nv fx)) with (@index_column p (b_nv fx)) in A3, A4, A5. set (a := combine (index_column (b_nv fx)) l) in *. set (b := combine pl l') in *.
  assert (La : length (folded g a) = length l) by (unfold a, folded; rewrite map_length, combine_length, index_len; lia).
  assert (Lb : length (folded g b) = length l) by (unfold b, folded; rewrite map_length, combine_length; lia).
  rewrite !clear_in in A3, A4, A5. rewrite in_app_iff. split; [|intros Hg; apply A5; tauto].
  intros Hg Hl. rewrite !wcol_unit in A3, A4 by assumption. destruct (verdict (unit_bag (folded g a)) (unit_bag (folded g b)) g') as [V1 V2]; [rewrite unit_fst; tauto|rewrite unit_fst; tauto|].
  pose proof (unit_perm Hp (folded g a) (folded g b) ltac:(lia) ltac:(lia)) as X.
  split; [intros Hs; apply A3; [tauto|apply V1; apply X; apply perm_folded; exact Hs]|intros Hs Hc Hu; apply A4; [tauto|apply V2; [|exact Hu]]]. intros Hq. apply Hs. apply (folded_perm _ _ g Hc). apply X. exact Hq.
Qed.
Lemma strict_sort_check : forall dbg fx rx l sl rl rsl, bag_stands ops hs fx l sl -> bag_stands ops hs rx rl rsl -> 1 <= d -> 2 * d + 3 <= D ->
  exists s' g g1 g2 ml, strict_sort_prove o dbg s fx rx = Ok s' /\ drawn (pt_tr s) (pt_tr s') = [g; g1; g2] /\ length ml = length rl /\ counts_of (steps l) rl (combine rl ml) /\
    let verify debug v := strict_sort_verify o debug v (comm_of fx) (comm_of rx) in
    let avoid := ~ In g1 (folded g (combine (index_column (b_nv fx)) l)) /\ ~ In g2 (F1 :: steps l ++ rl) in
    let strict := forall i, S i < length l -> nth i sl F0 <> F0 -> nth (S i) l F0 <> nth i l F0 in
    (avoid -> sorted_by rl l sl -> length l < fsize p -> accepted o addr vk vops s' verify) /\
    (avoid -> strict -> ~ incl (steps l) rl -> length l < fsize p -> ~ unlucky (unit_bag (steps l)) (combine rl ml) g2 -> rejected o addr vk vops s' verify IOPInvalidVerifier) /\
    (~ (avoid /\ strict) -> refused addr k s').
Proof.
  intros dbg fx rx l sl rl rsl B1 B2 H1 H3. destruct (bag_len _ _ _ B1) as [L1 L2], (bag_len _ _ _ B2) as [L3 L4].
  assert (Hne : l <> []) by (intros ->; cbn in L1; pose proof (pow_pos (b_nv fx)); lia).
  destruct (strict_sort_run Hp H2 o ck k Hpp0 D w0 fx rx l sl rl rsl d dbg G0 (bag_hasb _ _ _ B1) (bag_hasb _ _ _ B2) H1 H3) as [g [g1 [g2 [ml [[W0 W] R]]]]].
  destruct (ran_check _ _ _ _ _ R) as [s' [A1 [A2 [A3 [A4 A5]]]]]. exists s', g, g1, g2, ml. split; [exact A1|]. split; [exact A2|]. split; [exact W0|].
  rewrite (rows_diffs H2 l Hne), (rows_ones Hp), (wcol_sel1 rl ml W0) in W. split; [exact W|]. cbv zeta.
  rewrite hats_folded in A3, A4, A5. change (ordered_evals (b_nv fx)) with (@index_column p (b_nv fx)) in A3, A4, A5. rewrite (steps_diffs H2 l g2 Hne), (wcol_sel1 rl ml W0) in A3, A4.
  pose proof (diffs_len l Hne) as Ld. rewrite !clear_in, (nz_claim_zero Hp), (in_diffs H2 l g2 Hne) in A3, A4, A5 by lia. rewrite (strict_rows H2 l sl Hne) in A3, A4, A5 by lia.
  assert (Hin : In g2 (F1 :: steps l ++ rl) <-> In g2 (F1 :: steps l) \/ In g2 rl) by (clear; cbn [In]; rewrite in_app_iff; tauto). rewrite Hin. clear Hin.
  assert (Lst : length (steps l) < length l) by (unfold steps; rewrite map_length, seq_length; destruct l; [contradiction|cbn; lia]).
  assert (X : length l < fsize p -> (same_bag (unit_bag (steps l)) (combine rl ml) <-> incl (steps l) rl)).
  { intros Hl. pose proof (incl_weights_same Hp (steps l) (ones (length (steps l))) rl (ones (length rl)) ml) as X. rewrite !(rows_ones Hp), (wcol_sel1 rl ml W0) in X. fold (@ones p (length (steps l))) in X. rewrite wcol_unit in X by reflexivity.
    apply X; unfold ones; rewrite ?repeat_length; auto; [apply ones_boolean|lia|]. split; [exact W0|]. fold (@ones p (length (steps l))). fold (@ones p (length rl)). rewrite !(rows_ones Hp), (wcol_sel1 rl ml W0). exact W. }
  assert (V : ~ In g2 (F1 :: steps l) -> ~ In g2 rl -> _) by (intros Q1 Q2; exact (verdict (unit_bag (steps l)) (combine rl ml) g2 ltac:(rewrite unit_fst; cbn [In] in Q1; clear - Q1; tauto) ltac:(rewrite combine_fst by exact W0; exact Q2))).
  split; [|split].
  - intros [Ha1 Ha2] Hs Hl. assert (Q1 : ~ In g2 (F1 :: steps l)) by (clear - Ha2; tauto). assert (Q2 : ~ In g2 rl) by (clear - Ha2; tauto).
    apply A3; [split; [exact Ha1|]; split; [exact Q1|]; split; [exact Q2|]; intros i Hi; apply Hs; exact Hi|].
    apply (proj1 (V Q1 Q2)). apply X; [exact Hl|]. intros x Hx. unfold steps in Hx. apply in_map_iff in Hx. destruct Hx as [i [<- Hi]]. apply in_seq in Hi. apply Hs. lia.
  - intros [Ha1 Ha2] Hs Hni Hl Hu. assert (Q1 : ~ In g2 (F1 :: steps l)) by (clear - Ha2; tauto). assert (Q2 : ~ In g2 rl) by (clear - Ha2; tauto).
    apply A4; [split; [exact Ha1|]; split; [exact Q1|]; split; [exact Q2|exact Hs]|]. apply (proj2 (V Q1 Q2)); [|exact Hu]. rewrite X by exact Hl. exact Hni.
  - intros Hn. apply A5. clear - Hn. tauto.
Qed.
End S.
End M.
