(** Runs of query plans, from the prover's calls to the verifier's verdict. *)
From Coq Require Import String List Arith Lia Bool ZArith Znumtheory Permutation Sorted.
Import ListNotations.
From Verif Require Import Res ResLemmas Fp FSum SpecMle SpecKzg SpecPoly PolyLemmas SpecSumcheck SpecBatch SpecTracker SpecIop SpecRel SpecJoin ModelMle MleLemmas MleProofs MleExtra ModelVp ModelTranscript ModelSumcheck
  Pairing ModelKzg ModelBatch ModelProver ModelVerifier ModelAdvice ModelIop ProverHist VerifierHist CompileHist SessHist IopHist IopRes TmapLemmas ProverProofs HistExtra LockProofs
  CompileMain CompileSound LogDeriv BagLemmas AdviceProofs AdviceProofs2 AdviceProofs5 IopWorld IopMain IopBasic IopMulti IopRuns IopSort IopVer IopSound IopSound2 SortSound IopCheck IopComp IopClaims CompSound CompSound2 CompSound3 CompClaims RelClaims IopComp2 IopComp3 IopComp4 CompCheck CompCheck2 SessProofs IopFull PlanHist IopSplit.
Local Open Scope string_scope.
Local Open Scope list_scope.
Local Open Scope nat_scope.

Section M.
Context {p : positive} {E : pairing p}.
Hypothesis HE : pairing_laws E.
Hypothesis Hp : prime (Zpos p).
Notation comm := (gcar (PG1 E)).
Implicit Types (w : wd (E:=E)) (v : vtrk E).
Add Ring Fq : (@F_ring p).

Section T.
Hypothesis H2 : 2 < fsize p.
Variables (o : oracle p comm) (ck : pparam E) (k : nat).
Hypothesis Hpp : forall n l, n <= k -> length l = 2 ^ n -> exists c, kzg_commit ck (mkMle n l) = Ok c.
Variables (D : nat) (dbg : bool).
Hypothesis HD : 1 <= D.
Notation good := (good o ck k D).
Notation step := (step o ck k D).
Notation ran := (ran o ck k D).
Notation ran_at := (ran_at o ck k D).
Notation gives := (gives o ck k D).

Definition does w w1 (r : res (list tpoly * ptrk E)) (hs : list tpoly) (ds : list (F p)) (P : Prop) (ver : bool -> vtrk E -> res (list tpoly * vtrk E)) (b : bool) : Prop :=
  r = Ok (hs, ws w1) /\ step w w1 ds P /\
    forall cp vk N v debug, lk cp vk w v -> cov cp N w1 -> exists v', ver debug v = (if b then Ok (hs, v') else Err IOPInvalidVerifier) /\ lk cp vk w1 v' /\ vext v v'.
Definition done w (t : task) (R : report) : Prop :=
  exists w1 hs rs out P b, R hs rs out /\ does w w1 (prove1 o dbg (ws w) t) hs (drew out) P (fun debug v => verify1 o debug v t) b /\
    Forall2 (fun h r => hasf w1 h (fst r) (snd r)) hs rs /\ (avoided out -> holds out -> P /\ b = true) /\ (P -> avoided out) /\ (P -> b = true -> fair out -> holds out).

Lemma quiet_done : forall w t (Q : outcome -> Prop) out P b r ver, ran w r (drew out) P ver b -> prove1 o dbg (ws w) t = nothing r -> (forall debug v, verify1 o debug v t = nothing (ver debug v)) -> Q out ->
  (avoided out -> holds out -> P /\ b = true) -> (P -> avoided out) -> (P -> b = true -> fair out -> holds out) -> done w t (quiet Q).
Proof.
  intros w t Q out P b r ver [w1 [E1 [S1 T1]]] Hr Hv HQ A1 A2 A3. exists w1, [], [], out, P, b. split; [split; [reflexivity|]; split; [reflexivity|exact HQ]|]. split; [|split; [constructor|auto]].
  split; [rewrite Hr, E1; reflexivity|]. split; [exact S1|]. intros cp vk N v debug L C. destruct (T1 cp vk N v debug L C) as [v' [X Y]]. exists v'. split; [|exact Y]. rewrite Hv, X. destruct b; reflexivity.
Qed.
Lemma column_done : forall w t n l d (r : res (tpoly * ptrk E)) (ver : bool -> vtrk E -> res (nat * vtrk E)) w1 h, gives w w1 r h [] True ver (tp_id h) -> hasf w1 h l d -> tp_nv h = n ->
  prove1 o dbg (ws w) t = single r -> (forall debug v, verify1 o debug v t = (iv <- ver debug v ;; one_id n iv)) -> done w t (column_of n l d).
Proof.
  intros w t n l d r ver w1 h [E1 [S1 T1]] Hh Hn Hr Hv. exists w1, [h], [(l, d)], (mkOut [] True True True), True, true. split; [exists h; auto|]. split; [|split; [constructor; [exact Hh|constructor]|auto]].
  split; [rewrite Hr, E1; reflexivity|]. split; [exact S1|]. intros cp vk N v debug L C. destruct (T1 cp vk N v debug L C) as [v' [X Y]]. exists v'. split; [|exact Y]. rewrite Hv, X. cbn [bind one_id fst snd]. destruct h as [id m]. cbn in *. subst n. reflexivity.
Qed.

Section W.
Variables (w : wd (E:=E)) (K : known (p:=p)).
Hypothesis G : good w.
Hypothesis HF : forall h l d, K h l d -> hasf w h l d.
Let HK : forall h l d, K h l d -> hasd w h l d := fun h l d H => proj1 (HF h l d H).
Lemma has : forall b l sl d, bag_known K b l sl d -> hasb w b l sl d. Proof. intros b l sl d [A [B C]]. split; [apply HK; exact A|]. split; [apply HK; exact B|exact C]. Qed.
Lemma len : forall b l sl d, bag_known K b l sl d -> length l = 2 ^ b_nv b /\ length sl = 2 ^ b_nv b.
Proof. intros b l sl d H. destruct (hasb_len o ck k D w b l sl d G (has _ _ _ _ H)) as [A [B _]]. auto. Qed.
Lemma hasv : forall t cols sl d, table_known K t cols sl d -> hast w t cols sl d.
Proof. intros t cols sl d [A B]. split; [|apply HK; exact B]. clear -A HK. induction A as [|c l cs ls [A1 A2] A3 IH]; constructor; [split; [apply HK; exact A1|exact A2]|exact IH]. Qed.
Lemma lenv : forall t cols sl d, table_known K t cols sl d -> Forall (fun l => length l = 2 ^ t_nv t) cols /\ length sl = 2 ^ t_nv t /\ length cols = length (t_cols t).
Proof. intros t cols sl d H. exact (hast_len o ck k D _ _ _ _ _ G (hasv _ _ _ _ H)). Qed.
Lemma lend : forall h l d, K h l d -> length l = 2 ^ tp_nv h. Proof. intros h l d H. exact (hasd_len o ck k D _ _ _ _ G (HK _ _ _ H)). Qed.

(** ** Calls of the tracker *)
Lemma do_commit : forall n l, length l = 2 ^ n -> n <= k -> done w (TCommit (mkMle n l)) (column_of n l 1).
Proof.
  intros n l Hl Hn. destruct (gives_commit_full o ck k Hpp D w n l 1 G Hl Hn HD ltac:(lia)) as [w1 [h [I1 [R [H1 N1]]]]]. eapply column_done; [exact R|exact (conj H1 I1)|exact N1|reflexivity|reflexivity].
Qed.
Lemma do_add : forall a b la lb da db, K a la da -> K b lb db -> tp_nv a = tp_nv b -> Nat.max da db <= D -> done w (TAdd a b) (column_of (tp_nv a) (pointwise Fadd la lb) (Nat.max da db)).
Proof. intros a b la lb da db Ha Hb Hn Hm. destruct (full_add o ck k D w a b la lb da db G (HF _ _ _ Ha) (HF _ _ _ Hb) Hn Hm) as [w1 [h [R [H1 N1]]]]. eapply column_done; [exact R|exact H1|exact N1|reflexivity|reflexivity]. Qed.
Lemma do_sub : forall a b la lb da db, K a la da -> K b lb db -> tp_nv a = tp_nv b -> Nat.max da db <= D -> done w (TSub a b) (column_of (tp_nv a) (pointwise Fsub la lb) (Nat.max da db)).
Proof. intros a b la lb da db Ha Hb Hn Hm. destruct (full_sub o ck k D w a b la lb da db G (HF _ _ _ Ha) (HF _ _ _ Hb) Hn Hm) as [w1 [h [R [H1 N1]]]]. eapply column_done; [exact R|exact H1|exact N1|reflexivity|reflexivity]. Qed.
Lemma do_mul : forall a b la lb da db, K a la da -> K b lb db -> tp_nv a = tp_nv b -> da + db <= D -> done w (TMul a b) (column_of (tp_nv a) (pointwise Fmul la lb) (da + db)).
Proof. intros a b la lb da db Ha Hb Hn Hm. destruct (full_mul o ck k D w a b la lb da db G (HF _ _ _ Ha) (HF _ _ _ Hb) Hn Hm) as [w1 [h [R [H1 N1]]]]. eapply column_done; [exact R|exact H1|exact N1|reflexivity|reflexivity]. Qed.
Lemma do_adds : forall a c la da, K a la da -> da <= D -> done w (TAddS a c) (column_of (tp_nv a) (map (fun x => Fadd x c) la) da).
Proof. intros a c la da Ha Hm. destruct (full_adds o ck k D w a la da G (HF _ _ _ Ha) c Hm) as [w1 [h [R [H1 N1]]]]. eapply column_done; [exact R|exact H1|exact N1|reflexivity|reflexivity]. Qed.
Lemma do_muls : forall a c la da, K a la da -> da <= D -> done w (TMulS a c) (column_of (tp_nv a) (map (fun x => Fmul x c) la) da).
Proof. intros a c la da Ha Hm. destruct (full_muls o ck k D w a la da G (HF _ _ _ Ha) c Hm) as [w1 [h [R [H1 N1]]]]. eapply column_done; [exact R|exact H1|exact N1|reflexivity|reflexivity]. Qed.
Lemma do_front : forall a m la da, K a la da -> tp_nv a + m <= k -> done w (TFront a m) (column_of (tp_nv a + m) (repeat_each (2 ^ m) la) 1).
Proof. intros a m la da Ha Hm. destruct (full_front o ck k D w a la da G (HF _ _ _ Ha) m Hm HD) as [w1 [h [R [H1 N1]]]]. eapply column_done; [exact R|exact H1|exact N1|reflexivity|reflexivity]. Qed.
Lemma do_back : forall a m la da, K a la da -> tp_nv a + m <= k -> tp_nv a <= m -> done w (TBack a m) (column_of (tp_nv a + m) (repeat_all (2 ^ m) la) 1).
Proof. intros a m la da Ha Hm Hn. destruct (full_back o ck k D w a la da G (HF _ _ _ Ha) m Hm Hn HD) as [w1 [h [R [H1 N1]]]]. eapply column_done; [exact R|exact H1|exact N1|reflexivity|reflexivity]. Qed.
Lemma do_zero : forall a l d, K a l d -> done w (TZero a) (quiet (eq (mkOut [] (Forall (fun y => y = F0) l) True True))).
Proof.
  intros a l d Ha. pose proof (gives_zero o ck k D w a l d G (HK _ _ _ Ha)) as R. eapply (quiet_done w _ _ (mkOut [] _ _ _)); [exact R|reflexivity|reflexivity|reflexivity| | |]; cbn [avoided holds fair]; unfold lz; auto.
Qed.

(** ** Protocols *)
Lemma do_selector : forall sel l d, K sel l d -> 1 <= d -> 2 * d <= D -> done w (TSelector sel) (quiet (eq (mkOut [] (boolean l) True True))).
Proof.
  intros sel l d H H1 H3. pose proof (selector_ran o ck k D w sel l d G (HK _ _ _ H) H1 H3) as R. eapply (quiet_done w _ _ (mkOut [] _ _ _)); [exact R|reflexivity|reflexivity|reflexivity| | |]; cbn [avoided holds fair]; rewrite ?(sel_claim_zero Hp); auto.
Qed.
Lemma do_no_zeros : forall b l sl d, bag_known K b l sl d -> 1 <= d -> 2 * d + 1 <= D -> done w (TNoZeros b) (quiet (eq (mkOut [] (~ In F0 (rows l sl)) True True))).
Proof.
  intros b l sl d H H1 H3. destruct (len _ _ _ _ H) as [L1 L2]. pose proof (no_zeros_ran o ck k Hpp D w b l sl d G (has _ _ _ _ H) H1 H3) as R.
  eapply (quiet_done w _ _ (mkOut [] _ _ _)); [exact R|reflexivity|reflexivity|reflexivity| | |]; cbn [avoided holds fair]; rewrite ?(nz_claim_zero Hp) by lia; auto.
Qed.
Lemma item_has : forall d bm t, item_known K d bm t -> item w d bm t.
Proof. intros d bm t [A [B C]]. destruct (has _ _ _ _ A) as [A1 [A2 A3]]. split; [exact A1|]. split; [exact A2|]. split; [apply HK; exact B|]. split; [exact A3|symmetry; exact C]. Qed.
Lemma items_has : forall d xs ts, Forall2 (item_known K d) xs ts -> Forall2 (item w d) xs ts. Proof. intros d xs ts H. induction H; constructor; [apply item_has; assumption|assumption]. Qed.
Lemma item_lens : forall d bm t, item_known K d bm t -> length (snd (fst t)) = length (fst (fst t)) /\ length (snd t) = length (fst (fst t)).
Proof. intros d bm t [A [B C]]. destruct (len _ _ _ _ A) as [L1 L2]. pose proof (lend _ _ _ B) as L3. rewrite C in L3. split; congruence. Qed.
Lemma items_fst : forall d xs ts, Forall2 (item_known K d) xs ts -> map fst (wcols ts) = flat_map (fun t => fst (fst t)) ts.
Proof. intros d xs ts H. induction H as [|x t xs ts H _ IH]; [reflexivity|]. unfold wcols in *. cbn [flat_map]. rewrite map_app, IH. f_equal. destruct (item_lens _ _ _ H). apply wcol_fst; assumption. Qed.
Lemma items_read : forall d cp vk v fx mf ts, lk cp vk w v -> Forall2 (item_known K d) (combine fx mf) ts -> Forall2 (isays cp v) (combine (map comm_of fx) (map tp_id mf)) ts.
Proof.
  intros d cp vk v fx. induction fx as [|b fx IH]; intros mf ts L H; [inversion H; constructor|]. destruct mf as [|m mf]; [inversion H; constructor|]. cbn [combine map] in *. inversion H as [|x t xs us [Hb [Hm Hn]] Hr]; subst. constructor; [|apply IH; assumption].
  cbn [fst snd] in Hb, Hm, Hn. pose proof (hasb_says _ _ _ _ _ (has _ _ _ _ Hb) cp vk v L) as [X1 X2]. split; [exact X1|]. split; [exact X2|]. cbn [fst snd comm_of bc_nv]. rewrite <- Hn. eapply lk_says; [exact L|apply HK; exact Hm].
Qed.
Lemma do_multi : forall fx gx mf mg ts us d, fx <> [] -> gx <> [] -> length fx = length mf -> length gx = length mg -> Forall2 (item_known K d) (combine fx mf) ts -> Forall2 (item_known K d) (combine gx mg) us -> 1 <= d -> 2 * d + 1 <= D ->
  done w (TMulti fx gx mf mg) (quiet (fun out => exists g, out = mkOut [g] (same_bag (wcols ts) (wcols us)) (~ In g (map fst (wcols ts ++ wcols us))) (~ unlucky (wcols ts) (wcols us) g))).
Proof.
  intros fx gx mf mg ts us d N1 N2 L1 L2 I1 I2 H1 H3. destruct (multitool_run o ck k Hpp D Hp H2 w d fx gx mf mg ts us G N1 N2 L1 L2 (items_has _ _ _ I1) (items_has _ _ _ I2) H1 H3) as [w' [g [E1 [S1 T1]]]].
  assert (R : ran w (multitool_prove o (ws w) fx gx mf mg) [g] (phis_zero g (ts ++ us)) (fun debug v => multitool_verify o debug v (map comm_of fx) (map comm_of gx) (map tp_id mf) (map tp_id mg)) (Feqb (logd (wcols ts) g) (logd (wcols us) g))).
  { exists w'. split; [exact E1|]. split; [exact S1|]. intros cp vk' N v debug L C. apply (T1 cp vk' N); try assumption; rewrite ?map_length; try assumption; [apply (items_read d cp vk' v); assumption|apply (items_read d cp vk' v); assumption]. }
  assert (Hphi : phis_zero g (ts ++ us) <-> ~ In g (map fst (wcols ts ++ wcols us))) by (rewrite (phis_in Hp), map_app, (items_fst _ _ _ I1), (items_fst _ _ _ I2), flat_map_app; reflexivity).
  assert (V : ~ In g (map fst (wcols ts ++ wcols us)) -> _) by (intros Q; rewrite map_app, in_app_iff in Q; exact (fits_verdict (wcols ts) (wcols us) g ltac:(tauto) ltac:(tauto))).
  eapply (quiet_done w _ _ (mkOut [g] _ _ _)); [exact R|reflexivity|reflexivity|exists g; reflexivity| | |]; cbn [avoided holds fair]; rewrite ?Hphi; [|auto|].
  - intros Ha Hs. split; [exact Ha|]. apply (V Ha). exact Hs.
  - intros Ha Hf Hu. apply (V Ha); assumption.
Qed.
Lemma do_bag_eq : forall fx gx l sl l' sl' d, bag_known K fx l sl d -> bag_known K gx l' sl' d -> b_nv fx = b_nv gx -> 1 <= d -> 2 * d + 1 <= D -> boolean sl -> boolean sl' -> length l < fsize p ->
  done w (TBagEq fx gx) (quiet (fun out => exists g, out = mkOut [g] (Permutation (rows l sl) (rows l' sl')) (~ In g (l ++ l')) (~ unlucky (combine l sl) (combine l' sl') g))).
Proof.
  intros fx gx l sl l' sl' d B1 B2 Hn H1 H3 Hb Hb' Hl. destruct (len _ _ _ _ B1) as [L1 L2], (len _ _ _ _ B2) as [L3 L4]. rewrite <- Hn in L3, L4.
  destruct (bag_eq_run Hp H2 o ck k Hpp D w fx gx l sl l' sl' d G (has _ _ _ _ B1) (has _ _ _ _ B2) Hn H1 H3) as [g R]. rewrite !wcol_one in R by lia.
  pose proof (same_bag_rows Hp l sl l' sl' ltac:(lia) ltac:(lia) Hb Hb' Hl ltac:(lia)) as X. fold (@ones p (length l)) in X. fold (@ones p (length l')) in X. rewrite !wcol_one in X by lia.
  assert (V : ~ In g (l ++ l') -> _) by (intros Q; rewrite in_app_iff in Q; exact (fits_verdict (combine l sl) (combine l' sl') g ltac:(rewrite combine_fst by lia; tauto) ltac:(rewrite combine_fst by lia; tauto))).
  assert (Hc : clear g l /\ clear g l' <-> ~ In g (l ++ l')) by (rewrite !(clear_in Hp), in_app_iff; tauto).
  eapply (quiet_done w _ _ (mkOut [g] _ _ _)); [exact R|reflexivity|reflexivity|exists g; reflexivity| | |]; cbn [avoided holds fair]; rewrite ?Hc, <- ?X; [|auto|].
  - intros Ha Hs. split; [exact Ha|]. apply (V Ha). exact Hs.
  - intros Ha Hf Hu. apply (V Ha); assumption.
Qed.
Lemma do_bag_sum : forall f0 f1 gx l0 sl0 l1 sl1 l sl d, bag_known K f0 l0 sl0 d -> bag_known K f1 l1 sl1 d -> bag_known K gx l sl d -> 1 <= d -> 2 * d + 1 <= D -> boolean sl0 -> boolean sl1 -> boolean sl ->
  length l0 + length l1 < fsize p -> length l < fsize p ->
  done w (TBagSum f0 f1 gx) (quiet (fun out => exists g, out = mkOut [g] (Permutation (rows l0 sl0 ++ rows l1 sl1) (rows l sl)) (~ In g (l0 ++ l1 ++ l)) (~ unlucky (combine l0 sl0 ++ combine l1 sl1) (combine l sl) g))).
Proof.
  intros f0 f1 gx l0 sl0 l1 sl1 l sl d B1 B2 B3 H1 H3 Hb0 Hb1 Hb Hl Hl'. destruct (len _ _ _ _ B1) as [L1 L2], (len _ _ _ _ B2) as [L3 L4], (len _ _ _ _ B3) as [L5 L6].
  destruct (sum_at Hp H2 o ck k Hpp D w f0 f1 gx l0 sl0 l1 sl1 l sl d G (has _ _ _ _ B1) (has _ _ _ _ B2) (has _ _ _ _ B3) H1 H3) as [w1 [g R]].
  assert (V : ~ In g (l0 ++ l1 ++ l) -> _) by (intros Q; exact (sum_fits_verdict Hp H2 l0 sl0 l1 sl1 l sl g ltac:(lia) ltac:(lia) ltac:(lia) Hb0 Hb1 Hb Hl Hl' Q)).
  assert (Hc : clear g l0 /\ clear g l1 /\ clear g l <-> ~ In g (l0 ++ l1 ++ l)) by (rewrite !(clear_in Hp), !in_app_iff; tauto).
  eapply (quiet_done w _ _ (mkOut [g] _ _ _)); [exact (at_ran _ _ _ _ _ _ _ _ _ _ _ R)|reflexivity|reflexivity|exists g; reflexivity| | |]; cbn [avoided holds fair]; rewrite ?Hc; [|auto|].
  - intros Ha Hs. split; [exact Ha|]. apply (V Ha). exact Hs.
  - intros Ha Hf Hu. apply (V Ha); assumption.
Qed.
Lemma do_incl : forall fx gx l sl l' sl' d, bag_known K fx l sl d -> bag_known K gx l' sl' d -> 1 <= d -> 2 * d + 1 <= D -> boolean sl -> boolean sl' -> length l < fsize p ->
  done w (TIncl fx gx) (quiet (fun out => exists g ml, length ml = length l' /\ counts_of (rows l sl) (rows l' sl') (wcol l' sl' ml) /\ out = mkOut [g] (incl (rows l sl) (rows l' sl')) (~ In g (l ++ l')) (~ unlucky (combine l sl) (wcol l' sl' ml) g))).
Proof.
  intros fx gx l sl l' sl' d B1 B2 H1 H3 Hb Hb' Hl. destruct (len _ _ _ _ B1) as [L1 L2], (len _ _ _ _ B2) as [L3 L4].
  destruct (incl_at Hp H2 o ck k Hpp D w fx gx l sl l' sl' d G (has _ _ _ _ B1) (has _ _ _ _ B2) Hb' H1 H3) as [w1 [g [ml [HW R]]]]. pose proof (incl_same Hp H2 l sl l' sl' ml ltac:(lia) ltac:(lia) Hb Hl HW) as X. destruct HW as [W0 W].
  assert (V : ~ In g (l ++ l') -> _) by (intros Q; exact (incl_fits_verdict l sl l' sl' ml g ltac:(lia) ltac:(lia) ltac:(lia) Q)).
  assert (Hc : clear g l /\ clear g l' <-> ~ In g (l ++ l')) by (rewrite !(clear_in Hp), in_app_iff; tauto).
  eapply (quiet_done w _ _ (mkOut [g] _ _ _)); [exact (at_ran _ _ _ _ _ _ _ _ _ _ _ R)|reflexivity|reflexivity|exists g, ml; split; [exact W0|split; [exact W|reflexivity]]| | |]; cbn [avoided holds fair]; rewrite ?Hc, <- ?X; [|auto|].
  - intros Ha Hs. split; [exact Ha|]. apply (V Ha). exact Hs.
  - intros Ha Hf Hu. apply (V Ha); assumption.
Qed.
Lemma do_incl_wa : forall fx gx m l sl l' sl' ml d, bag_known K fx l sl d -> bag_known K gx l' sl' d -> K m ml d -> b_nv gx = tp_nv m -> 1 <= d -> 2 * d + 1 <= D ->
  done w (TInclWa fx gx m) (quiet (fun out => exists g, out = mkOut [g] (same_bag (combine l sl) (wcol l' sl' ml)) (~ In g (l ++ l')) (~ unlucky (combine l sl) (wcol l' sl' ml) g))).
Proof.
  intros fx gx m l sl l' sl' ml d B1 B2 Hm Hn H1 H3. destruct (len _ _ _ _ B1) as [L1 L2], (len _ _ _ _ B2) as [L3 L4]. pose proof (lend _ _ _ Hm) as L5. rewrite <- Hn in L5.
  destruct (incl_wa_at Hp H2 o ck k Hpp D w fx gx m l sl l' sl' ml d G (has _ _ _ _ B1) (has _ _ _ _ B2) (HK _ _ _ Hm) Hn H1 H3) as [w1 [g R]].
  assert (V : ~ In g (l ++ l') -> _) by (intros Q; exact (incl_fits_verdict l sl l' sl' ml g ltac:(lia) ltac:(lia) ltac:(lia) Q)).
  assert (Hc : clear g l /\ clear g l' <-> ~ In g (l ++ l')) by (rewrite !(clear_in Hp), in_app_iff; tauto).
  eapply (quiet_done w _ _ (mkOut [g] _ _ _)); [exact (at_ran _ _ _ _ _ _ _ _ _ _ _ R)|reflexivity|reflexivity|exists g; reflexivity| | |]; cbn [avoided holds fair]; rewrite ?Hc; [|auto|].
  - intros Ha Hs. split; [exact Ha|]. apply (V Ha). exact Hs.
  - intros Ha Hf Hu. apply (V Ha); assumption.
Qed.
Lemma do_perm : forall fx gx perm l sl l' sl' pl d, bag_known K fx l sl d -> bag_known K gx l' sl' d -> K perm pl d -> b_nv fx = b_nv gx -> b_nv fx = tp_nv perm -> 1 <= d -> 2 * d + 1 <= D -> length l < fsize p ->
  done w (TPerm fx gx perm) (quiet (fun out => exists g g', let a := combine (index_column (b_nv fx)) l in let b := combine pl l' in
    out = mkOut [g; g'] (Permutation a b) (~ In g' (folded g a ++ folded g b)) (~ clash a b g /\ ~ unlucky (unit_bag (folded g a)) (unit_bag (folded g b)) g'))).
Proof.
  intros fx gx perm l sl l' sl' pl d B1 B2 Hm Hn Hn' H1 H3 Hl. destruct (len _ _ _ _ B1) as [L1 L2], (len _ _ _ _ B2) as [L3 L4]. pose proof (lend _ _ _ Hm) as L5. rewrite <- Hn' in L5. rewrite <- Hn in L3.
  destruct (presc_perm_run Hp H2 o ck k Hpp D w fx gx perm l sl l' sl' pl d dbg G (has _ _ _ _ B1) (has _ _ _ _ B2) (HK _ _ _ Hm) Hn Hn' H1 H3) as [g [g' R]]. cbv zeta in R.
  rewrite !hats_folded in R. change (ordered_evals (b_nv fx)) with (@index_column p (b_nv fx)) in R. set (a := combine (index_column (b_nv fx)) l) in *. set (b := combine pl l') in *.
  assert (La : length (folded g a) = length l) by (unfold a, folded; rewrite map_length, combine_length, index_len; lia). assert (Lb : length (folded g b) = length l) by (unfold b, folded; rewrite map_length, combine_length; lia). rewrite !wcol_unit in R by assumption.
  pose proof (unit_perm Hp (folded g a) (folded g b) ltac:(lia) ltac:(lia)) as X.
  assert (V : ~ In g' (folded g a ++ folded g b) -> _) by (intros Q; rewrite in_app_iff in Q; exact (fits_verdict (unit_bag (folded g a)) (unit_bag (folded g b)) g' ltac:(rewrite unit_fst; tauto) ltac:(rewrite unit_fst; tauto))).
  assert (Hc : clear g' (folded g a) /\ clear g' (folded g b) <-> ~ In g' (folded g a ++ folded g b)) by (rewrite !(clear_in Hp), in_app_iff; tauto).
  eapply (quiet_done w _ _ (mkOut [g; g'] _ _ _)); [exact R|reflexivity|reflexivity|exists g, g'; reflexivity| | |]; cbn [avoided holds fair]; rewrite ?Hc; [|auto|].
  - intros Ha Hs. split; [exact Ha|]. apply (V Ha). apply X. apply perm_folded. exact Hs.
  - intros Ha Hf [Hcl Hu]. apply (folded_perm _ _ g Hcl). apply X. apply (V Ha); assumption.
Qed.
Lemma do_sort : forall fx rx l sl rl rsl d, bag_known K fx l sl d -> bag_known K rx rl rsl d -> 1 <= d -> 2 * d + 3 <= D -> length l < fsize p ->
  done w (TSort fx rx) (quiet (fun out => exists g g1 g2 wl, length wl = length rl /\ counts_of (steps l) rl (combine rl wl) /\
    out = mkOut [g; g1; g2] (sorted_by rl l sl) (sort_avoids (b_nv fx) l rl g g1 g2) (~ unlucky (unit_bag (steps l)) (combine rl wl) g2))).
Proof.
  intros fx rx l sl rl rsl d B1 B2 H1 H3 Hl. destruct (len _ _ _ _ B1) as [L1 L2]. pose proof (pow_ne' H2 _ _ L1) as Hne.
  destruct (sort_at Hp H2 o ck k Hpp D w fx rx l sl rl rsl d dbg G (has _ _ _ _ B1) (has _ _ _ _ B2) H1 H3) as [w1 [g [g1 [g2 [wl [HW R]]]]]]. destruct (range_sense Hp H2 l rl wl Hne HW) as [W1 W2].
  pose proof (sort_sense Hp H2 (b_nv fx) l sl rl g g1 g2 L1 L2) as X.
  eapply (quiet_done w _ _ (mkOut [g; g1; g2] _ _ _)); [exact (at_ran _ _ _ _ _ _ _ _ _ _ _ R)|reflexivity|reflexivity|exists g, g1, g2, wl; split; [exact W1|split; [exact W2|reflexivity]]| | |]; cbn [avoided holds fair]; rewrite ?X, ?(sorted_split H2); [|tauto|].
  - intros Ha [Hs1 Hs2]. split; [split; [exact Ha|exact Hs2]|]. apply (sort_verdict Hp H2 (b_nv fx) l rl wl g g1 g2 Hne HW Hl Ha). exact Hs1.
  - intros [Ha Hs] Hf Hu. split; [|exact Hs]. exact (proj2 (sort_verdict Hp H2 (b_nv fx) l rl wl g g1 g2 Hne HW Hl Ha) Hf Hu).
Qed.
Lemma do_supp : forall b sup rx l sl l' sl' rl rsl d, bag_known K b l sl d -> bag_known K sup l' sl' d -> bag_known K rx rl rsl d -> 1 <= d -> 2 * d + 3 <= D ->
  boolean sl -> boolean sl' -> length l < fsize p -> length l' < fsize p -> small_range rl (b_nv sup) ->
  done w (TSupp b sup rx) (quiet (fun out => exists h g g1 g2 ml wl, length ml = length l' /\ counts_of (rows l sl) (rows l' sl') (wcol l' sl' ml) /\ length wl = length rl /\ counts_of (steps l') rl (combine rl wl) /\
    out = mkOut [h; g; g1; g2] (sorted_by rl l' sl' /\ forall x, In x (rows l' sl') <-> In x (rows l sl)) (~ In h (l ++ l') /\ sort_avoids (b_nv sup) l' rl g g1 g2)
      (~ unlucky (combine l sl) (wcol l' sl' ml) h /\ ~ unlucky (unit_bag (steps l')) (combine rl wl) g2))).
Proof.
  intros b sup rx l sl l' sl' rl rsl d B1 B2 B3 H1 H3 Hb Hb' Hl Hl' Hr. destruct (len _ _ _ _ B1) as [L1 L2], (len _ _ _ _ B2) as [L3 L4].
  destruct (supp_at Hp H2 o ck k Hpp D w b sup rx l sl l' sl' rl rsl d dbg G (has _ _ _ _ B1) (has _ _ _ _ B2) (has _ _ _ _ B3) Hb' H1 H3) as [w1 [h [g [g1 [g2 [ml [wl [HW [HW' R]]]]]]]]].
  destruct (range_sense Hp H2 l' rl wl (pow_ne' H2 _ _ L3) HW') as [W1 W2]. destruct (supp_core Hp H2 (b_nv sup) l sl l' sl' rl ml wl h g g1 g2 ltac:(lia) L3 L4 Hb Hb' Hl Hl' Hr HW HW') as [C1 [C2 C3]]. destruct HW as [W3 W4].
  eapply (quiet_done w _ _ (mkOut [h; g; g1; g2] _ _ _)); [exact (at_ran _ _ _ _ _ _ _ _ _ _ _ R)|reflexivity|reflexivity|exists h, g, g1, g2, ml, wl; repeat (split; [assumption|]); reflexivity| | |]; cbn [avoided holds fair]; [exact C1|exact C3|].
  intros X1 X2 [Hu1 Hu2]. exact (C2 X1 X2 Hu1 Hu2).
Qed.
Lemma do_disjoint : forall a b rx l sl l' sl' rl rsl d, bag_known K a l sl d -> bag_known K b l' sl' d -> bag_known K rx rl rsl d -> 1 <= d -> 2 * d + 3 <= D ->
  let n := Nat.max (b_nv a) (b_nv b) + 1 in n <= k -> boolean sl -> boolean sl' -> 2 ^ n < fsize p ->
  done w (TDisjoint a b rx) (quiet (fun out => exists vals wl ds, disjoint_advised n l sl l' sl' rl vals wl /\ length ds = 5 /\
    out = mkOut ds ((forall x, In x (rows l sl) -> ~ In x (rows l' sl')) /\ incl (steps (merged n vals)) rl) (disjoint_avoids n l l' rl vals ds) (~ steps_unlucky n rl vals wl ds))).
Proof.
  intros a b rx l sl l' sl' rl rsl d B1 B2 B3 H1 H3 n Hn Hb Hb' Hf. destruct (len _ _ _ _ B1) as [L1 L2], (len _ _ _ _ B2) as [L3 L4].
  destruct (bag_disjoint_at Hp H2 o ck k Hpp D w a b rx l sl l' sl' rl rsl d dbg G (has _ _ _ _ B1) (has _ _ _ _ B2) (has _ _ _ _ B3) Hn H1 H3) as [vals [V1 [V2 [V3 [w1 [g [g1 [g2 [h [h' [wl [HW R]]]]]]]]]]]]. fold n in V3, HW, R.
  assert (Ln : 2 ^ b_nv a <= 2 ^ n /\ 2 ^ b_nv b <= 2 ^ n) by (split; apply Nat.pow_le_mono_r; lia).
  destruct (dj_core Hp H2 n l sl l' sl' rl vals wl g g1 g2 h h' ltac:(lia) ltac:(lia) Hb Hb' ltac:(lia) ltac:(lia) Hf (conj V1 (conj V2 (conj V3 HW)))) as [U [C1 [C2 C3]]].
  eapply (quiet_done w _ _ (mkOut [g; g1; g2; h; h'] _ _ _)); [exact (at_ran _ _ _ _ _ _ _ _ _ _ _ R)|reflexivity|reflexivity|exists vals, wl, [g; g1; g2; h; h']; split; [exact U|split; reflexivity]| | |]; cbn [avoided holds fair].
  - intros Ha [Hs1 Hs2]. exact (C1 Ha Hs1 Hs2).
  - intros X. apply C2. exact X.
  - intros X1 X2 Hu. split; [apply C2; exact X1|exact (C3 X1 X2 Hu)].
Qed.
Lemma room : forall a b, 2 ^ a + 2 ^ b <= 2 ^ (Nat.max a b + 1).
Proof. intros a b. rewrite Nat.pow_add_r; cbn [Nat.pow]. pose proof (Nat.pow_le_mono_r 2 a (Nat.max a b) ltac:(lia) ltac:(lia)). pose proof (Nat.pow_le_mono_r 2 b (Nat.max a b) ltac:(lia) ltac:(lia)). lia. Qed.
Lemma do_set_disjoint : forall a b rx l sl l' sl' rl rsl d, bag_known K a l sl d -> bag_known K b l' sl' d -> bag_known K rx rl rsl d -> 1 <= d -> 2 * d + 3 <= D ->
  let n := Nat.max (b_nv a) (b_nv b) + 1 in n <= k -> boolean sl -> boolean sl' -> 2 ^ n < fsize p ->
  done w (TSetDisjoint a b rx) (quiet (fun out => exists h g g1 g2 c cs wl, length c = 2 ^ n /\ non_decreasing c /\ Permutation (rows c cs) (rows l sl ++ rows l' sl') /\ length wl = length rl /\ counts_of (steps c) rl (combine rl wl) /\
    out = mkOut [h; g; g1; g2] (NoDup (rows l sl ++ rows l' sl') /\ incl (steps c) rl) (~ In h (l ++ l' ++ c) /\ sort_avoids n c rl g g1 g2) (~ unlucky (unit_bag (steps c)) (combine rl wl) g2))).
Proof.
  intros a b rx l sl l' sl' rl rsl d B1 B2 B3 H1 H3 n Hn Hb Hb' Hf. destruct (len _ _ _ _ B1) as [L1 L2], (len _ _ _ _ B2) as [L3 L4].
  destruct (set_disjoint_at Hp H2 o ck k Hpp D w a b rx l sl l' sl' rl rsl d dbg G (has _ _ _ _ B1) (has _ _ _ _ B2) (has _ _ _ _ B3) Hb Hb' Hn H1 H3) as [c [cs [V1 [V2 [V3 [V4 [V5 [V6 [w1 [h [g [g1 [g2 [wl [HW R]]]]]]]]]]]]]]]. fold n in V1, V2, V5, V6, R.
  assert (Ln : length l + length l' <= 2 ^ n) by (rewrite L1, L3; apply room).
  assert (Hnd : non_decreasing c) by (intros i j Hij Hj; apply V5; [exact Hij|lia]). assert (Hst : NoDup (rows l sl ++ rows l' sl') -> strict c cs) by (intros Hq i Hi; apply V6; [exact Hq|lia]).
  destruct (apart_core Hp H2 n l sl l' sl' c cs rl wl h g g1 g2 ltac:(lia) ltac:(lia) Hb Hb' ltac:(lia) Hf V1 V2 V3 V4 Hnd Hst HW) as [C1 [C2 C3]]. destruct (range_sense Hp H2 _ rl wl (pow_ne' H2 _ _ V1) HW) as [W1 W2].
  eapply (quiet_done w _ _ (mkOut [h; g; g1; g2] _ _ _)); [exact (at_ran _ _ _ _ _ _ _ _ _ _ _ R)|reflexivity|reflexivity|exists h, g, g1, g2, c, cs, wl; repeat (split; [assumption|]); reflexivity| | |]; cbn [avoided holds fair].
  - intros Ha [Hs1 Hs2]. exact (C1 Ha Hs1 Hs2).
  - intros X. apply C3. exact X.
  - intros X1 X2 Hu. split; [apply C3; exact X1|exact (C2 X1 X2 Hu)].
Qed.
Lemma do_union : forall a b un rx l sl l' sl' ul usl rl rsl d, bag_known K a l sl d -> bag_known K b l' sl' d -> bag_known K un ul usl d -> bag_known K rx rl rsl d -> 1 <= d -> 2 * d + 3 <= D ->
  let n := Nat.max (b_nv a) (b_nv b) + 1 in n <= k -> boolean sl -> boolean sl' -> boolean usl -> 2 ^ n < fsize p -> length ul < fsize p -> small_range rl (b_nv un) ->
  done w (TUnion a b un rx) (quiet (fun out => exists h0 h g g1 g2 c cs ml wl, rows c cs = rows l sl ++ rows l' sl' /\ length ml = length ul /\ counts_of (rows c cs) (rows ul usl) (wcol ul usl ml) /\
    length wl = length rl /\ counts_of (steps ul) rl (combine rl wl) /\
    out = mkOut [h0; h; g; g1; g2] (sorted_by rl ul usl /\ forall x, In x (rows ul usl) <-> In x (rows l sl) \/ In x (rows l' sl'))
      (~ In h0 (l ++ l' ++ c) /\ ~ In h (c ++ ul) /\ sort_avoids (b_nv un) ul rl g g1 g2) (~ unlucky (combine c cs) (wcol ul usl ml) h /\ ~ unlucky (unit_bag (steps ul)) (combine rl wl) g2))).
Proof.
  intros a b un rx l sl l' sl' ul usl rl rsl d B1 B2 B4 B3 H1 H3 n Hn Hb Hb' Hbu Hf Hlu Hr. destruct (len _ _ _ _ B1) as [L1 L2], (len _ _ _ _ B2) as [L3 L4], (len _ _ _ _ B4) as [L5 L6].
  destruct (set_union_at Hp H2 o ck k Hpp D w a b un rx l sl l' sl' ul usl rl rsl d dbg G (has _ _ _ _ B1) (has _ _ _ _ B2) (has _ _ _ _ B4) (has _ _ _ _ B3) Hbu Hn H1 H3) as [c [cs [V1 [V2 [V3 [V4 [w1 [h0 [h [g [g1 [g2 [ml [wl [HW [HW' R]]]]]]]]]]]]]]]]. fold n in V1, V2. specialize (V4 Hb Hb').
  assert (Ln : length l + length l' <= 2 ^ n) by (rewrite L1, L3; apply room).
  destruct (supp_core Hp H2 (b_nv un) c cs ul usl rl ml wl h g g1 g2 ltac:(lia) L5 L6 V4 Hbu ltac:(lia) Hlu Hr HW HW') as [C1 [C2 C3]]. destruct HW as [W3 W4]. destruct (range_sense Hp H2 _ rl wl (pow_ne' H2 _ _ L5) HW') as [W1 W2].
  assert (Hx : forall x, In x (rows c cs) <-> In x (rows l sl) \/ In x (rows l' sl')) by (intros x; rewrite V3; apply in_app_iff).
  assert (Hc : (clear h0 l /\ clear h0 l' /\ clear h0 c) <-> ~ In h0 (l ++ l' ++ c)) by (rewrite !(clear_in Hp), !in_app_iff; tauto).
  eapply (quiet_done w _ _ (mkOut [h0; h; g; g1; g2] _ _ _)); [exact (at_ran _ _ _ _ _ _ _ _ _ _ _ R)|reflexivity|reflexivity|exists h0, h, g, g1, g2, c, cs, ml, wl; repeat (split; [assumption|]); reflexivity| | |]; cbn [avoided holds fair]; rewrite ?Hc.
  - intros [Ha0 Ha] [Hr1 Hr2]. destruct (C1 Ha) as [X1 X2]; [split; [exact Hr1|]; intros x; rewrite Hx; apply Hr2|]. split; [split; [exact Ha0|exact X1]|]. rewrite X2, andb_true_r.
    apply (sum_fits_verdict Hp H2 l sl l' sl' c cs h0); try assumption; try lia. rewrite V3. apply Permutation_refl.
  - intros [X0 X]. split; [exact X0|apply C3; exact X].
  - intros [_ X1] X2 [Hu1 Hu2]. apply andb_prop in X2. destruct X2 as [_ X2]. destruct (C2 X1 X2 Hu1 Hu2) as [Y1 Y2]. split; [exact Y1|]. intros x. rewrite <- Hx. apply Y2.
Qed.
Lemma do_diff : forall a b lb mb bm rx al asl bl bsl ll lsl ml msl bml rl rsl d, bag_known K a al asl d -> bag_known K b bl bsl d -> bag_known K lb ll lsl d -> bag_known K mb ml msl d -> K bm bml d -> b_nv b = tp_nv bm ->
  bag_known K rx rl rsl d -> 1 <= d -> 2 * d + 3 <= D -> let n := Nat.max (b_nv lb) (b_nv b) + 1 in n <= k -> boolean asl -> boolean bsl -> boolean lsl -> boolean msl -> 2 ^ n < fsize p ->
  length ll + length ml < fsize p -> length al < fsize p ->
  done w (TDiff a b lb mb bm rx) (quiet (fun out => exists h g g1 g2 h1 h2 c cs wl, length c = 2 ^ n /\ non_decreasing c /\ Permutation (rows c cs) (rows ll lsl ++ rows bl bsl) /\ length wl = length rl /\ counts_of (steps c) rl (combine rl wl) /\
    out = mkOut [h; g; g1; g2; h1; h2]
      (NoDup (rows ll lsl ++ rows bl bsl) /\ (Permutation (rows ll lsl ++ rows ml msl) (rows al asl) /\ same_bag (combine ml msl) (wcol bl bsl bml)) /\ incl (steps c) rl)
      ((~ In h (ll ++ bl ++ c) /\ sort_avoids n c rl g g1 g2) /\ ~ In h1 (ll ++ ml ++ al) /\ ~ In h2 (ml ++ bl))
      (~ unlucky (combine ll lsl ++ combine ml msl) (combine al asl) h1 /\ ~ unlucky (combine ml msl) (wcol bl bsl bml) h2 /\ ~ unlucky (unit_bag (steps c)) (combine rl wl) g2))).
Proof.
  intros a b lb mb bm rx al asl bl bsl ll lsl ml msl bml rl rsl d Ba Bb Bl Bm Bn Hbn Br H1 H3 n Hn Ha Hb Hl Hm Hf Hf1 Hf2. destruct (len _ _ _ _ Ba) as [L1 L2], (len _ _ _ _ Bb) as [L3 L4], (len _ _ _ _ Bl) as [L5 L6], (len _ _ _ _ Bm) as [L7 L8].
  pose proof (lend _ _ _ Bn) as L9. rewrite <- Hbn in L9.
  destruct (set_diff_at Hp H2 o ck k Hpp D w a b lb mb bm rx al asl bl bsl ll lsl ml msl bml rl rsl d dbg G (has _ _ _ _ Ba) (has _ _ _ _ Bb) (has _ _ _ _ Bl) (has _ _ _ _ Bm) (HK _ _ _ Bn) Hbn (has _ _ _ _ Br) Hl Hb Hn H1 H3)
    as [c [cs [V1 [V2 [V3 [V4 [V5 [V6 [w1 [h [g [g1 [g2 [h1 [h2 [wl [HW R]]]]]]]]]]]]]]]]]. fold n in V1, V2, V5, V6, R.
  assert (Ln : length ll + length bl <= 2 ^ n) by (rewrite L5, L3; apply room).
  assert (Hnd : non_decreasing c) by (intros i j Hij Hj; apply V5; [exact Hij|lia]). assert (Hst : NoDup (rows ll lsl ++ rows bl bsl) -> strict c cs) by (intros Hq i Hi; apply V6; [exact Hq|lia]).
  destruct (apart_core Hp H2 n ll lsl bl bsl c cs rl wl h g g1 g2 ltac:(lia) ltac:(lia) Hl Hb ltac:(lia) Hf V1 V2 V3 V4 Hnd Hst HW) as [C1 [C2 C3]]. destruct (range_sense Hp H2 _ rl wl (pow_ne' H2 _ _ V1) HW) as [W1 W2].
  assert (Hc1 : (clear h1 ll /\ clear h1 ml /\ clear h1 al) <-> ~ In h1 (ll ++ ml ++ al)) by (rewrite !(clear_in Hp), !in_app_iff; tauto). assert (Hc2 : (clear h2 ml /\ clear h2 bl) <-> ~ In h2 (ml ++ bl)) by (rewrite !(clear_in Hp), in_app_iff; tauto).
  assert (S1 : ~ In h1 (ll ++ ml ++ al) -> _) by (intros Q; exact (sum_fits_verdict Hp H2 ll lsl ml msl al asl h1 ltac:(lia) ltac:(lia) ltac:(lia) Hl Hm Ha Hf1 Hf2 Q)). assert (S2 : ~ In h2 (ml ++ bl) -> _) by (intros Q; exact (incl_fits_verdict ml msl bl bsl bml h2 ltac:(lia) ltac:(lia) ltac:(lia) Q)).
  eapply (quiet_done w _ _ (mkOut [h; g; g1; g2; h1; h2] _ _ _)); [exact (at_ran _ _ _ _ _ _ _ _ _ _ _ R)|reflexivity|reflexivity|exists h, g, g1, g2, h1, h2, c, cs, wl; repeat (split; [assumption|]); reflexivity| | |]; cbn [avoided holds fair]; rewrite ?Hc1, ?Hc2.
  - intros [Hav [Hav1 Hav2]] [Hap [[P1 P2] Hi]]. destruct (C1 Hav Hap Hi) as [X1 X2]. split; [split; [exact X1|split; assumption]|]. rewrite X2, (proj1 (S1 Hav1) P1), (proj1 (S2 Hav2) P2). reflexivity.
  - intros [X Y]. split; [apply C3; exact X|exact Y].
  - intros [X [Hav1 Hav2]] Hfit [Hu1 [Hu2 Hu]]. apply andb_prop in Hfit. destruct Hfit as [F1' F2']. apply andb_prop in F2'. destruct F2' as [F2' F3'].
    split; [apply C3; exact X|]. split; [split|]; [exact (proj2 (S1 Hav1) F2' Hu1)|exact (proj2 (S2 Hav2) F3' Hu2)|exact (C2 X F1' Hu)].
Qed.
Lemma do_intersect : forall a b lb mb rb rx al asl bl bsl ll lsl ml msl sl ssl rl rsl d, bag_known K a al asl d -> bag_known K b bl bsl d -> bag_known K lb ll lsl d -> bag_known K mb ml msl d -> bag_known K rb sl ssl d ->
  bag_known K rx rl rsl d -> 1 <= d -> 2 * d + 3 <= D -> let n := Nat.max (b_nv lb) (b_nv rb) + 1 in n <= k -> boolean asl -> boolean bsl -> boolean lsl -> boolean msl -> boolean ssl -> 2 ^ n < fsize p ->
  length ll + length ml < fsize p -> length ml + length sl < fsize p -> length al < fsize p -> length bl < fsize p ->
  done w (TIntersect a b lb mb rb rx) (quiet (fun out => exists h1 h2 h g g1 g2 c cs wl, length c = 2 ^ n /\ non_decreasing c /\ Permutation (rows c cs) (rows ll lsl ++ rows sl ssl) /\ length wl = length rl /\ counts_of (steps c) rl (combine rl wl) /\
    out = mkOut [h1; h2; h; g; g1; g2]
      (NoDup (rows ll lsl ++ rows sl ssl) /\ (Permutation (rows ll lsl ++ rows ml msl) (rows al asl) /\ Permutation (rows ml msl ++ rows sl ssl) (rows bl bsl)) /\ incl (steps c) rl)
      (~ In h1 (ll ++ ml ++ al) /\ ~ In h2 (ml ++ sl ++ bl) /\ ~ In h (ll ++ sl ++ c) /\ sort_avoids n c rl g g1 g2)
      (~ unlucky (combine ll lsl ++ combine ml msl) (combine al asl) h1 /\ ~ unlucky (combine ml msl ++ combine sl ssl) (combine bl bsl) h2 /\ ~ unlucky (unit_bag (steps c)) (combine rl wl) g2))).
Proof.
  intros a b lb mb rb rx al asl bl bsl ll lsl ml msl sl ssl rl rsl d Ba Bb Bl Bm Bs Br H1 H3 n Hn Ha Hb Hl Hm Hs Hf Hf1 Hf2 Hf3 Hf4. destruct (len _ _ _ _ Ba) as [L1 L2], (len _ _ _ _ Bb) as [L3 L4], (len _ _ _ _ Bl) as [L5 L6], (len _ _ _ _ Bm) as [L7 L8], (len _ _ _ _ Bs) as [L9 L10].
  destruct (set_intersect_at Hp H2 o ck k Hpp D w a b lb mb rb rx al asl bl bsl ll lsl ml msl sl ssl rl rsl d dbg G (has _ _ _ _ Ba) (has _ _ _ _ Bb) (has _ _ _ _ Bl) (has _ _ _ _ Bm) (has _ _ _ _ Bs) (has _ _ _ _ Br) Hl Hs Hn H1 H3)
    as [c [cs [V1 [V2 [V3 [V4 [V5 [V6 [w1 [h1 [h2 [h [g [g1 [g2 [wl [HW R]]]]]]]]]]]]]]]]]. fold n in V1, V2, V5, V6, R.
  assert (Ln : length ll + length sl <= 2 ^ n) by (rewrite L5, L9; apply room).
  assert (Hnd : non_decreasing c) by (intros i j Hij Hj; apply V5; [exact Hij|lia]). assert (Hst : NoDup (rows ll lsl ++ rows sl ssl) -> strict c cs) by (intros Hq i Hi; apply V6; [exact Hq|lia]).
  destruct (apart_core Hp H2 n ll lsl sl ssl c cs rl wl h g g1 g2 ltac:(lia) ltac:(lia) Hl Hs ltac:(lia) Hf V1 V2 V3 V4 Hnd Hst HW) as [C1 [C2 C3]]. destruct (range_sense Hp H2 _ rl wl (pow_ne' H2 _ _ V1) HW) as [W1 W2].
  assert (Hc1 : (clear h1 ll /\ clear h1 ml /\ clear h1 al) <-> ~ In h1 (ll ++ ml ++ al)) by (rewrite !(clear_in Hp), !in_app_iff; tauto). assert (Hc2 : (clear h2 ml /\ clear h2 sl /\ clear h2 bl) <-> ~ In h2 (ml ++ sl ++ bl)) by (rewrite !(clear_in Hp), !in_app_iff; tauto).
  assert (S1 : ~ In h1 (ll ++ ml ++ al) -> _) by (intros Q; exact (sum_fits_verdict Hp H2 ll lsl ml msl al asl h1 ltac:(lia) ltac:(lia) ltac:(lia) Hl Hm Ha Hf1 Hf3 Q)). assert (S2 : ~ In h2 (ml ++ sl ++ bl) -> _) by (intros Q; exact (sum_fits_verdict Hp H2 ml msl sl ssl bl bsl h2 ltac:(lia) ltac:(lia) ltac:(lia) Hm Hs Hb Hf2 Hf4 Q)).
  eapply (quiet_done w _ _ (mkOut [h1; h2; h; g; g1; g2] _ _ _)); [exact (at_ran _ _ _ _ _ _ _ _ _ _ _ R)|reflexivity|reflexivity|exists h1, h2, h, g, g1, g2, c, cs, wl; repeat (split; [assumption|]); reflexivity| | |]; cbn [avoided holds fair]; rewrite ?Hc1, ?Hc2.
  - intros [Hav1 [Hav2 Hav]] [Hap [[P1 P2] Hi]]. destruct (C1 Hav Hap Hi) as [X1 X2]. split; [split; [exact Hav1|split; assumption]|]. rewrite X2, (proj1 (S1 Hav1) P1), (proj1 (S2 Hav2) P2). reflexivity.
  - intros [X0 [X1 X]]. split; [exact X0|]. split; [exact X1|]. apply C3. exact X.
  - intros [Hav1 [Hav2 X]] Hfit [Hu1 [Hu2 Hu]]. apply andb_prop in Hfit. destruct Hfit as [F1' F2']. apply andb_prop in F2'. destruct F2' as [F2' F3'].
    split; [apply C3; exact X|]. split; [split|]; [exact (proj2 (S1 Hav1) F1' Hu1)|exact (proj2 (S2 Hav2) F2' Hu2)|exact (C2 X F3' Hu)].
Qed.
Lemma do_transform : forall ti to ic isl oc osl d, table_known K ti ic isl d -> table_known K to oc osl d -> boolean isl -> boolean osl -> length (t_cols to) = length (t_cols ti) ->
  1 <= d -> 2 * (d + length (t_cols ti) * d) + 1 <= D -> 2 ^ t_nv to < fsize p ->
  done w (TTransform ti to) (quiet (fun out => exists r h ml, let rs := powers r (length (t_cols ti)) in let il := aggregated rs ic isl in let ol := aggregated rs oc osl in
    length ml = length il /\ counts_of (rows ol osl) (rows il isl) (wcol il isl ml) /\
    out = mkOut [r; h] (same_products oc osl ic isl) (~ In h (ol ++ il)) (r <> F0 /\ ~ unlucky (combine ol osl) (wcol il isl ml) h))).
Proof.
  intros ti to ic isl oc osl d Ti To Bi Bo Hn H1 HD' Hf. destruct (lenv _ _ _ _ Ti) as [_ [Li Ni]], (lenv _ _ _ _ To) as [_ [Lo No]].
  destruct (index_transform_at Hp H2 o ck k Hpp D dbg w ti to ic isl oc osl d G (hasv _ _ _ _ Ti) (hasv _ _ _ _ To) Bi ltac:(lia) H1 HD') as [w1 [r [h [ml [HW R]]]]]. cbv zeta in HW, R.
  set (n := length (t_cols ti)) in *. pose proof (agg_len (powers r n) ic isl) as Lil. pose proof (agg_len (powers r n) oc osl) as Lol. destruct (folded_incl Hp H2 r n oc osl ic isl ltac:(lia) ltac:(lia) Bo Bi) as [F1' F2'].
  set (il := aggregated (powers r n) ic isl) in *. set (ol := aggregated (powers r n) oc osl) in *.
  pose proof (incl_same Hp H2 ol osl il isl ml ltac:(lia) ltac:(lia) Bo ltac:(lia) HW) as X. destruct HW as [W3 W4]. assert (Hc : clear h ol /\ clear h il <-> ~ In h (ol ++ il)) by (rewrite !(clear_in Hp), in_app_iff; tauto).
  assert (V : ~ In h (ol ++ il) -> _) by (intros Q; exact (incl_fits_verdict ol osl il isl ml h ltac:(lia) ltac:(lia) ltac:(lia) Q)).
  eapply (quiet_done w _ _ (mkOut [r; h] _ _ _)); [exact (at_ran _ _ _ _ _ _ _ _ _ _ _ R)|reflexivity|reflexivity|exists r, h, ml; cbv zeta; split; [exact W3|split; [exact W4|reflexivity]]| | |]; cbn [avoided holds fair]; rewrite ?Hc; [|auto|].
  - intros Ha Hr. split; [exact Ha|]. apply (V Ha). apply X. apply F1'. exact Hr.
  - intros Ha Hf' [Hr Hu]. apply F2'; [exact Hr|]. apply X. apply (V Ha); assumption.
Qed.
Lemma do_reduce : forall a b ls rs rx al asl bl bsl lsl rsl rl rrl d, bag_known K a al asl d -> bag_known K b bl bsl d -> K ls lsl d -> tp_nv ls = b_nv a -> K rs rsl d -> tp_nv rs = b_nv b -> bag_known K rx rl rrl d ->
  boolean asl -> boolean bsl -> boolean lsl -> boolean rsl -> let na := b_nv a in let nb := b_nv b in let n := Nat.max na nb + 1 in n <= k -> 1 <= d -> 4 * d + 3 <= D -> 2 ^ n < fsize p ->
  let al' := both asl lsl in let bl' := both bsl rsl in let am := both asl (opposite lsl) in let bm := both bsl (opposite rsl) in
  done w (TReduce a b ls rs rx) (quiet (fun out => exists x1 u1 x2 u2 x3 u3 m4 m5 ds1 ds2 ds3 h4 h5,
    disjoint_advised n al al' bl bl' rl x1 u1 /\ disjoint_advised (na + 1) al al' al am rl x2 u2 /\ disjoint_advised (nb + 1) bl bl' bl bm rl x3 u3 /\
    length m4 = length bl /\ counts_of (rows al am) (rows bl bm) (wcol bl bm m4) /\ length m5 = length al /\ counts_of (rows bl bm) (rows al am) (wcol al am m5) /\
    out = mkOut (ds1 ++ ds2 ++ ds3 ++ [h4; h5])
      ((marks al asl lsl bl bsl /\ marks bl bsl rsl al asl) /\ incl (steps (merged n x1)) rl /\ incl (steps (merged (na + 1) x2)) rl /\ incl (steps (merged (nb + 1) x3)) rl)
      (disjoint_avoids n al bl rl x1 ds1 /\ disjoint_avoids (na + 1) al al rl x2 ds2 /\ disjoint_avoids (nb + 1) bl bl rl x3 ds3 /\ ~ In h4 (al ++ bl) /\ ~ In h5 (al ++ bl))
      (~ unlucky (combine al am) (wcol bl bm m4) h4 /\ ~ unlucky (combine bl bm) (wcol al am m5) h5 /\ ~ steps_unlucky n rl x1 u1 ds1 /\ ~ steps_unlucky (na + 1) rl x2 u2 ds2 /\ ~ steps_unlucky (nb + 1) rl x3 u3 ds3))).
Proof.
  intros a b ls rs rx al asl bl bsl lsl rsl rl rrl d Ta Tb Tl Nl Tr Nr Tx Ba Bb Bl Br na nb n Hn H1 HD' Hf al' bl' am bm.
  destruct (len _ _ _ _ Ta) as [La Las], (len _ _ _ _ Tb) as [Lb Lbs]. fold na in La, Las. fold nb in Lb, Lbs. pose proof (lend _ _ _ Tl) as Lls. pose proof (lend _ _ _ Tr) as Lrs. rewrite Nl in Lls. rewrite Nr in Lrs. fold na in Lls. fold nb in Lrs.
  destruct (join_reduction_at Hp H2 o ck k Hpp D w a b ls rs rx al asl bl bsl lsl rsl rl rrl d dbg G (has _ _ _ _ Ta) (has _ _ _ _ Tb) (HK _ _ _ Tl) Nl (HK _ _ _ Tr) Nr (has _ _ _ _ Tx) Ba Bb Bl Br Hn H1 HD')
    as [w1 [x1 [u1 [g1 [g11 [g12 [h1 [h1' [x2 [u2 [g2 [g21 [g22 [h2 [h2' [x3 [u3 [g3 [g31 [g32 [h3 [h3' [h4 [m4 [h5 [m5 [V1 [V2 [V3 [V4 [V5 R]]]]]]]]]]]]]]]]]]]]]]]]]]]]]]].
  fold na nb n al' bl' am bm in V1, V2, V3, V4, V5, R.
  assert (Pa : 2 ^ na <= 2 ^ (na + 1) /\ 2 ^ (na + 1) <= 2 ^ n) by (split; apply Nat.pow_le_mono_r; lia). assert (Pb : 2 ^ nb <= 2 ^ (nb + 1) /\ 2 ^ (nb + 1) <= 2 ^ n) by (split; apply Nat.pow_le_mono_r; lia).
  assert (Lal : length al' = length al) by (unfold al'; rewrite both_len; lia). assert (Lbl : length bl' = length bl) by (unfold bl'; rewrite both_len; lia).
  assert (Lam : length am = length al) by (unfold am; rewrite both_len; rewrite ?opp_len; lia). assert (Lbm : length bm = length bl) by (unfold bm; rewrite both_len; rewrite ?opp_len; lia).
  assert (Bal : boolean al') by (apply bool_both; [lia|assumption|assumption]). assert (Bbl : boolean bl') by (apply bool_both; [lia|assumption|assumption]).
  assert (Bam : boolean am) by (apply bool_both; [rewrite opp_len; lia|assumption|apply bool_opp; assumption]). assert (Bbm : boolean bm) by (apply bool_both; [rewrite opp_len; lia|assumption|apply bool_opp; assumption]).
  destruct (dj_core Hp H2 n al al' bl bl' rl x1 u1 g1 g11 g12 h1 h1' Lal Lbl Bal Bbl ltac:(lia) ltac:(lia) Hf V1) as [U1 [C1 [C1' C1'']]].
  destruct (dj_core Hp H2 (na + 1) al al' al am rl x2 u2 g2 g21 g22 h2 h2' Lal Lam Bal Bam ltac:(lia) ltac:(lia) ltac:(lia) V2) as [U2 [C2 [C2' C2'']]].
  destruct (dj_core Hp H2 (nb + 1) bl bl' bl bm rl x3 u3 g3 g31 g32 h3 h3' Lbl Lbm Bbl Bbm ltac:(lia) ltac:(lia) ltac:(lia) V3) as [U3 [C3 [C3' C3'']]].
  pose proof (incl_same Hp H2 al am bl bm m4 ltac:(lia) ltac:(lia) Bam ltac:(lia) V4) as X4. pose proof (incl_same Hp H2 bl bm al am m5 ltac:(lia) ltac:(lia) Bbm ltac:(lia) V5) as X5. destruct V4 as [W4 W4'], V5 as [W5 W5'].
  assert (I4 : clear h4 al /\ clear h4 bl <-> ~ In h4 (al ++ bl)) by (rewrite !(clear_in Hp), in_app_iff; clear; tauto). assert (I5 : clear h5 bl /\ clear h5 al <-> ~ In h5 (al ++ bl)) by (rewrite !(clear_in Hp), in_app_iff; clear; tauto).
  assert (Q4 : ~ In h4 (al ++ bl) -> _) by (intros Q; exact (incl_fits_verdict al am bl bm m4 h4 ltac:(lia) ltac:(lia) ltac:(lia) Q)).
  assert (Q5 : ~ In h5 (al ++ bl) -> _) by (intros Q; exact (incl_fits_verdict bl bm al am m5 h5 ltac:(lia) ltac:(lia) ltac:(lia) ltac:(rewrite in_app_iff in Q |- *; clear -Q; tauto))).
  eapply (quiet_done w _ _ (mkOut ([g1; g11; g12; h1; h1'] ++ [g2; g21; g22; h2; h2'] ++ [g3; g31; g32; h3; h3'] ++ [h4; h5]) _ _ _)); [exact (at_ran _ _ _ _ _ _ _ _ _ _ _ R)|reflexivity|reflexivity|
    exists x1, u1, x2, u2, x3, u3, m4, m5, [g1; g11; g12; h1; h1'], [g2; g21; g22; h2; h2'], [g3; g31; g32; h3; h3'], h4, h5; repeat (split; [assumption|]); reflexivity| | |]; cbn [avoided holds fair]; rewrite ?I4, ?I5.
  - intros [D1 [D2 [D3 [D4 D5]]]] [[Ma Mb] [S1 [S2 S3]]]. destruct (marks_parts Hp H2 al asl lsl bl bsl rsl ltac:(lia) ltac:(lia) ltac:(lia) ltac:(lia) Ma Mb) as [Y1 [Y2 Y4]]. destruct (marks_parts Hp H2 bl bsl rsl al asl lsl ltac:(lia) ltac:(lia) ltac:(lia) ltac:(lia) Mb Ma) as [_ [Y3 Y5]].
    destruct (C1 D1 Y1 S1) as [Z1 Z1']. destruct (C2 D2 Y2 S2) as [Z2 Z2']. destruct (C3 D3 Y3 S3) as [Z3 Z3']. split; [split; [exact Z1|]; split; [exact Z2|]; split; [exact Z3|]; split; assumption|].
    rewrite Z1', Z2', Z3'. cbn [andb]. rewrite (proj1 (Q4 D4) (proj2 X4 Y4)), (proj1 (Q5 D5) (proj2 X5 Y5)). reflexivity.
  - intros [P1 [P2 [P3 P4]]]. split; [exact (proj1 (C1' P1))|]. split; [exact (proj1 (C2' P2))|]. split; [exact (proj1 (C3' P3))|exact P4].
  - intros [P1 [P2 [P3 [P4 P5]]]] Q [Hu4 [Hu5 [Hu1 [Hu2 Hu3]]]]. apply andb_prop in Q. destruct Q as [F1' Q]. apply andb_prop in Q. destruct Q as [F2' Q]. apply andb_prop in Q. destruct Q as [F3' Q]. apply andb_prop in Q. destruct Q as [F4' F5'].
    pose proof (proj2 (C1' P1)) as Y1. pose proof (proj2 (C2' P2)) as Y2. pose proof (proj2 (C3' P3)) as Y3. pose proof (proj1 X4 (proj2 (Q4 P4) F4' Hu4)) as Y4. pose proof (proj1 X5 (proj2 (Q5 P5) F5' Hu5)) as Y5.
    split; [|split; [exact (C1'' P1 F1' Hu1)|]; split; [exact (C2'' P2 F2' Hu2)|exact (C3'' P3 F3' Hu3)]].
    split; [apply (join_marks Hp H2 al asl lsl bl bsl rsl)|apply (join_marks Hp H2 bl bsl rsl al asl lsl)]; try lia; try assumption; intros x; first [exact (Y1 x)|exact (Y2 x)|exact (Y3 x)|intros X Y; exact (Y1 x Y X)].
Qed.

Lemma same_ids : forall n cs, Forall (fun c => tp_nv c = n) cs -> map (fun id => mkTp id n) (map tp_id cs) = cs.
Proof. intros n cs H. induction H as [|[i m] cs H _ IH]; [reflexivity|]. cbn in *. subst m. f_equal. exact IH. Qed.
Lemma ids_returned : forall (t : table) (r : res (tablec * vtrk E)) (b : bool) (v : vtrk E), Forall (fun c => tp_nv c = t_nv t) (t_cols t) -> returning (tcomm_of t) r = (if b then Ok v else Err IOPInvalidVerifier) ->
  ids_of r = (if b then Ok (t_cols t ++ [t_sel t], v) else Err IOPInvalidVerifier).
Proof.
  intros t r b v Hc H. unfold returning in H. destruct r as [[tc v1]| |]; cbn [bind] in H; [|destruct b; [discriminate|]; injection H as ->; reflexivity|destruct b; discriminate].
  cbn [fst snd] in H. destruct (tablec_dec tc (tcomm_of t)) as [->|_]; [|destruct b; discriminate]. destruct b; [|discriminate]. injection H as <-. unfold ids_of. cbn [bind tcomm_of tc_cols tc_sel tc_nv].
  rewrite map_app, (same_ids _ _ Hc). cbn [map]. unfold t_nv at 1. destruct (t_sel t); reflexivity.
Qed.
Lemma table_done : forall w1 t (res : table) (f : Res.res (table * ptrk E)) (ver : bool -> vtrk E -> Res.res (tablec * vtrk E)) cols sl d (R : report) out P b, f = Ok (res, ws w1) ->
  ran_at w w1 (x <- f ;; Ok (snd x)) (drew out) P (fun debug v => returning (tcomm_of res) (ver debug v)) b -> hast w1 res cols sl d -> incl (combine (t_cols res ++ [t_sel res]) (cols ++ [sl])) (wf w1) ->
  prove1 o dbg (ws w) t = (' (t, s) <- f ;; Ok (t_cols t ++ [t_sel t], s)) -> (forall debug v, verify1 o debug v t = ids_of (ver debug v)) -> R (t_cols res ++ [t_sel res]) (map (fun l => (l, d)) (cols ++ [sl])) out ->
  (avoided out -> holds out -> P /\ b = true) -> (P -> avoided out) -> (P -> b = true -> fair out -> holds out) -> done w t R.
Proof.
  intros w1 t res f ver cols sl d R out P b Ef [E1 [S1 T1]] [Hc Hs] Hi Hr Hv HR A1 A2 A3. exists w1, (t_cols res ++ [t_sel res]), (map (fun l => (l, d)) (cols ++ [sl])), out, P, b. split; [exact HR|].
  assert (Hn : Forall (fun c => tp_nv c = t_nv res) (t_cols res)) by (clear -Hc; induction Hc as [|c l cs ls [_ X] _ IH]; constructor; assumption). split; [|split; [|auto]].
  - split; [rewrite Hr, Ef; reflexivity|]. split; [exact S1|]. intros cp vk N v debug L C. destruct (T1 cp vk N v debug L C) as [v' [X Y]]. exists v'. split; [|exact Y]. rewrite Hv. exact (ids_returned res _ b v' Hn X).
  - assert (Ha : Forall2 (fun c l => hasd w1 c l d) (t_cols res ++ [t_sel res]) (cols ++ [sl])) by (apply Forall2_app; [|constructor; [exact Hs|constructor]]; clear -Hc; induction Hc as [|c l cs ls [X _] _ IH]; constructor; [exact X|exact IH]).
    clear -Ha Hi. revert Ha Hi. generalize (t_cols res ++ [t_sel res]) (cols ++ [sl]). intros l m H. induction H as [|x y l m X _ IH]; intros Hi; cbn [map]; constructor; [split; [exact X|apply Hi; left; reflexivity]|apply IH; intros z Hz; apply Hi; right; exact Hz].
Qed.
Lemma combine_app_eq : forall A B (a b : list A) (c e : list B), length a = length c -> combine (a ++ b) (c ++ e) = combine a c ++ combine b e.
Proof. induction a as [|x a IH]; intros b [|y c] e H; try discriminate H; [reflexivity|]. injection H as H. cbn [app combine]. rewrite (IH b c e H). reflexivity. Qed.
Lemma cols_full : forall t cols sl d, table_known K t cols sl d -> incl (combine (t_cols t ++ [t_sel t]) (cols ++ [sl])) (wf w).
Proof.
  intros t cols sl d [A B]. assert (L : length (t_cols t) = length cols) by (clear -A; induction A; cbn; congruence). rewrite (combine_app_eq _ _ _ _ _ _ L). apply incl_app; [|intros x [<-|[]]; exact (proj2 (HF _ _ _ B))].
  clear -A HF. induction A as [|c l cs ls [A1 _] _ IH]; [intros x []|]. intros x [<-|Hx]; [exact (proj2 (HF _ _ _ A1))|exact (IH x Hx)].
Qed.
Lemma do_join : forall a b ai bi ac asl bc bsl d, table_known K a ac asl d -> table_known K b bc bsl d -> boolean asl -> boolean bsl -> ai < length (t_cols a) -> bi < length (t_cols b) ->
  1 <= d -> 2 * (d + length (t_cols a) * d) + 1 <= D -> 2 ^ t_nv b < fsize p ->
  let ka := nth ai ac [] in let kb := nth bi bc [] in (forall i, i < length bsl -> ~ missing ka asl kb bsl i) -> (dbg = true -> NoDup ka) ->
  done w (TJoin a b ai bi) (fun hs rs out => exists ta tcs r h, hs = ta ++ t_cols b ++ [t_sel b] /\ length ta = length (t_cols a) /\ Forall (fun c => tp_nv c = t_nv b) ta /\
    rs = map (fun l => (l, d)) (tcs ++ bc ++ [bsl]) /\ length tcs = length ta /\ Forall (fun l => length l = 2 ^ t_nv b) tcs /\ joined_rows ac ka asl kb bsl tcs /\
    let rr := powers r (length (t_cols a)) in out = mkOut [r; h] True (~ In h (aggregated rr tcs bsl ++ aggregated rr ac asl)) True).
Proof.
  intros a b ai bi ac asl bc bsl d Ta Tb Ba Bb Hai Hbi H1 HD' Hf ka kb Hm Hn. destruct (lenv _ _ _ _ Ta) as [La [Las Na]], (lenv _ _ _ _ Tb) as [Lb [Lbs Nb]]. rewrite Lbs in Hm.
  destruct (final_join_at Hp H2 o ck k Hpp D dbg w a b ai bi ac asl bc bsl d G (hasv _ _ _ _ Ta) (hasv _ _ _ _ Tb) Ba Hai Hbi Hm Hn H1 HD') as [w1 [tr [ta [r [h [ml [Lt [Ht [Lta [HW [[Hr If] [EP R]]]]]]]]]]]].
  cbv zeta in HW, Hr, EP, R. set (tcs := map (moved (t_nv b) tr bsl) ac) in *.
  assert (J : joined_rows ac ka asl kb bsl tcs).
  { intros i Hi Hs. rewrite Lbs in Hi. destruct (Ht i Hi Hs) as [T1 [T2 T3]]. exists (nth i tr 0). split; [lia|]. split; [exact T2|]. split; [exact T3|]. unfold row, tcs. rewrite map_map. apply map_ext. intros c. rewrite moved_nth by exact Hi. rewrite Hs, (proj2 (Feqb_eq F1 F1) eq_refl). reflexivity. }
  set (n := length (t_cols a)) in *. pose proof (agg_len (powers r n) ac asl) as Lil. pose proof (agg_len (powers r n) tcs bsl) as Lol.
  assert (Ntc : length tcs = n) by (unfold tcs; rewrite map_length; exact Na). destruct (folded_incl Hp H2 r n tcs bsl ac asl Ntc ltac:(lia) Bb Ba) as [F1' _]. pose proof HW as [W3 _].
  set (il := aggregated (powers r n) ac asl) in *. set (ol := aggregated (powers r n) tcs bsl) in *. pose proof (incl_same Hp H2 ol bsl il asl ml ltac:(lia) ltac:(lia) Bb ltac:(lia) HW) as X.
  assert (Hc : clear h ol /\ clear h il <-> ~ In h (ol ++ il)) by (rewrite !(clear_in Hp), in_app_iff; clear; tauto).
  assert (Hone : forall i, i < 2 ^ t_nv b -> nth i bsl F0 = F0 \/ nth i bsl F0 = F1) by (intros i Hi; unfold boolean in Bb; rewrite Forall_forall in Bb; apply Bb; apply nth_In; lia).
  assert (Hz : lz (zipw Fmul (zipw Fsub (nth ai tcs []) kb) bsl)).
  { assert (L1 : length (nth ai tcs []) = 2 ^ t_nv b) by (unfold tcs; rewrite nth_indep with (d' := moved (t_nv b) tr bsl []) by (rewrite map_length; lia); rewrite map_nth; apply moved_len).
    assert (L3 : length kb = 2 ^ t_nv b) by (unfold kb; rewrite Forall_forall in Lb; apply Lb; apply nth_In; lia).
    apply lz_nth. intros i Hi. unfold zipw in Hi. rewrite !map_length, !combine_length, !map_length, !combine_length in Hi. rewrite zipw_nth0 by (unfold zipw; rewrite ?map_length, ?combine_length; lia). rewrite zipw_nth0 by lia.
    destruct (Hone i ltac:(lia)) as [Q|Q]; rewrite Q; [ring|]. destruct (Ht i ltac:(lia) Q) as [_ [_ T3]]. unfold tcs. rewrite nth_indep with (d' := moved (t_nv b) tr bsl []) by (rewrite map_length; lia). rewrite map_nth, moved_nth by lia. rewrite Q, (proj2 (Feqb_eq F1 F1) eq_refl). unfold kb. rewrite T3. ring. }
  eapply (table_done w1 (TJoin a b ai bi) _ _ _ _ _ _ _ (mkOut [r; h] True (~ In h (ol ++ il)) True)); [exact EP|exact R|exact Hr| |reflexivity|reflexivity| | | |]; cbn [avoided holds fair].
  - cbn [t_cols t_sel]. rewrite <- !app_assoc, combine_app_eq by lia. apply incl_app; [exact If|]. eapply incl_tran; [exact (cols_full _ _ _ _ Tb)|exact (le_full _ _ (ran_le _ _ _ _ _ _ _ _ _ _ _ R))].
  - exists ta, tcs, r, h. cbn [t_cols t_sel]. split; [symmetry; apply app_assoc|]. split; [exact Lta|]. split; [|split; [rewrite app_assoc; reflexivity|split; [lia|split; [|split; [exact J|reflexivity]]]]].
    + destruct Hr as [Hr _]. cbn [t_cols] in Hr. apply Forall2_app_inv_l in Hr. destruct Hr as [l1 [l2 [Hr _]]]. clear -Hr. induction Hr as [|c l cs ls [_ Y] _ IH]; constructor; assumption.
    + apply Forall_forall. intros l Hl. apply in_map_iff in Hl. destruct Hl as [x [<- _]]. apply moved_len.
  - intros Hav _. split; [split; [apply Hc; exact Hav|exact Hz]|]. apply (incl_fits_verdict ol bsl il asl ml h); try lia; [exact Hav|]. apply X. apply F1'.
    intros i Hi Hs. destruct (Hone i ltac:(lia)) as [Q|Q]; [contradiction|]. destruct (J i Hi Q) as [kk [K1 [K2 [_ K4]]]]. exists kk. split; [exact K1|]. split; [rewrite K2; apply (F1_neq_0 Hp)|rewrite K4; reflexivity].
  - intros [Y _]. apply Hc. exact Y.
  - auto.
Qed.
Lemma do_group : forall t g sp sps sel mult ags rx tcs sl sup sl' ml als rl rsl d, table_known K t tcs sl d -> g < length (t_cols t) -> K sp sup d -> tp_nv sp = t_nv t -> K sel sl' d -> tp_nv sel = t_nv t ->
  K mult ml d -> tp_nv mult = t_nv t -> bag_known K rx rl rsl d ->
  Forall2 (fun (i : nat * agg * tpoly) al => fst (fst i) < length (t_cols t) /\ (snd (fst i) = AggCount \/ snd (fst i) = AggSum) /\ K (snd i) al d /\ tp_nv (snd i) = t_nv t) ags als ->
  1 <= d -> 2 * d + 3 <= D -> boolean sl -> boolean sl' -> 2 ^ t_nv t < fsize p -> small_range rl (t_nv t) ->
  let gi := mkGp [g] (sp :: sps) sel mult ags in let keys := nth g tcs [] in
  done w (TGroup t gi rx) (fun hs rs out => exists h q q1 q2 wl zs, hs = (sp :: repeat mult (counts_in (gb_ids ags))) ++ [sel] /\ rs = map (fun l => (l, d)) ((sup :: repeat ml (counts_in (gb_ids ags))) ++ [sl']) /\
    length zs = length (sums_asked ags als) /\ length wl = length rl /\ counts_of (steps sup) rl (combine rl wl) /\
    out = mkOut ([h; q; q1; q2] ++ zs) (sorted_by rl sup sl' /\ grouped tcs keys sl sup sl' ml (sums_asked ags als))
      (~ In h (keys ++ sup) /\ sort_avoids (t_nv t) sup rl q q1 q2 /\ Forall (fun z => ~ In z (keys ++ sup)) zs)
      (~ unlucky (combine keys sl) (wcol sup sl' ml) h /\ ~ unlucky (unit_bag (steps sup)) (combine rl wl) q2 /\
       Forall2 (fun x z => ~ unlucky (wcol keys sl (nth (fst x) tcs [])) (wcol sup sl' (snd x)) z) (sums_asked ags als) zs)).
Proof.
  intros t g sp sps sel mult ags rx tcs sl sup sl' ml als rl rsl d Tt Hg Tsp Nsp Tse Nse Tm Nm Tx Ta H1 HD' Hb Hb' Hf Hr gi keys. destruct (lenv _ _ _ _ Tt) as [Lt [Ls Nt]].
  pose proof (lend _ _ _ Tsp) as L3. pose proof (lend _ _ _ Tse) as L4. pose proof (lend _ _ _ Tm) as L5. rewrite Nsp in L3. rewrite Nse in L4. rewrite Nm in L5.
  assert (Lc : forall c, c < length (t_cols t) -> length (nth c tcs []) = 2 ^ t_nv t) by (intros c Hc; rewrite Forall_forall in Lt; apply Lt; apply nth_In; lia).
  assert (Ha : Forall2 (agg_at w t d) ags als) by (clear -Ta HK; induction Ta as [|i al l als [A [B [C X]]] H3 IH]; constructor; [|exact IH]; split; [exact A|]; split; [exact B|]; split; [apply HK; exact C|exact X]).
  destruct (group_by_at Hp H2 o ck k Hpp D dbg w t g sp sps sel mult ags rx tcs sl sup sl' ml als rl rsl d G (hasv _ _ _ _ Tt) Hg (HK _ _ _ Tsp) Nsp (HK _ _ _ Tse) Nse (HK _ _ _ Tm) Nm Ha (has _ _ _ _ Tx) H1 HD')
    as [w1 [h [q [q1 [q2 [wl [zs [HW [Lz [EP [Hres R]]]]]]]]]]]. cbv zeta in Lz, EP, R, Hres. fold gi keys in EP, R.
  destruct (range_sense Hp H2 sup rl wl (pow_ne' H2 _ _ L3) HW) as [W1 W2].
  assert (Hq : Forall (fun q => length (fst q) = 2 ^ t_nv t /\ length (snd q) = 2 ^ t_nv t) (gb_sums tcs ags als)).
  { rewrite gb_asked, Forall_map. apply (asked_in (fun c al => length (nth c tcs []) = 2 ^ t_nv t /\ length al = 2 ^ t_nv t)). clear -Ta Lc HK G. induction Ta as [|i al l als [A [B [C X]]] H3 IH]; constructor; [|exact IH]. split; [apply Lc; exact A|]. rewrite <- X. exact (hasd_len o ck k D _ _ _ _ G (HK _ _ _ C)). }
  destruct (group_core Hp H2 (t_nv t) keys sl sup sl' rl ml wl (gb_sums tcs ags als) h q q1 q2 zs (Lc g Hg) Ls L3 L4 L5 Hb Hb' Hf Hr HW Hq Lz) as [C1 [C2 C3]].
  rewrite gb_asked in C1, C2, Lz, R. rewrite map_length in Lz. rewrite Forall_map in C1, C2.
  eapply (table_done w1 (TGroup t gi rx) _ _ _ _ _ _ _ (mkOut ([h; q; q1; q2] ++ zs) _ _ _)); [exact EP|exact R|exact Hres| |reflexivity|reflexivity|exists h, q, q1, q2, wl, zs; cbn [t_cols t_sel]; repeat (split; [first [assumption|reflexivity]|]); reflexivity| | |]; cbn [avoided holds fair]; unfold grouped.
  - eapply incl_tran; [|exact (le_full _ _ (ran_le _ _ _ _ _ _ _ _ _ _ _ R))]. cbn [t_cols t_sel app combine]. intros x [<-|Hx]; [exact (proj2 (HF _ _ _ Tsp))|]. revert Hx. generalize (counts_in (gb_ids ags)). induction n as [|n IH]; cbn [repeat app combine]; intros [<-|Hx]; [exact (proj2 (HF _ _ _ Tse))|destruct Hx|exact (proj2 (HF _ _ _ Tm))|exact (IH Hx)].
  - intros Hav Hr'. exact (C1 Hav Hr').
  - exact C3.
  - intros X1 X2 [Hu1 [Hu2 Hu3]]. apply (C2 X1 X2 Hu1 Hu2). clear -Hu3. induction Hu3; cbn [map]; constructor; assumption.
Qed.
Lemma do_supp_wa : forall b sup m rx l sl l' sl' ml rl rsl d, bag_known K b l sl d -> bag_known K sup l' sl' d -> K m ml d -> b_nv sup = tp_nv m -> bag_known K rx rl rsl d -> 1 <= d -> 2 * d + 3 <= D -> length l' < fsize p ->
  done w (TSuppWa b sup m rx) (quiet (fun out => exists h g g1 g2 wl, length wl = length rl /\ counts_of (steps l') rl (combine rl wl) /\
    out = mkOut [h; g; g1; g2] (same_bag (combine l sl) (wcol l' sl' ml) /\ ~ In F0 (rows ml sl') /\ sorted_by rl l' sl') (~ In h (l ++ l') /\ sort_avoids (b_nv sup) l' rl g g1 g2)
      (~ unlucky (combine l sl) (wcol l' sl' ml) h /\ ~ unlucky (unit_bag (steps l')) (combine rl wl) g2))).
Proof.
  intros b sup m rx l sl l' sl' ml rl rsl d B1 B2 Tm Nm B3 H1 H3 Hl. destruct (len _ _ _ _ B1) as [L1 L2], (len _ _ _ _ B2) as [L3 L4]. pose proof (lend _ _ _ Tm) as L5. rewrite <- Nm in L5. pose proof (pow_ne' H2 _ _ L3) as Hne.
  destruct (supp_wa_at Hp H2 o ck k Hpp D w b sup m rx l sl l' sl' ml rl rsl d dbg G (has _ _ _ _ B1) (has _ _ _ _ B2) (HK _ _ _ Tm) Nm (has _ _ _ _ B3) H1 H3) as [w1 [h [g [g1 [g2 [wl [HW R]]]]]]]. destruct (range_sense Hp H2 l' rl wl Hne HW) as [W1 W2].
  pose proof (sort_sense Hp H2 (b_nv sup) l' sl' rl g g1 g2 L3 L4) as X. assert (V : ~ In h (l ++ l') -> _) by (intros Q; exact (incl_fits_verdict l sl l' sl' ml h ltac:(lia) ltac:(lia) ltac:(lia) Q)).
  assert (Hc : clear h l /\ clear h l' <-> ~ In h (l ++ l')) by (rewrite !(clear_in Hp), in_app_iff; tauto).
  eapply (quiet_done w _ _ (mkOut [h; g; g1; g2] _ _ _)); [exact (at_ran _ _ _ _ _ _ _ _ _ _ _ R)|reflexivity|reflexivity|exists h, g, g1, g2, wl; split; [exact W1|split; [exact W2|reflexivity]]| | |]; cbn [avoided holds fair]; rewrite ?Hc, ?X, ?(nz_claim_zero Hp), ?(sorted_split H2) by lia.
  - intros [Ha Hs] [Hs1 [Hs2 [Hs3 Hs4]]]. split; [tauto|]. rewrite (proj1 (V Ha) Hs1). apply (sort_verdict Hp H2 (b_nv sup) l' rl wl g g1 g2 Hne HW Hl Hs). exact Hs3.
  - tauto.
  - intros [Ha [Hz [Hs Hs4]]] Hf [Hu1 Hu2]. apply andb_prop in Hf. destruct Hf as [Hf1 Hf2]. split; [exact (proj2 (V Ha) Hf1 Hu1)|]. split; [exact Hz|]. split; [exact (proj2 (sort_verdict Hp H2 (b_nv sup) l' rl wl g g1 g2 Hne HW Hl Hs) Hf2 Hu2)|exact Hs4].
Qed.
Lemma lz_prod : forall a b : list (F p), length a = length b -> (lz (zipw Fmul a b) <-> forall i, i < length a -> nth i a F0 = F0 \/ nth i b F0 = F0).
Proof.
  intros a b L. rewrite lz_nth. unfold zipw at 1. rewrite map_length, combine_length. split.
  - intros H i Hi. specialize (H i ltac:(lia)). rewrite zipw_nth0 in H by lia. exact (Fmul_integral Hp _ _ H).
  - intros H i Hi. rewrite zipw_nth0 by lia. destruct (H i ltac:(lia)) as [->| ->]; ring.
Qed.
Lemma do_disjoint_wa : forall a b c ma mb rx l sl l' sl' cl csl mal mbl rl rsl d, bag_known K a l sl d -> bag_known K b l' sl' d -> bag_known K c cl csl d -> K ma mal d -> b_nv c = tp_nv ma -> K mb mbl d -> b_nv c = tp_nv mb ->
  bag_known K rx rl rsl d -> 1 <= d -> 2 * d + 3 <= D -> length cl < fsize p ->
  done w (TDisjointWa a b c ma mb rx) (quiet (fun out => exists g g1 g2 h h' wl, length wl = length rl /\ counts_of (steps cl) rl (combine rl wl) /\
    out = mkOut [g; g1; g2; h; h']
      (sorted_by rl cl csl /\ (forall i, i < length cl -> nth i mal F0 = F0 \/ nth i mbl F0 = F0) /\ same_bag (combine l sl) (wcol cl csl mal) /\ same_bag (combine l' sl') (wcol cl csl mbl))
      (sort_avoids (b_nv c) cl rl g g1 g2 /\ ~ In h (l ++ cl) /\ ~ In h' (l' ++ cl))
      (~ unlucky (unit_bag (steps cl)) (combine rl wl) g2 /\ ~ unlucky (combine l sl) (wcol cl csl mal) h /\ ~ unlucky (combine l' sl') (wcol cl csl mbl) h'))).
Proof.
  intros a b c ma mb rx l sl l' sl' cl csl mal mbl rl rsl d B1 B2 B3 Ta Na Tb Nb B4 H1 H3 Hl. destruct (len _ _ _ _ B1) as [L1 L2], (len _ _ _ _ B2) as [L3 L4], (len _ _ _ _ B3) as [L5 L6]. pose proof (lend _ _ _ Ta) as L7. pose proof (lend _ _ _ Tb) as L8. rewrite <- Na in L7. rewrite <- Nb in L8. pose proof (pow_ne' H2 _ _ L5) as Hne.
  destruct (disjoint_wa_at Hp H2 o ck k Hpp D w a b c ma mb rx l sl l' sl' cl csl mal mbl rl rsl d dbg G (has _ _ _ _ B1) (has _ _ _ _ B2) (has _ _ _ _ B3) (HK _ _ _ Ta) (HK _ _ _ Tb) Na Nb (has _ _ _ _ B4) H1 H3) as [w1 [g [g1 [g2 [h [h' [wl [HW R]]]]]]]].
  destruct (range_sense Hp H2 cl rl wl Hne HW) as [W1 W2]. pose proof (sort_sense Hp H2 (b_nv c) cl csl rl g g1 g2 L5 L6) as X.
  assert (V1 : ~ In h (l ++ cl) -> _) by (intros Q; exact (incl_fits_verdict l sl cl csl mal h ltac:(lia) ltac:(lia) ltac:(lia) Q)).
  assert (V2 : ~ In h' (l' ++ cl) -> _) by (intros Q; exact (incl_fits_verdict l' sl' cl csl mbl h' ltac:(lia) ltac:(lia) ltac:(lia) Q)).
  assert (Hc1 : clear h l /\ clear h cl <-> ~ In h (l ++ cl)) by (rewrite !(clear_in Hp), in_app_iff; tauto). assert (Hc2 : clear h' l' /\ clear h' cl <-> ~ In h' (l' ++ cl)) by (rewrite !(clear_in Hp), in_app_iff; tauto).
  pose proof (lz_prod mal mbl ltac:(lia)) as Z. replace (length mal) with (length cl) in Z by lia.
  eapply (quiet_done w _ _ (mkOut [g; g1; g2; h; h'] _ _ _)); [exact (at_ran _ _ _ _ _ _ _ _ _ _ _ R)|reflexivity|reflexivity|exists g, g1, g2, h, h', wl; split; [exact W1|split; [exact W2|reflexivity]]| | |]; cbn [avoided holds fair]; rewrite ?Hc1, ?Hc2, ?X, ?Z, ?(sorted_split H2).
  - intros [Hs [Ha Hb]] [[Hs1 Hs2] [Hz [Hi1 Hi2]]]. split; [tauto|]. rewrite (proj1 (V1 Ha) Hi1), (proj1 (V2 Hb) Hi2), (proj1 (sort_verdict Hp H2 (b_nv c) cl rl wl g g1 g2 Hne HW Hl Hs) Hs1). reflexivity.
  - tauto.
  - intros [[Hs Hs2] [Hz [Ha Hb]]] Hf [Hu1 [Hu2 Hu3]]. apply andb_prop in Hf. destruct Hf as [Hf1 Hf2]. apply andb_prop in Hf2. destruct Hf2 as [Hf2 Hf3].
    split; [split; [exact (proj2 (sort_verdict Hp H2 (b_nv c) cl rl wl g g1 g2 Hne HW Hl Hs) Hf1 Hu1)|exact Hs2]|]. split; [exact Hz|]. split; [exact (proj2 (V1 Ha) Hf2 Hu2)|exact (proj2 (V2 Hb) Hf3 Hu3)].
Qed.
Lemma do_join_wa : forall a b ai bi ta ac asl bc bsl tcs d, table_known K a ac asl d -> table_known K b bc bsl d -> table_known K (mkTable ta (t_sel b)) tcs bsl d -> length ta = length (t_cols a) -> boolean asl -> boolean bsl ->
  ai < length (t_cols a) -> bi < length (t_cols b) -> 1 <= d -> 2 * (d + length (t_cols a) * d) + 1 <= D -> 2 ^ t_nv b < fsize p -> (dbg = true -> NoDup (nth ai ac [])) ->
  done w (TJoinWa a b ai bi ta) (fun hs rs out => exists r h ml, let rr := powers r (length (t_cols a)) in let il := aggregated rr ac asl in let ol := aggregated rr tcs bsl in
    hs = ta ++ t_cols b ++ [t_sel b] /\ rs = map (fun l => (l, d)) (tcs ++ bc ++ [bsl]) /\ length ml = length il /\ counts_of (rows ol bsl) (rows il asl) (wcol il asl ml) /\
    out = mkOut [r; h] (same_products tcs bsl ac asl /\ forall i, i < length bsl -> nth i bsl F0 = F1 -> nth i (nth ai tcs []) F0 = nth i (nth bi bc []) F0) (~ In h (ol ++ il))
      (r <> F0 /\ ~ unlucky (combine ol bsl) (wcol il asl ml) h)).
Proof.
  intros a b ai bi ta ac asl bc bsl tcs d Ta Tb Tt Lta Ba Bb Hai Hbi H1 HD' Hf Hn. destruct (lenv _ _ _ _ Ta) as [La [Las Na]], (lenv _ _ _ _ Tb) as [Lb [Lbs Nb]], (lenv _ _ _ _ Tt) as [Lt [_ Nt]]. cbn [t_cols] in Nt. change (t_nv (mkTable ta (t_sel b))) with (t_nv b) in Lt.
  pose proof (proj1 (hasv _ _ _ _ Tt)) as Ht. cbn [t_cols] in Ht. change (t_nv (mkTable ta (t_sel b))) with (t_nv b) in Ht.
  destruct (final_join_wa_at Hp H2 o ck k Hpp D dbg w a b ai bi ta ac asl bc bsl tcs d G (hasv _ _ _ _ Ta) (hasv _ _ _ _ Tb) Ht Lta Ba Hai Hbi Hn H1 HD') as [w1 [r [h [ml [HW [EP R]]]]]]. cbv zeta in HW, EP, R.
  set (n := length (t_cols a)) in *. pose proof (agg_len (powers r n) ac asl) as Lil. pose proof (agg_len (powers r n) tcs bsl) as Lol. destruct (folded_incl Hp H2 r n tcs bsl ac asl ltac:(lia) ltac:(lia) Bb Ba) as [F1' F2'].
  set (il := aggregated (powers r n) ac asl) in *. set (ol := aggregated (powers r n) tcs bsl) in *. pose proof (incl_same Hp H2 ol bsl il asl ml ltac:(lia) ltac:(lia) Bb ltac:(lia) HW) as X. destruct HW as [W3 W4].
  assert (Hc : clear h ol /\ clear h il <-> ~ In h (ol ++ il)) by (rewrite !(clear_in Hp), in_app_iff; clear; tauto). assert (V : ~ In h (ol ++ il) -> _) by (intros Q; exact (incl_fits_verdict ol bsl il asl ml h ltac:(lia) ltac:(lia) ltac:(lia) Q)).
  assert (L1 : length (nth ai tcs []) = 2 ^ t_nv b) by (rewrite Forall_forall in Lt; apply Lt; apply nth_In; lia). assert (L3 : length (nth bi bc []) = 2 ^ t_nv b) by (rewrite Forall_forall in Lb; apply Lb; apply nth_In; lia).
  assert (Z : lz (zipw Fmul (zipw Fsub (nth ai tcs []) (nth bi bc [])) bsl) <-> forall i, i < length bsl -> nth i bsl F0 = F1 -> nth i (nth ai tcs []) F0 = nth i (nth bi bc []) F0).
  { rewrite lz_prod by (unfold zipw; rewrite map_length, combine_length; lia). replace (length (zipw Fsub (nth ai tcs []) (nth bi bc []))) with (length bsl) by (unfold zipw; rewrite map_length, combine_length; lia). split.
    - intros Q i Hi Hs. destruct (Q i Hi) as [Y|Y]; [|exfalso; rewrite Hs in Y; exact (F1_neq_0 Hp Y)]. rewrite zipw_nth0 in Y by lia. transitivity (nth i (nth ai tcs []) F0 - nth i (nth bi bc []) F0 + nth i (nth bi bc []) F0)%F; [ring|rewrite Y; ring].
    - intros Q i Hi. assert (Hone : nth i bsl F0 = F0 \/ nth i bsl F0 = F1) by (unfold boolean in Bb; rewrite Forall_forall in Bb; apply Bb; apply nth_In; lia). destruct Hone as [Y|Y]; [right; exact Y|left]. rewrite zipw_nth0 by lia. rewrite (Q i Hi Y). ring. }
  assert (Hr : hast w1 (mkTable (ta ++ t_cols b) (t_sel b)) (tcs ++ bc) bsl d).
  { pose proof (ran_le _ _ _ _ _ _ _ _ _ _ _ R) as L. apply (hast_le o ck k D w w1); [exact G|exact L|]. split; cbn [t_cols t_sel]; [|exact (proj2 (hasv _ _ _ _ Tb))]. apply Forall2_app; [exact Ht|exact (proj1 (hasv _ _ _ _ Tb))]. }
  eapply (table_done w1 (TJoinWa a b ai bi ta) _ _ _ _ _ _ _ (mkOut [r; h] _ _ _)); [exact EP|exact R|exact Hr| |reflexivity|reflexivity|exists r, h, ml; cbv zeta; cbn [t_cols t_sel]; split; [symmetry; apply app_assoc|split; [rewrite app_assoc; reflexivity|split; [exact W3|split; [exact W4|reflexivity]]]]| | |]; cbn [avoided holds fair]; rewrite ?Hc, ?Z.
  - eapply incl_tran; [|exact (le_full _ _ (ran_le _ _ _ _ _ _ _ _ _ _ _ R))]. cbn [t_cols t_sel]. rewrite <- !app_assoc, combine_app_eq by lia. apply incl_app; [|exact (cols_full _ _ _ _ Tb)]. pose proof (cols_full _ _ _ _ Tt) as Q. cbn [t_cols t_sel] in Q. rewrite combine_app_eq in Q by lia. intros x Hx. apply Q. apply in_or_app. left. exact Hx.
  - intros Ha [Hs1 Hs2]. split; [tauto|]. apply (V Ha). apply X. apply F1'. exact Hs1.
  - tauto.
  - intros [Ha Hs] Hf' [Hr0 Hu]. split; [|exact Hs]. apply F2'; [exact Hr0|]. apply X. apply (V Ha); assumption.
Qed.
Lemma do_cross : forall a b ca cb sa sb d, table_known K a ca sa d -> table_known K b cb sb d -> t_nv b <= t_nv a -> t_nv a + t_nv b <= k -> 2 <= D ->
  done w (TCross a b) (fun hs rs out => exists cs sel, hs = cs ++ [sel] /\ length cs = length (t_cols a) + length (t_cols b) /\ Forall (fun c => tp_nv c = t_nv a + t_nv b) hs /\
    rs = map (fun l => (l, 1)) (cross_cols (t_nv a) (t_nv b) ca cb) ++ [(cross_sel (t_nv a) (t_nv b) sa sb, 2)] /\ out = mkOut [] True True True).
Proof.
  intros a b ca cb sa sb d [Ta Sa] [Tb Sb] Hle Hk HD'. assert (Fm : forall n cs ls, Forall2 (fun c l => K c l d /\ tp_nv c = n) cs ls -> Forall2 (fun c l => hasf w c l d /\ tp_nv c = n) cs ls) by (clear -HF; intros n cs ls H; induction H as [|c l cs ls [A B] _ IH]; constructor; [split; [apply HF; exact A|exact B]|exact IH]).
  destruct (cross_at o ck k D dbg w a b ca cb sa sb d G HD' Hk Hle (Fm _ _ _ Ta) (Fm _ _ _ Tb) (HF _ _ _ Sa) (HF _ _ _ Sb)) as [w1 [t [[E1 [S1 T1]] [Nt [Ct St]]]]]. rewrite Nt in Ct.
  assert (Hn : Forall (fun c => tp_nv c = t_nv a + t_nv b) (t_cols t)) by (clear -Ct; induction Ct as [|c l cs ls [_ X] _ IH]; constructor; assumption).
  exists w1, (t_cols t ++ [t_sel t]), (map (fun l => (l, 1)) (cross_cols (t_nv a) (t_nv b) ca cb) ++ [(cross_sel (t_nv a) (t_nv b) sa sb, 2)]), (mkOut [] True True True), True, true. split; [|split; [|split; [|auto]]].
  - exists (t_cols t), (t_sel t). split; [reflexivity|]. split.
    + assert (Q : length (t_cols t) = length (cross_cols (t_nv a) (t_nv b) ca cb)) by (clear -Ct; induction Ct; cbn; congruence). rewrite Q. unfold cross_cols. rewrite app_length, !map_length. f_equal; [clear -Ta; induction Ta; cbn; congruence|clear -Tb; induction Tb; cbn; congruence].
    + split; [apply Forall_app; split; [exact Hn|constructor; [exact Nt|constructor]]|]. split; reflexivity.
  - split; [cbn [prove1]; rewrite E1; reflexivity|]. split; [exact S1|]. intros cp vk N v debug L C. destruct (T1 cp vk N v debug L C) as [v' [X Y]]. exists v'. split; [|exact Y]. cbn [verify1]. rewrite X. unfold ids_of. cbn [bind tcomm_of tc_cols tc_sel tc_nv].
    rewrite map_app, (same_ids (t_nv t) (t_cols t)) by (rewrite Nt; exact Hn). cbn [map]. unfold t_nv at 1. destruct (t_sel t); reflexivity.
  - apply Forall2_app; [|constructor; [exact St|constructor]]. clear -Ct. induction Ct as [|c l cs ls [X _] _ IH]; cbn [map]; constructor; [exact X|exact IH].
Qed.

Lemma do_split : forall a b al asl bl bsl d, bag_known K a al asl d -> bag_known K b bl bsl d -> b_nv a <= k -> b_nv b <= k -> sorted_first al asl -> sorted_first bl bsl ->
  done w (TSplit a b) (fun hs rs out => exists l ls ma mas mb mbs r rs', map tp_nv hs = split_shape a b /\ rs = map (fun c => (c, 1)) [l; ls; ma; mas; mb; mbs; r; rs'] /\
    split_parts al asl bl bsl l ls ma mas mb mbs r rs' /\ out = mkOut [] True True True).
Proof.
  intros a b al asl bl bsl d Ha Hb Ka Kb Sa Sb. destruct (split_at Hp o ck k Hpp D dbg HD w a b al asl bl bsl d G (has _ _ _ _ Ha) (has _ _ _ _ Hb) Ka Kb Sa Sb) as [w1 [L [MA [MB [R [l [ls [ma [mas [mb [mbs [r [rs [HS [[E1 [S1 T1]] [N1 [N2 [N3 N4]]]]]]]]]]]]]]]]]].
  destruct N1 as [I1 [I2 [M1 M2]]], N2 as [I3 [I4 [M3 M4]]], N3 as [I5 [I6 [M5 M6]]], N4 as [I7 [I8 [M7 M8]]].
  exists w1, (columns_of_bags [L; MA; MB; R]), (map (fun c => (c, 1)) [l; ls; ma; mas; mb; mbs; r; rs]), (mkOut [] True True True), True, true. split; [|split; [|split; [|auto]]].
  - exists l, ls, ma, mas, mb, mbs, r, rs. split; [unfold columns_of_bags, split_shape; cbn [flat_map app map repeat]; congruence|]. split; [reflexivity|]. split; [exact HS|reflexivity].
  - split; [cbn [prove1]; rewrite E1; reflexivity|]. split; [exact S1|]. intros cp vk N v debug Lk Cv. exact (T1 cp vk N v debug Lk Cv).
  - unfold columns_of_bags. cbn [flat_map app map]. repeat (constructor; [assumption|]). constructor.
Qed.
Lemma do_set_split : forall a b al asl bl bsl d, bag_known K a al asl d -> bag_known K b bl bsl d -> b_nv a <= k -> b_nv b <= k -> sorted_first al asl -> sorted_first bl bsl -> NoDup (rows al asl) -> NoDup (rows bl bsl) ->
  done w (TSetSplit a b) (fun hs rs out => exists l ls m ms r rs', let mn := Nat.min (b_nv a) (b_nv b) in map tp_nv hs = [b_nv a; b_nv a; mn; mn; b_nv b; b_nv b] /\ rs = map (fun c => (c, 1)) [l; ls; m; ms; r; rs'] /\
    boolean ls /\ boolean ms /\ boolean rs' /\ Permutation (rows al asl) (rows l ls ++ rows m ms) /\ Permutation (rows bl bsl) (rows m ms ++ rows r rs') /\ NoDup (rows l ls ++ rows r rs') /\
    out = mkOut [] True True True).
Proof.
  intros a b al asl bl bsl d Ha Hb Ka Kb Sa Sb Na Nb. destruct (split_at Hp o ck k Hpp D dbg HD w a b al asl bl bsl d G (has _ _ _ _ Ha) (has _ _ _ _ Hb) Ka Kb Sa Sb) as [w1 [L [MA [MB [R [l [ls [ma [mas [mb [mbs [r [rs [HS [[E1 [S1 T1]] [N1 [N2 [N3 N4]]]]]]]]]]]]]]]]]].
  destruct (split_sets _ _ _ _ _ _ _ _ _ _ _ _ HS Na Nb) as [PM ND]. destruct HS as [Bl [Bma [Bmb [Br [Pa [Pb _]]]]]].
  destruct N1 as [I1 [I2 [M1 M2]]], N2 as [I3 [I4 [M3 M4]]], N3 as [I5 [I6 [M5 M6]]], N4 as [I7 [I8 [M7 M8]]].
  assert (E2 : set_lmr_split dbg (ws w) a b = Ok ((L, if b_nv a <? b_nv b then MA else MB, R), ws w1)) by (unfold set_lmr_split; rewrite E1; reflexivity).
  destruct (Nat.ltb_spec (b_nv a) (b_nv b)) as [Hlt|Hge].
  - exists w1, (columns_of_bags [L; MA; R]), (map (fun c => (c, 1)) [l; ls; ma; mas; r; rs]), (mkOut [] True True True), True, true. split; [|split; [|split; [|auto]]].
    + exists l, ls, ma, mas, r, rs. cbv zeta. rewrite Nat.min_l by lia. split; [unfold columns_of_bags; cbn [flat_map app map]; congruence|]. repeat (split; [first [reflexivity|assumption]|]).
      split; [etransitivity; [exact Pb|]; apply Permutation_app_tail; symmetry; exact PM|]. split; [exact ND|reflexivity].
    + split; [cbn [prove1]; rewrite E2; reflexivity|]. split; [exact S1|]. intros cp vk N v debug Lk Cv. destruct (T1 cp vk N v debug Lk Cv) as [v' [X Y]]. exists v'. split; [|exact Y]. cbn [verify1]. rewrite X. rewrite (proj2 (Nat.ltb_lt _ _) Hlt). reflexivity.
    + unfold columns_of_bags. cbn [flat_map app map]. repeat (constructor; [assumption|]). constructor.
  - exists w1, (columns_of_bags [L; MB; R]), (map (fun c => (c, 1)) [l; ls; mb; mbs; r; rs]), (mkOut [] True True True), True, true. split; [|split; [|split; [|auto]]].
    + exists l, ls, mb, mbs, r, rs. cbv zeta. rewrite Nat.min_r by lia. split; [unfold columns_of_bags; cbn [flat_map app map]; congruence|]. repeat (split; [first [reflexivity|assumption]|]).
      split; [etransitivity; [exact Pa|]; apply Permutation_app_head; exact PM|]. split; [exact Pb|]. split; [exact ND|reflexivity].
    + split; [cbn [prove1]; rewrite E2; reflexivity|]. split; [exact S1|]. intros cp vk N v debug Lk Cv. destruct (T1 cp vk N v debug Lk Cv) as [v' [X Y]]. exists v'. split; [|exact Y]. cbn [verify1]. rewrite X. rewrite (proj2 (Nat.ltb_ge _ _) Hge). reflexivity.
    + unfold columns_of_bags. cbn [flat_map app map]. repeat (constructor; [assumption|]). constructor.
Qed.

Lemma task_done : forall t R, can dbg k D K t R -> done w t R.
Proof.
  intros t R Hc; destruct Hc; cbv zeta;
    [apply do_commit|eapply do_add|eapply do_sub|eapply do_mul|eapply do_adds|eapply do_muls|eapply do_zero|eapply do_selector|eapply do_no_zeros|eapply do_multi|eapply do_bag_eq|eapply do_bag_sum|eapply do_incl|eapply do_incl_wa
    |eapply do_perm|eapply do_sort|eapply do_supp|eapply do_disjoint|eapply do_set_disjoint|eapply do_union|eapply do_diff|eapply do_intersect|eapply do_transform|eapply do_reduce|eapply do_join|eapply do_group
    |eapply do_front|eapply do_back|eapply do_supp_wa|eapply do_disjoint_wa|eapply do_join_wa|eapply do_cross|eapply do_split|eapply do_set_split]; eassumption.
Qed.
End W.

(** ** Plans *)
Lemma does_then : forall w w1 r hs ds P ver b (f : list tpoly * ptrk E -> res (ptrk E)) ds' P' (ver' : list tpoly -> bool -> vtrk E -> res (vtrk E)) b', does w w1 r hs ds P ver b -> ran w1 (f (hs, ws w1)) ds' P' (ver' hs) b' ->
  ran w (bind r f) (ds ++ ds') (P /\ P') (fun debug v => ' (hs, v) <- ver debug v ;; ver' hs debug v) (b && b').
Proof.
  intros w w1 r hs ds P ver b f ds' P' ver' b' [E1 [S1 T1]] [w2 [E2 [S2 T2]]]. exists w2. split; [rewrite E1; exact E2|]. split; [eapply step_trans; eassumption|].
  intros cp vk N v debug L Cv. pose proof (cov_le _ _ _ _ _ _ _ _ (step_good _ _ _ _ _ _ _ _ S1) (step_le _ _ _ _ _ _ _ _ S2) Cv) as Cv1.
  destruct (T1 cp vk N v debug L Cv1) as [v1 [X1 [L1 V1]]]. destruct (T2 cp vk N v1 debug L1 Cv) as [v2 [X2 [L2 V2]]]. exists v2.
  split; [|split; [exact L2|eapply vext_trans; eassumption]]. rewrite X1. destruct b; [exact X2|reflexivity].
Qed.
Lemma learn_has : forall w w1 (K : known (p:=p)) hs rs ds P, good w -> (forall h l d, K h l d -> hasf w h l d) -> step w w1 ds P -> Forall2 (fun h r => hasf w1 h (fst r) (snd r)) hs rs -> forall h l d, learn K hs rs h l d -> hasf w1 h l d.
Proof. intros w w1 K hs rs ds P G HK S1 Hh. pose proof (step_le _ _ _ _ _ _ _ _ S1) as L1. intros h l d [X|[e [X He]]]; [eapply hasf_le; [exact G|exact L1|apply HK; exact X]|]. cut (hasf w1 h l e); [intros [Y Z]; split; [exact (hasd_weak w1 h l e d Y He)|exact Z]|]. clear -Hh X. induction Hh as [|h1 r1 hs rs Y _ IH]; [contradiction|]. destruct X as [X|X]; [injection X as -> ->; exact Y|exact (IH X)]. Qed.
Lemma plan_run : forall K pl, posed dbg k D K pl -> forall w, good w -> (forall h l d, K h l d -> hasf w h l d) ->
  exists outs P b, told dbg k D K pl outs /\ ran w (prove_plan o dbg (ws w) pl) (concat (map drew outs)) P (verify_plan o pl) b /\
    (Forall avoided outs -> Forall holds outs -> P /\ b = true) /\ (P -> Forall avoided outs) /\ (P -> b = true -> Forall fair outs -> Forall holds outs).
Proof.
  intros K pl H. induction H as [K|K t R next Hc Hn IH]; intros w G HK.
  - exists [], True, true. split; [constructor|]. split; [|repeat split; constructor]. exists w. split; [reflexivity|]. split; [apply step_refl; exact G|]. intros cp vk N v debug L _. exists v. split; [reflexivity|]. split; [exact L|apply vext_refl].
  - destruct (task_done w K G HK t R Hc) as [w1 [hs [rs [out [P [b [HR [Hd [Hh [A1 [A2 A3]]]]]]]]]]]. pose proof (proj1 (proj2 Hd)) as S1. pose proof (step_good _ _ _ _ _ _ _ _ S1) as G1. pose proof (step_le _ _ _ _ _ _ _ _ S1) as L1.
    destruct (IH hs rs out HR w1 G1) as [outs [P' [b' [T [R' [B1 [B2 B3]]]]]]].
    { exact (learn_has w w1 K hs rs _ _ G HK S1 Hh). }
    exists (out :: outs), (P /\ P'), (b && b'). split; [econstructor; eassumption|]. split; [|split; [|split]].
    + exact (does_then _ _ _ _ _ _ _ _ (fun x => let (hs, s) := x in prove_plan o dbg s (next hs)) _ _ (fun hs => verify_plan o (next hs)) _ Hd R').
    + intros Hav Hho. inversion Hav; inversion Hho; subst. destruct A1 as [? ->]; [assumption|assumption|]. destruct B1 as [? ->]; auto.
    + intros [X Y]. constructor; auto.
    + intros [X Y] Q Hfa. apply andb_prop in Q. inversion Hfa; subst. constructor; tauto.
Qed.
End T.

Section S.
Variables (o : oracle p comm) (addr : nat -> nat) (k : nat) (ck : pparam E) (vk : vparam E) (ops : list (pop p)) (vops : list (vop E)) (s : ptrk E) (hs : list tpoly) (d D : nat).
Hypothesis HS : setting o addr k ck vk ops vops s hs d D.
Hypothesis HD : 1 <= D.
Hypothesis Hd : d <= D.
Lemma start_has : forall h l e, at_start ops hs d h l e -> hasf (start ops s hs) h l e.
Proof.
  intros h l e [X Y]. split; [apply (hasd_weak _ h l d); [|exact Y]; exact (stands_hasd o addr k ck vk ops vops s hs d D HS HD Hd h l X)|]. destruct X as [i [X1 X2]]. cbn [start wf].
    assert (Li : length (denote ops) = length hs) by (symmetry; eapply Forall2_len; exact (ProverStep.prun_den o ck _ _ _ false (st_run _ _ _ _ _ _ _ _ _ _ _ HS) ltac:(discriminate))). rewrite <- X2. unfold poly_at. clear -X1 Li. revert i X1. generalize (denote ops) Li. generalize hs. induction hs0 as [|h0 r IH]; intros [|d0 ds] L i Hi; try discriminate L; [destruct i; discriminate Hi|].
    destruct i as [|i]; [injection Hi as <-; left; reflexivity|]. injection L as L. right. exact (IH ds L i Hi).
Qed.
Lemma plan_check : forall dbg pl, posed dbg k D (at_start ops hs d) pl ->
  exists s' outs, prove_plan o dbg s pl = Ok s' /\ told dbg k D (at_start ops hs d) pl outs /\ drawn (pt_tr s) (pt_tr s') = concat (map drew outs) /\
    (Forall avoided outs -> Forall holds outs -> accepted o addr vk vops s' (verify_plan o pl)) /\
    (~ Forall holds outs -> Forall fair outs -> turned_down o addr k vk vops s' (verify_plan o pl)) /\
    (~ Forall avoided outs -> refused addr k s').
Proof.
  intros dbg pl Hpl.
  destruct (plan_run (st_two _ _ _ _ _ _ _ _ _ _ _ HS) o ck k (Hpp0 HE o addr k ck vk ops vops s hs d D HS) D dbg HD _ _ Hpl (start ops s hs) (set_good o addr k ck vk ops vops s hs d D HS HD Hd)) as [outs [P [b [T [R [A1 [A2 A3]]]]]]].
  { exact start_has. }
  destruct (ran_judge HE Hp o addr k ck vk ops vops s hs d D HS HD Hd _ _ _ _ _ R) as [s' [B1 [B2 [B3 [_ [B5 B6]]]]]]. exists s', outs. split; [exact B1|]. split; [exact T|]. split; [exact B2|]. split; [|split].
  - intros Hav Hho. destruct (A1 Hav Hho). auto.
  - intros Hho Hfa. apply B6. intros [X Y]. apply Hho. auto.
  - intros Hav. apply B5. intros X. auto.
Qed.
End S.
End M.
