(** Runs of the composed protocols after a history of tracker calls, from the prover's call to the verifier's verdict: supports, disjoint bags, set operations. *)
From Coq Require Import String List Arith Lia Bool ZArith Znumtheory Permutation Sorted.
Import ListNotations.
From Verif Require Import Res ResLemmas Fp FSum SpecMle SpecKzg SpecPoly PolyLemmas SpecSumcheck SpecBatch SpecTracker SpecIop SpecRel ModelMle MleLemmas MleProofs MleExtra ModelVp ModelTranscript ModelSumcheck
  Pairing ModelKzg ModelBatch ModelProver ModelVerifier ModelAdvice ModelIop ProverHist VerifierHist CompileHist IopHist TmapLemmas ProverProofs HistExtra LockProofs
  CompileMain CompileSound LogDeriv BagLemmas AdviceProofs AdviceProofs2 AdviceProofs5 IopWorld IopMain IopBasic IopMulti IopRuns IopSort IopVer IopSound IopSound2 SortSound IopCheck IopComp IopClaims CompSound CompSound2.
Local Open Scope string_scope.
Local Open Scope list_scope.
Local Open Scope nat_scope.

Section M.
Context {p : positive} {E : pairing p}.
Hypothesis HE : pairing_laws E.
Hypothesis Hp : prime (Zpos p).
Notation comm := (gcar (PG1 E)).
Implicit Types (w : wd (E:=E)) (v : vtrk E).
Add Ring Fq : (@F_ring p).

(** ** What the conditions and verdicts of the parts say *)
Lemma same_bag_or : forall a b : wbag (p:=p), same_bag a b \/ ~ same_bag a b.
Proof.
  intros a b. destruct (Forall_dec (fun x => weight a x = weight b x) (fun x => F_dec (weight a x) (weight b x)) (map fst (a ++ b))) as [Q|Q].
  - left. intros x. destruct (in_dec F_dec x (map fst (a ++ b))) as [I|I]; [rewrite Forall_forall in Q; apply Q; exact I|]. rewrite map_app, in_app_iff in I. rewrite !weight_notin by tauto. reflexivity.
  - right. intros H. apply Q. apply Forall_forall. intros x _. apply H.
Qed.
Lemma fits_verdict : forall (a b : wbag (p:=p)) g, ~ In g (map fst a) -> ~ In g (map fst b) ->
  (same_bag a b -> Feqb (logd a g) (logd b g) = true) /\ (Feqb (logd a g) (logd b g) = true -> ~ unlucky a b g -> same_bag a b).
Proof.
  intros a b g Ha Hb. destruct (verdict a b g Ha Hb) as [V1 V2]. split; [exact V1|]. intros Hf Hu. destruct (same_bag_or a b) as [Q|Q]; [exact Q|]. rewrite (V2 Q Hu) in Hf. discriminate.
Qed.
Section J.
Hypothesis H2 : 2 < fsize p.
Lemma sorted_split : forall rl l sl : list (F p), sorted_by rl l sl <-> incl (steps l) rl /\ strict l sl.
Proof.
  intros rl l sl. split.
  - intros H. split; [|intros i Hi; apply H; exact Hi]. intros x Hx. unfold steps in Hx. apply in_map_iff in Hx. destruct Hx as [i [<- Hi]]. apply in_seq in Hi. apply H. lia.
  - intros [H1 H3] i Hi. split; [|apply H3; exact Hi]. apply H1. apply in_steps; assumption.
Qed.
Lemma sort_sense : forall n (l sl rl : list (F p)) g g1 g2, length l = 2 ^ n -> length sl = 2 ^ n -> (sort_claims n l sl rl g g1 g2 <-> sort_avoids n l rl g g1 g2 /\ strict l sl).
Proof.
  intros n l sl rl g g1 g2 L1 L2. assert (Hne : l <> []) by (intros ->; cbn in L1; pose proof (pow_pos n); lia). pose proof (diffs_len l Hne) as Ld.
  unfold sort_claims, sort_avoids, strict. rewrite hats_folded. change (ordered_evals n) with (@index_column p n). rewrite !(clear_in Hp), (nz_claim_zero Hp) by lia. pose proof (in_diffs H2 l g2 Hne) as Hin. rewrite Hin. pose proof (strict_rows Hp H2 l sl Hne ltac:(lia)) as Hs. rewrite Hs.
  assert (Hin' : In g2 (F1 :: steps l ++ rl) <-> In g2 (F1 :: steps l) \/ In g2 rl) by (clear; cbn [In]; rewrite in_app_iff; tauto). rewrite Hin'. clear. tauto.
Qed.
Lemma range_sense : forall l rl wl : list (F p), l <> [] -> range_weights l rl wl -> length wl = length rl /\ counts_of (steps l) rl (combine rl wl).
Proof.
  intros l rl wl Hne [W0 W]. rewrite (rows_diffs Hp H2 l Hne), (rows_ones Hp), (wcol_sel1 rl wl W0) in W. split; [exact W0|exact W].
Qed.
Lemma sort_verdict : forall n (l rl wl : list (F p)) g g1 g2, l <> [] -> range_weights l rl wl -> length l < fsize p -> sort_avoids n l rl g g1 g2 ->
  (incl (steps l) rl -> sort_fits l rl wl g2 = true) /\ (sort_fits l rl wl g2 = true -> ~ unlucky (unit_bag (steps l)) (combine rl wl) g2 -> incl (steps l) rl).
Proof.
  intros n l rl wl g g1 g2 Hne HW Hl [_ Ha]. destruct (range_sense l rl wl Hne HW) as [W0 W]. unfold sort_fits. rewrite (steps_diffs H2 l g2 Hne), (wcol_sel1 rl wl W0).
  assert (Lst : length (steps l) < length l) by (unfold steps; rewrite map_length, seq_length; destruct l; [contradiction|cbn; lia]).
  assert (X : same_bag (unit_bag (steps l)) (combine rl wl) <-> incl (steps l) rl).
  { pose proof (incl_weights_same Hp (steps l) (ones (length (steps l))) rl (ones (length rl)) wl) as X. rewrite !(rows_ones Hp), (wcol_sel1 rl wl W0) in X. fold (@ones p (length (steps l))) in X. rewrite wcol_unit in X by reflexivity.
    apply X; unfold ones; rewrite ?repeat_length; auto; [apply ones_boolean|lia|]. split; [exact W0|]. fold (@ones p (length (steps l))). fold (@ones p (length rl)). rewrite !(rows_ones Hp), (wcol_sel1 rl wl W0). exact W. }
  rewrite <- X. apply fits_verdict; [rewrite unit_fst|rewrite combine_fst by exact W0]; intros Q; apply Ha; right; apply in_or_app; auto.
Qed.
Lemma incl_fits_verdict : forall (l sl l' sl' ml : list (F p)) h, length sl = length l -> length sl' = length l' -> length ml = length l' -> ~ In h (l ++ l') ->
  (same_bag (combine l sl) (wcol l' sl' ml) -> incl_fits l sl l' sl' ml h = true) /\ (incl_fits l sl l' sl' ml h = true -> ~ unlucky (combine l sl) (wcol l' sl' ml) h -> same_bag (combine l sl) (wcol l' sl' ml)).
Proof.
  intros l sl l' sl' ml h L1 L2 L3 Ha. unfold incl_fits. rewrite wcol_one by exact L1. apply fits_verdict; [rewrite combine_fst by exact L1|rewrite wcol_fst by assumption]; intros Q; apply Ha; apply in_or_app; auto.
Qed.
Lemma incl_same : forall (l sl l' sl' ml : list (F p)), length sl = length l -> length sl' = length l' -> boolean sl -> length l < fsize p -> incl_weights l sl l' sl' ml -> (same_bag (combine l sl) (wcol l' sl' ml) <-> incl (rows l sl) (rows l' sl')).
Proof.
  intros l sl l' sl' ml L1 L2 Hb Hl HW. pose proof (incl_weights_same Hp l sl l' sl' ml ltac:(lia) Hb Hl ltac:(lia) HW) as X. fold (@ones p (length l)) in X. rewrite wcol_one in X by lia. exact X.
Qed.
Lemma sum_fits_verdict : forall (l0 sl0 l1 sl1 l sl : list (F p)) h, length sl0 = length l0 -> length sl1 = length l1 -> length sl = length l -> boolean sl0 -> boolean sl1 -> boolean sl -> length l0 + length l1 < fsize p -> length l < fsize p -> ~ In h (l0 ++ l1 ++ l) ->
  (Permutation (rows l0 sl0 ++ rows l1 sl1) (rows l sl) -> sum_fits l0 sl0 l1 sl1 l sl h = true) /\
  (sum_fits l0 sl0 l1 sl1 l sl h = true -> ~ unlucky (combine l0 sl0 ++ combine l1 sl1) (combine l sl) h -> Permutation (rows l0 sl0 ++ rows l1 sl1) (rows l sl)).
Proof.
  intros l0 sl0 l1 sl1 l sl h L0 L1 L B0 B1 B Hl Hl' Ha. unfold sum_fits. rewrite !wcol_one by assumption. rewrite !in_app_iff in Ha.
  pose proof (same_bag_rows Hp (l0 ++ l1) (sl0 ++ sl1) l sl ltac:(rewrite !app_length; lia) ltac:(lia) ltac:(apply Forall_app; split; assumption) B ltac:(rewrite app_length; lia) Hl') as X.
  fold (@ones p (length (l0 ++ l1))) in X. fold (@ones p (length l)) in X. rewrite !wcol_one, combine_app', rows_app in X by (rewrite ?app_length; lia). rewrite <- X.
  apply fits_verdict; [rewrite map_app, !combine_fst, in_app_iff by assumption|rewrite combine_fst by assumption]; tauto.
Qed.
(** Columns in ascending order: strict steps leave no selected row twice. *)
Lemma strict_distinct : forall l sl : list (F p), length sl = length l -> non_decreasing l -> strict l sl -> NoDup (rows l sl).
Proof.
  assert (G : forall l sl : list (F p), length sl = length l -> non_decreasing l -> strict l sl -> forall i j, i < j -> j < length l -> nth i sl F0 <> F0 -> nth i l F0 <> nth j l F0).
  { intros l sl L Hd Hs i j Hij Hj Hi He. apply (Hs i); [lia|exact Hi|]. destruct (Nat.eq_dec (S i) j) as [->|Hne]; [symmetry; exact He|]. apply val_inj.
    pose proof (Hd i (S i) ltac:(lia) ltac:(lia)). pose proof (Hd (S i) j ltac:(lia) Hj). rewrite <- He in H0. lia. }
  intros l. induction l as [|a l IH]; intros sl L Hd Hs; [constructor|]. destruct sl as [|s sl]; [discriminate|]. rewrite rows_cons.
  assert (Hr : NoDup (rows l sl)).
  { apply IH; [cbn in L; lia| |]; [intros i j Hij Hj; apply (Hd (S i) (S j)); cbn; lia|intros i Hi Hsi; apply (Hs (S i)); [cbn; lia|exact Hsi]]. }
  destruct (Feqb s F0) eqn:Q; [exact Hr|]. cbn [app]. constructor; [|exact Hr]. intros Hin. apply rows_In in Hin; [|cbn in L; lia]. destruct Hin as [k [K1 [K2 K3]]].
  apply (G (a :: l) (s :: sl) L Hd Hs 0 (S k)); [lia|cbn; lia| |cbn; congruence]. cbn. intros Hz. rewrite Hz, (proj2 (Feqb_eq F0 F0) eq_refl) in Q. discriminate.
Qed.
(** Supports: the claims and the verdict of an honest prover. *)
Lemma supp_core : forall n (l sl l' sl' rl ml wl : list (F p)) h g g1 g2, length sl = length l -> length l' = 2 ^ n -> length sl' = 2 ^ n -> boolean sl -> boolean sl' -> length l < fsize p -> length l' < fsize p -> small_range rl n ->
  incl_weights l sl l' sl' ml -> range_weights l' rl wl ->
  let claims := (clear h l /\ clear h l') /\ lz (nz_claim ml sl') /\ sort_claims n l' sl' rl g g1 g2 in
  let fits := incl_fits l sl l' sl' ml h && sort_fits l' rl wl g2 in
  let avoid := ~ In h (l ++ l') /\ sort_avoids n l' rl g g1 g2 in
  let right := sorted_by rl l' sl' /\ forall x, In x (rows l' sl') <-> In x (rows l sl) in
  (avoid -> right -> claims /\ fits = true) /\
  (claims -> fits = true -> ~ unlucky (combine l sl) (wcol l' sl' ml) h -> ~ unlucky (unit_bag (steps l')) (combine rl wl) g2 -> right) /\
  (claims -> avoid).
Proof.
  intros n l sl l' sl' rl ml wl h g g1 g2 L1 L3 L4 Hb Hb' Hl Hl' Hr HW HW'. assert (Hne : l' <> []) by (intros ->; cbn in L3; pose proof (pow_pos n); lia). pose proof HW as [W3 W4]. cbv zeta.
  rewrite (sort_sense _ _ _ _ _ _ _ L3 L4), !(clear_in Hp), (nz_claim_zero Hp) by lia. pose proof (incl_same l sl l' sl' ml ltac:(lia) ltac:(lia) Hb Hl HW) as X. rewrite in_app_iff. split; [|split].
  - intros [Ha Ha'] [Hs Hx]. pose proof (sorted_distinct _ _ _ _ L3 L4 Hr Hs) as Hn. apply sorted_split in Hs. destruct Hs as [Hs1 Hs2].
    assert (Hsb : same_bag (combine l sl) (wcol l' sl' ml)) by (apply X; intros x Hx'; apply Hx; exact Hx').
    split; [split; [tauto|]; split; [|split; [exact Ha'|exact Hs2]]|].
    + intros Hz. apply rows_In in Hz; [|lia]. destruct Hz as [i [I1 [I2 I3]]]. rewrite W3 in I1.
      assert (Hone : nth i sl' F0 = F1). { unfold boolean in Hb'. rewrite Forall_forall in Hb'. destruct (Hb' (nth i sl' F0)) as [Q|Q]; [apply nth_In; lia|contradiction|exact Q]. }
      pose proof (distinct_weight l' sl' ml i ltac:(lia) W3 Hn I1 I3) as Hw. rewrite I2, Hone, <- Hsb in Hw. replace (F1 * F0)%F with (@F0 p) in Hw by ring.
      assert (Hin : In (nth i l' F0) (rows l sl)) by (apply Hx; apply rows_In; [lia|]; exists i; auto). apply (rows_weight' Hp l sl) in Hin; [contradiction|lia|exact Hb|exact Hl].
    + apply andb_true_intro. split; [apply (incl_fits_verdict l sl l' sl' ml h); try lia; [rewrite in_app_iff; tauto|exact Hsb]|]. eapply (sort_verdict n l' rl wl g g1 g2); eassumption.
  - intros [Hc [Hz [Ha Hs]]] Hf Hu1 Hu2. apply andb_prop in Hf. destruct Hf as [Hf1 Hf2].
    assert (Hst : sorted_by rl l' sl') by (apply sorted_split; split; [|exact Hs]; exact (proj2 (sort_verdict n l' rl wl g g1 g2 Hne HW' Hl' Ha) Hf2 Hu2)).
    split; [exact Hst|]. pose proof (sorted_distinct _ _ _ _ L3 L4 Hr Hst) as Hn.
    pose proof (proj2 (incl_fits_verdict l sl l' sl' ml h ltac:(lia) ltac:(lia) W3 ltac:(rewrite in_app_iff; tauto)) Hf1 Hu1) as Hsb.
    destruct (support_rows l' sl' ml (combine l sl) ltac:(lia) W3 Hb' Hn) as [Y _]; [intros i Hi Hsi Hz'; apply Hz; apply rows_In; [lia|]; exists i; split; [lia|auto]|exact Hsb|].
    intros x. rewrite Y, (rows_weight' Hp l sl x) by (try assumption; lia). reflexivity.
  - tauto.
Qed.
(** Set disjointness, likewise. *)
Lemma apart_core : forall n (l sl l' sl' cl csl rl wl : list (F p)) h g g1 g2, length sl = length l -> length sl' = length l' -> boolean sl -> boolean sl' -> length l + length l' < fsize p -> 2 ^ n < fsize p ->
  length cl = 2 ^ n -> length csl = 2 ^ n -> boolean csl -> Permutation (rows cl csl) (rows l sl ++ rows l' sl') -> non_decreasing cl -> (NoDup (rows l sl ++ rows l' sl') -> strict cl csl) -> range_weights cl rl wl ->
  let claims := (clear h l /\ clear h l' /\ clear h cl) /\ sort_claims n cl csl rl g g1 g2 in
  let fits := sum_fits l sl l' sl' cl csl h && sort_fits cl rl wl g2 in
  let avoid := ~ In h (l ++ l' ++ cl) /\ sort_avoids n cl rl g g1 g2 in
  let apart := NoDup (rows l sl ++ rows l' sl') in
  (avoid -> apart -> incl (steps cl) rl -> claims /\ fits = true) /\
  (claims -> fits = true -> ~ unlucky (unit_bag (steps cl)) (combine rl wl) g2 -> incl (steps cl) rl) /\
  (claims -> avoid /\ apart).
Proof.
  intros n l sl l' sl' cl csl rl wl h g g1 g2 L1 L2 B1 B2 Hl Hn Lc Ls Bc HP Hnd Hst HW. assert (Hne : cl <> []) by (intros ->; cbn in Lc; pose proof (pow_pos n); lia). cbv zeta.
  rewrite (sort_sense _ _ _ _ _ _ _ Lc Ls), !(clear_in Hp). assert (Hin : In h (l ++ l' ++ cl) <-> In h l \/ In h l' \/ In h cl) by (rewrite !in_app_iff; reflexivity). split; [|split].
  - intros [Ha Ha'] Hd Hi. rewrite Hin in Ha. split; [split; [tauto|]; split; [exact Ha'|apply Hst; exact Hd]|]. apply andb_true_intro. split.
    + apply (sum_fits_verdict l sl l' sl' cl csl h); try assumption; try lia; [rewrite Hin; exact Ha|]. apply Permutation_sym. exact HP.
    + eapply (sort_verdict n cl rl wl g g1 g2); try eassumption. lia.
  - intros [_ [Ha _]] Hf Hu. apply andb_prop in Hf. destruct Hf as [_ Hf]. apply (sort_verdict n cl rl wl g g1 g2 Hne HW ltac:(lia) Ha); assumption.
  - intros [Hc [Ha Hs]]. rewrite Hin. split; [tauto|]. eapply Permutation_NoDup; [exact HP|]. apply strict_distinct; [lia|exact Hnd|exact Hs].
Qed.
(** The merged support of two bags. *)
Lemma merged_strict : forall n (vals : list (F p)), ascending vals -> strict (merged n vals) (merged_sel n vals).
Proof.
  intros n vals Ha i Hi Hs. unfold merged, merged_sel in *. set (z := 2 ^ n - length vals) in *. clearbody z. destruct (Nat.lt_ge_cases i z) as [Q|Q].
  - exfalso. apply Hs. rewrite app_nth1 by (rewrite repeat_length; exact Q). apply nth_repeat.
  - rewrite app_length, repeat_length in Hi. rewrite !app_nth2 by (rewrite repeat_length; lia). rewrite repeat_length. replace (S i - z) with (S (i - z)) by lia. remember (i - z) as j eqn:Qj. assert (Hj : S j < length vals) by lia. clear - Ha Hj.
    revert j Hj. induction Ha as [|a l Hl IH Hf]; intros j Hj; [cbn in Hj; lia|]. destruct j as [|j]; [|apply IH; cbn in Hj; lia]. cbn [nth]. destruct l as [|b l]; [cbn in Hj; lia|]. inversion Hf as [|x y Hab Hr]; subst. cbn [nth]. intros E0. rewrite E0 in Hab. lia.
Qed.
Lemma ascending_nodup : forall vals : list (F p), ascending vals -> NoDup vals.
Proof.
  intros vals H. induction H as [|a l Hl IH Hf]; constructor; [|exact IH]. intros Hin. rewrite Forall_forall in Hf. specialize (Hf a Hin). lia.
Qed.
Lemma merged_weight : forall n (vals : list (F p)) f x, NoDup vals -> weight (wcol (merged n vals) (merged_sel n vals) (repeat F0 (2 ^ n - length vals) ++ map f vals)) x = if in_dec F_dec x vals then f x else F0.
Proof.
  intros n vals f x. unfold merged, merged_sel. generalize (2 ^ n - length vals). intros z Hn. induction z as [|z IH].
  - cbn [repeat app]. revert Hn. induction vals as [|a l IH]; intros Hn; [reflexivity|]. inversion Hn as [|y r N1 N2]; subst. cbn [map length repeat]. rewrite wcol_cons, weight_cons. cbn [fst snd]. rewrite IH by exact N2.
    destruct (Feqb a x) eqn:Q.
    + apply Feqb_eq in Q. subst a. destruct (in_dec F_dec x l) as [I|I]; [contradiction|]. destruct (in_dec F_dec x (x :: l)) as [J|J]; [|exfalso; apply J; left; reflexivity]. ring.
    + assert (Hax : a <> x) by (intros ->; rewrite (proj2 (Feqb_eq x x) eq_refl) in Q; discriminate).
      destruct (in_dec F_dec x l) as [I|I]; destruct (in_dec F_dec x (a :: l)) as [J|J]; try ring; exfalso; cbn [In] in J; tauto.
  - cbn [repeat app]. rewrite wcol_cons, weight_cons, IH. cbn [fst snd]. destruct (Feqb F0 x); ring.
Qed.
Lemma merged_same : forall n (vals l sl : list (F p)), ascending vals -> length sl = length l -> boolean sl -> (forall x, In x (rows l sl) -> In x vals) -> same_bag (combine l sl) (wcol (merged n vals) (merged_sel n vals) (merged_count n vals l sl)).
Proof.
  intros n vals l sl Ha L Hb Hv x. unfold merged_count. rewrite (merged_weight n vals (fun x => ofN (count_occ F_dec (rows l sl) x))) by (apply ascending_nodup; exact Ha). rewrite (rows_count Hp) by (lia || exact Hb). destruct (in_dec F_dec x vals) as [I|I]; [reflexivity|].
  rewrite (proj1 (count_occ_not_In F_dec _ x)); [reflexivity|]. intros Hx. apply I. apply Hv. exact Hx.
Qed.
Lemma products_apart : forall n (vals l sl l' sl' : list (F p)), length l < fsize p -> length l' < fsize p -> (forall x, In x vals <-> In x (rows l sl) \/ In x (rows l' sl')) ->
  (lz (zipw Fmul (merged_count n vals l sl) (merged_count n vals l' sl')) <-> forall x, In x (rows l sl) -> ~ In x (rows l' sl')).
Proof.
  intros n vals l sl l' sl' Hl Hl' Hv. rewrite <- (disjoint_products (2 ^ n - length vals) vals l sl l' sl' Hl Hl' Hv Hp). cbv zeta. unfold ModelAdvice.zeros.
  fold (merged_count n vals l sl). fold (merged_count n vals l' sl'). assert (HL : length (merged_count n vals l sl) = length (merged_count n vals l' sl')) by (unfold merged_count; rewrite !app_length, !map_length; reflexivity).
  rewrite lz_nth. rewrite zipw_length. rewrite <- HL, Nat.min_id. split.
  - intros H i. destruct (Nat.lt_ge_cases i (length (merged_count n vals l sl))) as [Q|Q]; [rewrite <- zipw_nth0 by lia; apply H; exact Q|]. rewrite (nth_overflow (merged_count n vals l sl)) by exact Q. ring.
  - intros H i Hi. rewrite zipw_nth0 by lia. apply H.
Qed.
End J.

Section S.
Variables (o : oracle p comm) (addr : nat -> nat) (k : nat) (ck : pparam E) (vk : vparam E) (ops : list (pop p)) (vops : list (vop E)) (s : ptrk E) (hs : list tpoly) (d D : nat).
Hypothesis HS : setting o addr k ck vk ops vops s hs d D.
Hypothesis HD : 1 <= D.
Hypothesis Hd : d <= D.
Let w0 : wd := start ops s hs.
Let G0 : good o ck k D w0 := set_good o addr k ck vk ops vops s hs d D HS HD Hd.
Let Hpp := Hpp0 HE o addr k ck vk ops vops s hs d D HS.
Let H2 : 2 < fsize p := st_two _ _ _ _ _ _ _ _ _ _ _ HS.
Let judge := ran_judge HE Hp o addr k ck vk ops vops s hs d D HS HD Hd.
Let has := bag_hasb o addr k ck vk ops vops s hs d D HS HD Hd.
Let len := bag_len o addr k ck vk ops vops s hs d D HS HD Hd.
Lemma pow_ne : forall n (l : list (F p)), length l = 2 ^ n -> l <> []. Proof. intros n l H ->. cbn in H. pose proof (pow_pos n). lia. Qed.

Lemma supp_check : forall dbg b sup rx l sl l' sl' rl rsl, bag_stands ops hs b l sl -> bag_stands ops hs sup l' sl' -> bag_stands ops hs rx rl rsl -> 1 <= d -> 2 * d + 3 <= D ->
  boolean sl -> boolean sl' -> length l < fsize p -> length l' < fsize p -> small_range rl (b_nv sup) ->
  exists s' h g g1 g2 ml wl, supp_prove o dbg s b sup rx = Ok s' /\ drawn (pt_tr s) (pt_tr s') = [h; g; g1; g2] /\
    length ml = length l' /\ counts_of (rows l sl) (rows l' sl') (wcol l' sl' ml) /\ length wl = length rl /\ counts_of (steps l') rl (combine rl wl) /\
    let verify debug v := supp_verify o debug v (comm_of b) (comm_of sup) (comm_of rx) in
    let avoid := ~ In h (l ++ l') /\ sort_avoids (b_nv sup) l' rl g g1 g2 in
    let right := sorted_by rl l' sl' /\ forall x, In x (rows l' sl') <-> In x (rows l sl) in
    (avoid -> right -> accepted o addr vk vops s' verify) /\
    (~ right -> ~ unlucky (combine l sl) (wcol l' sl' ml) h -> ~ unlucky (unit_bag (steps l')) (combine rl wl) g2 -> turned_down o addr k vk vops s' verify) /\
    (~ avoid -> refused addr k s').
Proof.
  intros dbg b sup rx l sl l' sl' rl rsl B1 B2 B3 H1 H3 Hb Hb' Hl Hl' Hr. destruct (len _ _ _ B1) as [L1 L2], (len _ _ _ B2) as [L3 L4]. pose proof (pow_ne _ _ L3) as Hne.
  destruct (supp_at Hp H2 o ck k Hpp D w0 b sup rx l sl l' sl' rl rsl d dbg G0 (has _ _ _ B1) (has _ _ _ B2) (has _ _ _ B3) Hb' H1 H3) as [w1 [h [g [g1 [g2 [ml [wl [HW [HW' R]]]]]]]]].
  destruct (judge _ _ _ _ _ (at_ran _ _ _ _ _ _ _ _ _ _ _ R)) as [s' [A1 [A2 [A3 [_ [A5 A6]]]]]]. destruct (range_sense H2 l' rl wl Hne HW') as [W1 W2].
  destruct (supp_core H2 (b_nv sup) l sl l' sl' rl ml wl h g g1 g2 ltac:(lia) L3 L4 Hb Hb' Hl Hl' Hr HW HW') as [C1 [C2 C3]]. destruct HW as [W3 W4].
  exists s', h, g, g1, g2, ml, wl. split; [exact A1|]. split; [exact A2|]. split; [exact W3|]. split; [exact W4|]. split; [exact W1|]. split; [exact W2|]. cbv zeta. split; [|split].
  - intros Ha Hr'. destruct (C1 Ha Hr') as [X1 X2]. exact (A3 X1 X2).
  - intros Hn Hu1 Hu2. apply A6. intros [X1 X2]. exact (Hn (C2 X1 X2 Hu1 Hu2)).
  - intros Hn. apply A5. intros X. exact (Hn (C3 X)).
Qed.
Lemma bag_disjoint_check : forall dbg a b rx l sl l' sl' rl rsl, bag_stands ops hs a l sl -> bag_stands ops hs b l' sl' -> bag_stands ops hs rx rl rsl -> 1 <= d -> 2 * d + 3 <= D ->
  let n := Nat.max (b_nv a) (b_nv b) + 1 in n <= k -> boolean sl -> boolean sl' -> 2 ^ n < fsize p ->
  exists s' g g1 g2 h h' vals wl, bag_disjoint_prove o dbg s a b rx = Ok s' /\ drawn (pt_tr s) (pt_tr s') = [g; g1; g2; h; h'] /\
    ascending vals /\ (forall x, In x vals <-> In x (rows l sl) \/ In x (rows l' sl')) /\ length vals <= 2 ^ n /\
    let c := merged n vals in length wl = length rl /\ counts_of (steps c) rl (combine rl wl) /\
    let verify debug v := bag_disjoint_verify o debug v (comm_of a) (comm_of b) (comm_of rx) in
    let avoid := sort_avoids n c rl g g1 g2 /\ ~ In h (l ++ c) /\ ~ In h' (l' ++ c) in
    let apart := forall x, In x (rows l sl) -> ~ In x (rows l' sl') in
    (avoid -> apart -> incl (steps c) rl -> accepted o addr vk vops s' verify) /\
    (~ apart -> refused addr k s') /\
    (~ incl (steps c) rl -> ~ unlucky (unit_bag (steps c)) (combine rl wl) g2 -> turned_down o addr k vk vops s' verify) /\
    (~ avoid -> refused addr k s').
Proof.
  intros dbg a b rx l sl l' sl' rl rsl B1 B2 B3 H1 H3 n Hn Hb Hb' Hf. destruct (len _ _ _ B1) as [L1 L2], (len _ _ _ B2) as [L3 L4].
  destruct (bag_disjoint_at Hp H2 o ck k Hpp D w0 a b rx l sl l' sl' rl rsl d dbg G0 (has _ _ _ B1) (has _ _ _ B2) (has _ _ _ B3) Hn H1 H3) as [vals [V1 [V2 [V3 [w1 [g [g1 [g2 [h [h' [wl [HW R]]]]]]]]]]]]. fold n in V3, HW, R.
  assert (Lc : length (merged n vals) = 2 ^ n) by (unfold merged; rewrite app_length, repeat_length; lia). assert (Lcs : length (merged_sel n vals) = 2 ^ n) by (unfold merged_sel; rewrite app_length, !repeat_length; lia).
  assert (Lm : forall l sl, length (merged_count n vals l sl) = 2 ^ n) by (intros; unfold merged_count; rewrite app_length, map_length, repeat_length; lia). pose proof (pow_ne _ _ Lc) as Hne.
  assert (Ln : 2 ^ b_nv a <= 2 ^ n /\ 2 ^ b_nv b <= 2 ^ n) by (split; apply Nat.pow_le_mono_r; lia).
  destruct (judge _ _ _ _ _ (at_ran _ _ _ _ _ _ _ _ _ _ _ R)) as [s' [A1 [A2 [A3 [_ [A5 A6]]]]]]. destruct (range_sense H2 _ rl wl Hne HW) as [W1 W2].
  exists s', g, g1, g2, h, h', vals, wl. split; [exact A1|]. split; [exact A2|]. split; [exact V1|]. split; [exact V2|]. split; [exact V3|]. cbv zeta. split; [exact W1|]. split; [exact W2|].
  pose proof (merged_same H2 n vals l sl V1 ltac:(lia) Hb ltac:(intros x Hx; apply V2; auto)) as M1. pose proof (merged_same H2 n vals l' sl' V1 ltac:(lia) Hb' ltac:(intros x Hx; apply V2; auto)) as M2. pose proof (merged_strict H2 n vals V1) as Hs.
  rewrite (sort_sense H2 n _ _ _ _ _ _ Lc Lcs), !(clear_in Hp), (products_apart H2 n vals l sl l' sl' ltac:(lia) ltac:(lia) V2) in A3, A5, A6.
  assert (X1 : In h (l ++ merged n vals) <-> In h l \/ In h (merged n vals)) by apply in_app_iff. assert (X2 : In h' (l' ++ merged n vals) <-> In h' l' \/ In h' (merged n vals)) by apply in_app_iff.
  split; [|split; [|split]].
  - intros [Ha [Ha1 Ha2]] Hdj Hi. pose proof Ha1 as Ha1'. pose proof Ha2 as Ha2'. rewrite X1 in Ha1'. rewrite X2 in Ha2'. apply A3; [split; [split; [exact Ha|exact Hs]|]; split; [exact Hdj|]; tauto|].
    rewrite (proj1 (sort_verdict H2 n (merged n vals) rl wl g g1 g2 Hne HW ltac:(lia) Ha) Hi). rewrite (proj1 (incl_fits_verdict l sl (merged n vals) (merged_sel n vals) (merged_count n vals l sl) h ltac:(lia) ltac:(lia) ltac:(rewrite Lm; lia) Ha1) M1).
    rewrite (proj1 (incl_fits_verdict l' sl' (merged n vals) (merged_sel n vals) (merged_count n vals l' sl') h' ltac:(lia) ltac:(lia) ltac:(rewrite Lm; lia) Ha2) M2). reflexivity.
  - intros Hna. apply A5. intros [_ [Hdj _]]. exact (Hna Hdj).
  - intros Hni Hu. apply A6. intros [[[Ha _] _] Hfit]. apply Hni. apply andb_prop in Hfit. destruct Hfit as [Hfit _]. exact (proj2 (sort_verdict H2 n (merged n vals) rl wl g g1 g2 Hne HW ltac:(lia) Ha) Hfit Hu).
  - intros Hna. apply A5. rewrite X1, X2 in Hna. tauto.
Qed.
Lemma set_disjoint_check : forall dbg a b rx l sl l' sl' rl rsl, bag_stands ops hs a l sl -> bag_stands ops hs b l' sl' -> bag_stands ops hs rx rl rsl -> 1 <= d -> 2 * d + 3 <= D ->
  let n := Nat.max (b_nv a) (b_nv b) + 1 in n <= k -> boolean sl -> boolean sl' -> 2 ^ n < fsize p ->
  exists s' h g g1 g2 c cs wl, set_disjoint_prove o dbg s a b rx = Ok s' /\ drawn (pt_tr s) (pt_tr s') = [h; g; g1; g2] /\
    length c = 2 ^ n /\ non_decreasing c /\ Permutation (rows c cs) (rows l sl ++ rows l' sl') /\ length wl = length rl /\ counts_of (steps c) rl (combine rl wl) /\
    let verify debug v := set_disjoint_verify o debug v (comm_of a) (comm_of b) (comm_of rx) in
    let avoid := ~ In h (l ++ l' ++ c) /\ sort_avoids n c rl g g1 g2 in
    let apart := NoDup (rows l sl ++ rows l' sl') in
    (avoid -> apart -> incl (steps c) rl -> accepted o addr vk vops s' verify) /\
    (~ apart -> refused addr k s') /\
    (~ incl (steps c) rl -> ~ unlucky (unit_bag (steps c)) (combine rl wl) g2 -> turned_down o addr k vk vops s' verify) /\
    (~ avoid -> refused addr k s').
Proof.
  intros dbg a b rx l sl l' sl' rl rsl B1 B2 B3 H1 H3 n Hn Hb Hb' Hf. destruct (len _ _ _ B1) as [L1 L2], (len _ _ _ B2) as [L3 L4].
  destruct (set_disjoint_at Hp H2 o ck k Hpp D w0 a b rx l sl l' sl' rl rsl d dbg G0 (has _ _ _ B1) (has _ _ _ B2) (has _ _ _ B3) Hb Hb' Hn H1 H3) as [c [cs [V1 [V2 [V3 [V4 [V5 [V6 [w1 [h [g [g1 [g2 [wl [HW R]]]]]]]]]]]]]]]. fold n in V1, V2, V5, V6, R.
  assert (Ln : length l + length l' <= 2 ^ n) by (unfold n; rewrite L1, L3, Nat.pow_add_r; cbn [Nat.pow]; pose proof (Nat.pow_le_mono_r 2 (b_nv a) (Nat.max (b_nv a) (b_nv b)) ltac:(lia) ltac:(lia)); pose proof (Nat.pow_le_mono_r 2 (b_nv b) (Nat.max (b_nv a) (b_nv b)) ltac:(lia) ltac:(lia)); lia).
  assert (Hnd : non_decreasing c) by (intros i j Hij Hj; apply V5; [exact Hij|lia]). assert (Hst : NoDup (rows l sl ++ rows l' sl') -> strict c cs) by (intros Hq i Hi; apply V6; [exact Hq|lia]).
  destruct (apart_core H2 n l sl l' sl' c cs rl wl h g g1 g2 ltac:(lia) ltac:(lia) Hb Hb' ltac:(lia) Hf V1 V2 V3 V4 Hnd Hst HW) as [C1 [C2 C3]].
  destruct (judge _ _ _ _ _ (at_ran _ _ _ _ _ _ _ _ _ _ _ R)) as [s' [A1 [A2 [A3 [_ [A5 A6]]]]]]. destruct (range_sense H2 _ rl wl (pow_ne _ _ V1) HW) as [W1 W2].
  exists s', h, g, g1, g2, c, cs, wl. split; [exact A1|]. split; [exact A2|]. split; [exact V1|]. split; [exact Hnd|]. split; [exact V4|]. split; [exact W1|]. split; [exact W2|]. cbv zeta. split; [|split; [|split]].
  - intros Ha Hdj Hi. destruct (C1 Ha Hdj Hi) as [X1 X2]. exact (A3 X1 X2).
  - intros Hq. apply A5. intros X. apply Hq. apply C3. exact X.
  - intros Hq Hu. apply A6. intros [X1 X2]. apply Hq. exact (C2 X1 X2 Hu).
  - intros Hq. apply A5. intros X. apply Hq. apply C3. exact X.
Qed.
Lemma set_union_check : forall dbg a b un rx l sl l' sl' ul usl rl rsl, bag_stands ops hs a l sl -> bag_stands ops hs b l' sl' -> bag_stands ops hs un ul usl -> bag_stands ops hs rx rl rsl -> 1 <= d -> 2 * d + 3 <= D ->
  let n := Nat.max (b_nv a) (b_nv b) + 1 in n <= k -> boolean sl -> boolean sl' -> boolean usl -> 2 ^ n < fsize p -> length ul < fsize p -> small_range rl (b_nv un) ->
  exists s' h0 h g g1 g2 c cs ml wl, set_union_prove o dbg s a b un rx = Ok s' /\ drawn (pt_tr s) (pt_tr s') = [h0; h; g; g1; g2] /\
    rows c cs = rows l sl ++ rows l' sl' /\ length ml = length ul /\ counts_of (rows c cs) (rows ul usl) (wcol ul usl ml) /\ length wl = length rl /\ counts_of (steps ul) rl (combine rl wl) /\
    let verify debug v := set_union_verify o debug v (comm_of a) (comm_of b) (comm_of un) (comm_of rx) in
    let avoid := ~ In h0 (l ++ l' ++ c) /\ ~ In h (c ++ ul) /\ sort_avoids (b_nv un) ul rl g g1 g2 in
    let right := sorted_by rl ul usl /\ forall x, In x (rows ul usl) <-> In x (rows l sl) \/ In x (rows l' sl') in
    (avoid -> right -> accepted o addr vk vops s' verify) /\
    (~ right -> ~ unlucky (combine c cs) (wcol ul usl ml) h -> ~ unlucky (unit_bag (steps ul)) (combine rl wl) g2 -> turned_down o addr k vk vops s' verify) /\
    (~ avoid -> refused addr k s').
Proof.
  intros dbg a b un rx l sl l' sl' ul usl rl rsl B1 B2 B4 B3 H1 H3 n Hn Hb Hb' Hbu Hf Hlu Hr. destruct (len _ _ _ B1) as [L1 L2], (len _ _ _ B2) as [L3 L4], (len _ _ _ B4) as [L5 L6].
  destruct (set_union_at Hp H2 o ck k Hpp D w0 a b un rx l sl l' sl' ul usl rl rsl d dbg G0 (has _ _ _ B1) (has _ _ _ B2) (has _ _ _ B4) (has _ _ _ B3) Hbu Hn H1 H3) as [c [cs [V1 [V2 [V3 [V4 [w1 [h0 [h [g [g1 [g2 [ml [wl [HW [HW' R]]]]]]]]]]]]]]]]. fold n in V1, V2. specialize (V4 Hb Hb').
  assert (Ln : length l + length l' <= 2 ^ n) by (unfold n; rewrite L1, L3, Nat.pow_add_r; cbn [Nat.pow]; pose proof (Nat.pow_le_mono_r 2 (b_nv a) (Nat.max (b_nv a) (b_nv b)) ltac:(lia) ltac:(lia)); pose proof (Nat.pow_le_mono_r 2 (b_nv b) (Nat.max (b_nv a) (b_nv b)) ltac:(lia) ltac:(lia)); lia).
  destruct (supp_core H2 (b_nv un) c cs ul usl rl ml wl h g g1 g2 ltac:(lia) L5 L6 V4 Hbu ltac:(lia) Hlu Hr HW HW') as [C1 [C2 C3]]. pose proof HW as [W3 W4].
  destruct (judge _ _ _ _ _ (at_ran _ _ _ _ _ _ _ _ _ _ _ R)) as [s' [A1 [A2 [A3 [_ [A5 A6]]]]]]. destruct (range_sense H2 _ rl wl (pow_ne _ _ L5) HW') as [W1 W2].
  exists s', h0, h, g, g1, g2, c, cs, ml, wl. split; [exact A1|]. split; [exact A2|]. split; [exact V3|]. split; [exact W3|]. split; [exact W4|]. split; [exact W1|]. split; [exact W2|]. cbv zeta.
  assert (Hx : forall x, In x (rows c cs) <-> In x (rows l sl) \/ In x (rows l' sl')) by (intros x; rewrite V3; apply in_app_iff).
  assert (Hc : (clear h0 l /\ clear h0 l' /\ clear h0 c) <-> ~ In h0 (l ++ l' ++ c)) by (rewrite !(clear_in Hp), !in_app_iff; tauto). rewrite Hc in A3, A5, A6.
  split; [|split].
  - intros [Ha0 Ha] [Hr1 Hr2]. destruct (C1 Ha) as [X1 X2]; [split; [exact Hr1|]; intros x; rewrite Hx; apply Hr2|]. apply A3; [split; [exact Ha0|exact X1]|]. rewrite X2, andb_true_r.
    apply (sum_fits_verdict H2 l sl l' sl' c cs h0); try assumption; try lia. rewrite V3. apply Permutation_refl.
  - intros Hq Hu1 Hu2. apply A6. intros [[_ X1] X2]. apply andb_prop in X2. destruct X2 as [_ X2]. destruct (C2 X1 X2 Hu1 Hu2) as [Y1 Y2]. apply Hq. split; [exact Y1|]. intros x. rewrite <- Hx. apply Y2.
  - intros Hq. apply A5. intros [X0 X]. apply Hq. split; [exact X0|apply C3; exact X].
Qed.
Lemma set_diff_check : forall dbg a b lb mb bm rx al asl bl bsl ll lsl ml msl bml rl rsl, bag_stands ops hs a al asl -> bag_stands ops hs b bl bsl -> bag_stands ops hs lb ll lsl -> bag_stands ops hs mb ml msl -> stands ops hs bm bml -> b_nv b = tp_nv bm ->
  bag_stands ops hs rx rl rsl -> 1 <= d -> 2 * d + 3 <= D -> let n := Nat.max (b_nv lb) (b_nv b) + 1 in n <= k -> boolean asl -> boolean bsl -> boolean lsl -> boolean msl -> 2 ^ n < fsize p -> length ll + length ml < fsize p -> length al < fsize p ->
  exists s' h g g1 g2 h1 h2 c cs wl, set_diff_prove o dbg s a b lb mb bm rx = Ok s' /\ drawn (pt_tr s) (pt_tr s') = [h; g; g1; g2; h1; h2] /\
    length c = 2 ^ n /\ non_decreasing c /\ Permutation (rows c cs) (rows ll lsl ++ rows bl bsl) /\ length wl = length rl /\ counts_of (steps c) rl (combine rl wl) /\
    let verify debug v := set_diff_verify o debug v (comm_of a) (comm_of b) (comm_of lb) (comm_of mb) (tp_id bm) (comm_of rx) in
    let avoid := (~ In h (ll ++ bl ++ c) /\ sort_avoids n c rl g g1 g2) /\ ~ In h1 (ll ++ ml ++ al) /\ ~ In h2 (ml ++ bl) in
    let apart := NoDup (rows ll lsl ++ rows bl bsl) in
    let parts := Permutation (rows ll lsl ++ rows ml msl) (rows al asl) /\ same_bag (combine ml msl) (wcol bl bsl bml) in
    (avoid -> apart -> parts -> incl (steps c) rl -> accepted o addr vk vops s' verify) /\
    (~ apart -> refused addr k s') /\
    (~ (parts /\ incl (steps c) rl) -> ~ unlucky (combine ll lsl ++ combine ml msl) (combine al asl) h1 -> ~ unlucky (combine ml msl) (wcol bl bsl bml) h2 -> ~ unlucky (unit_bag (steps c)) (combine rl wl) g2 -> turned_down o addr k vk vops s' verify) /\
    (~ avoid -> refused addr k s').
Proof.
  intros dbg a b lb mb bm rx al asl bl bsl ll lsl ml msl bml rl rsl Ba Bb Bl Bm Bn Hbn Br H1 H3 n Hn Ha Hb Hl Hm Hf Hf1 Hf2. destruct (len _ _ _ Ba) as [L1 L2], (len _ _ _ Bb) as [L3 L4], (len _ _ _ Bl) as [L5 L6], (len _ _ _ Bm) as [L7 L8].
  pose proof (hasd_len o ck k D w0 _ _ _ G0 (stands_hasd o addr k ck vk ops vops s hs d D HS HD Hd _ _ Bn)) as L9. rewrite <- Hbn in L9.
  destruct (set_diff_at Hp H2 o ck k Hpp D w0 a b lb mb bm rx al asl bl bsl ll lsl ml msl bml rl rsl d dbg G0 (has _ _ _ Ba) (has _ _ _ Bb) (has _ _ _ Bl) (has _ _ _ Bm) (stands_hasd o addr k ck vk ops vops s hs d D HS HD Hd _ _ Bn) Hbn (has _ _ _ Br) Hl Hb Hn H1 H3)
    as [c [cs [V1 [V2 [V3 [V4 [V5 [V6 [w1 [h [g [g1 [g2 [h1 [h2 [wl [HW R]]]]]]]]]]]]]]]]]. fold n in V1, V2, V5, V6, R.
  assert (Ln : length ll + length bl <= 2 ^ n) by (unfold n; rewrite L5, L3, Nat.pow_add_r; cbn [Nat.pow]; pose proof (Nat.pow_le_mono_r 2 (b_nv lb) (Nat.max (b_nv lb) (b_nv b)) ltac:(lia) ltac:(lia)); pose proof (Nat.pow_le_mono_r 2 (b_nv b) (Nat.max (b_nv lb) (b_nv b)) ltac:(lia) ltac:(lia)); lia).
  assert (Hnd : non_decreasing c) by (intros i j Hij Hj; apply V5; [exact Hij|lia]). assert (Hst : NoDup (rows ll lsl ++ rows bl bsl) -> strict c cs) by (intros Hq i Hi; apply V6; [exact Hq|lia]).
  destruct (apart_core H2 n ll lsl bl bsl c cs rl wl h g g1 g2 ltac:(lia) ltac:(lia) Hl Hb ltac:(lia) Hf V1 V2 V3 V4 Hnd Hst HW) as [C1 [C2 C3]].
  destruct (judge _ _ _ _ _ (at_ran _ _ _ _ _ _ _ _ _ _ _ R)) as [s' [A1 [A2 [A3 [_ [A5 A6]]]]]]. destruct (range_sense H2 _ rl wl (pow_ne _ _ V1) HW) as [W1 W2].
  exists s', h, g, g1, g2, h1, h2, c, cs, wl. split; [exact A1|]. split; [exact A2|]. split; [exact V1|]. split; [exact Hnd|]. split; [exact V4|]. split; [exact W1|]. split; [exact W2|]. cbv zeta.
  assert (Hc1 : (clear h1 ll /\ clear h1 ml /\ clear h1 al) <-> ~ In h1 (ll ++ ml ++ al)) by (rewrite !(clear_in Hp), !in_app_iff; tauto). assert (Hc2 : (clear h2 ml /\ clear h2 bl) <-> ~ In h2 (ml ++ bl)) by (rewrite !(clear_in Hp), in_app_iff; tauto). rewrite Hc1, Hc2 in A3, A5, A6.
  assert (S1 : ~ In h1 (ll ++ ml ++ al) -> _) by (intros Q; exact (sum_fits_verdict H2 ll lsl ml msl al asl h1 ltac:(lia) ltac:(lia) ltac:(lia) Hl Hm Ha Hf1 Hf2 Q)). assert (S2 : ~ In h2 (ml ++ bl) -> _) by (intros Q; exact (incl_fits_verdict ml msl bl bsl bml h2 ltac:(lia) ltac:(lia) ltac:(lia) Q)).
  split; [|split; [|split]].
  - intros [Hav [Hav1 Hav2]] Hap [P1 P2] Hi. destruct (C1 Hav Hap Hi) as [X1 X2]. apply A3; [split; [exact X1|split; assumption]|]. rewrite X2, (proj1 (S1 Hav1) P1), (proj1 (S2 Hav2) P2). reflexivity.
  - intros Hq. apply A5. intros [X _]. apply Hq. apply C3. exact X.
  - intros Hq Hu1 Hu2 Hu. apply A6. intros [[X [Hav1 Hav2]] Hfit]. apply andb_prop in Hfit. destruct Hfit as [F1' F2']. apply andb_prop in F2'. destruct F2' as [F2' F3']. apply Hq. split; [split|]; [exact (proj2 (S1 Hav1) F2' Hu1)|exact (proj2 (S2 Hav2) F3' Hu2)|exact (C2 X F1' Hu)].
  - intros Hq. apply A5. intros [X Y]. apply Hq. split; [apply C3; exact X|exact Y].
Qed.
Lemma set_intersect_check : forall dbg a b lb mb rb rx al asl bl bsl ll lsl ml msl sl ssl rl rsl, bag_stands ops hs a al asl -> bag_stands ops hs b bl bsl -> bag_stands ops hs lb ll lsl -> bag_stands ops hs mb ml msl -> bag_stands ops hs rb sl ssl ->
  bag_stands ops hs rx rl rsl -> 1 <= d -> 2 * d + 3 <= D -> let n := Nat.max (b_nv lb) (b_nv rb) + 1 in n <= k -> boolean asl -> boolean bsl -> boolean lsl -> boolean msl -> boolean ssl -> 2 ^ n < fsize p ->
  length ll + length ml < fsize p -> length ml + length sl < fsize p -> length al < fsize p -> length bl < fsize p ->
  exists s' h1 h2 h g g1 g2 c cs wl, set_intersect_prove o dbg s a b lb mb rb rx = Ok s' /\ drawn (pt_tr s) (pt_tr s') = [h1; h2; h; g; g1; g2] /\
    length c = 2 ^ n /\ non_decreasing c /\ Permutation (rows c cs) (rows ll lsl ++ rows sl ssl) /\ length wl = length rl /\ counts_of (steps c) rl (combine rl wl) /\
    let verify debug v := set_intersect_verify o debug v (comm_of a) (comm_of b) (comm_of lb) (comm_of mb) (comm_of rb) (comm_of rx) in
    let avoid := ~ In h1 (ll ++ ml ++ al) /\ ~ In h2 (ml ++ sl ++ bl) /\ ~ In h (ll ++ sl ++ c) /\ sort_avoids n c rl g g1 g2 in
    let apart := NoDup (rows ll lsl ++ rows sl ssl) in
    let parts := Permutation (rows ll lsl ++ rows ml msl) (rows al asl) /\ Permutation (rows ml msl ++ rows sl ssl) (rows bl bsl) in
    (avoid -> apart -> parts -> incl (steps c) rl -> accepted o addr vk vops s' verify) /\
    (~ apart -> refused addr k s') /\
    (~ (parts /\ incl (steps c) rl) -> ~ unlucky (combine ll lsl ++ combine ml msl) (combine al asl) h1 -> ~ unlucky (combine ml msl ++ combine sl ssl) (combine bl bsl) h2 -> ~ unlucky (unit_bag (steps c)) (combine rl wl) g2 -> turned_down o addr k vk vops s' verify) /\
    (~ avoid -> refused addr k s').
Proof.
  intros dbg a b lb mb rb rx al asl bl bsl ll lsl ml msl sl ssl rl rsl Ba Bb Bl Bm Bs Br H1 H3 n Hn Ha Hb Hl Hm Hs Hf Hf1 Hf2 Hf3 Hf4. destruct (len _ _ _ Ba) as [L1 L2], (len _ _ _ Bb) as [L3 L4], (len _ _ _ Bl) as [L5 L6], (len _ _ _ Bm) as [L7 L8], (len _ _ _ Bs) as [L9 L10].
  destruct (set_intersect_at Hp H2 o ck k Hpp D w0 a b lb mb rb rx al asl bl bsl ll lsl ml msl sl ssl rl rsl d dbg G0 (has _ _ _ Ba) (has _ _ _ Bb) (has _ _ _ Bl) (has _ _ _ Bm) (has _ _ _ Bs) (has _ _ _ Br) Hl Hs Hn H1 H3)
    as [c [cs [V1 [V2 [V3 [V4 [V5 [V6 [w1 [h1 [h2 [h [g [g1 [g2 [wl [HW R]]]]]]]]]]]]]]]]]. fold n in V1, V2, V5, V6, R.
  assert (Ln : length ll + length sl <= 2 ^ n) by (unfold n; rewrite L5, L9, Nat.pow_add_r; cbn [Nat.pow]; pose proof (Nat.pow_le_mono_r 2 (b_nv lb) (Nat.max (b_nv lb) (b_nv rb)) ltac:(lia) ltac:(lia)); pose proof (Nat.pow_le_mono_r 2 (b_nv rb) (Nat.max (b_nv lb) (b_nv rb)) ltac:(lia) ltac:(lia)); lia).
  assert (Hnd : non_decreasing c) by (intros i j Hij Hj; apply V5; [exact Hij|lia]). assert (Hst : NoDup (rows ll lsl ++ rows sl ssl) -> strict c cs) by (intros Hq i Hi; apply V6; [exact Hq|lia]).
  destruct (apart_core H2 n ll lsl sl ssl c cs rl wl h g g1 g2 ltac:(lia) ltac:(lia) Hl Hs ltac:(lia) Hf V1 V2 V3 V4 Hnd Hst HW) as [C1 [C2 C3]].
  destruct (judge _ _ _ _ _ (at_ran _ _ _ _ _ _ _ _ _ _ _ R)) as [s' [A1 [A2 [A3 [_ [A5 A6]]]]]]. destruct (range_sense H2 _ rl wl (pow_ne _ _ V1) HW) as [W1 W2].
  exists s', h1, h2, h, g, g1, g2, c, cs, wl. split; [exact A1|]. split; [exact A2|]. split; [exact V1|]. split; [exact Hnd|]. split; [exact V4|]. split; [exact W1|]. split; [exact W2|]. cbv zeta.
  assert (Hc1 : (clear h1 ll /\ clear h1 ml /\ clear h1 al) <-> ~ In h1 (ll ++ ml ++ al)) by (rewrite !(clear_in Hp), !in_app_iff; tauto). assert (Hc2 : (clear h2 ml /\ clear h2 sl /\ clear h2 bl) <-> ~ In h2 (ml ++ sl ++ bl)) by (rewrite !(clear_in Hp), !in_app_iff; tauto). rewrite Hc1, Hc2 in A3, A5, A6.
  assert (S1 : ~ In h1 (ll ++ ml ++ al) -> _) by (intros Q; exact (sum_fits_verdict H2 ll lsl ml msl al asl h1 ltac:(lia) ltac:(lia) ltac:(lia) Hl Hm Ha Hf1 Hf3 Q)). assert (S2 : ~ In h2 (ml ++ sl ++ bl) -> _) by (intros Q; exact (sum_fits_verdict H2 ml msl sl ssl bl bsl h2 ltac:(lia) ltac:(lia) ltac:(lia) Hm Hs Hb Hf2 Hf4 Q)).
  split; [|split; [|split]].
  - intros [Hav1 [Hav2 Hav]] Hap [P1 P2] Hi. destruct (C1 Hav Hap Hi) as [X1 X2]. apply A3; [split; [exact Hav1|split; assumption]|]. rewrite X2, (proj1 (S1 Hav1) P1), (proj1 (S2 Hav2) P2). reflexivity.
  - intros Hq. apply A5. intros [_ [_ X]]. apply Hq. apply C3. exact X.
  - intros Hq Hu1 Hu2 Hu. apply A6. intros [[Hav1 [Hav2 X]] Hfit]. apply andb_prop in Hfit. destruct Hfit as [F1' F2']. apply andb_prop in F2'. destruct F2' as [F2' F3']. apply Hq. split; [split|]; [exact (proj2 (S1 Hav1) F1' Hu1)|exact (proj2 (S2 Hav2) F2' Hu2)|exact (C2 X F3' Hu)].
  - intros Hq. apply A5. intros [X0 [X1 X]]. apply Hq. split; [exact X0|]. split; [exact X1|]. apply C3. exact X.
Qed.
End S.
End M.
