(** Runs of the joins and of grouping after a history of tracker calls, from the prover's call to the verifier's verdict. *)
From Coq Require Import String List Arith Lia Bool ZArith Znumtheory Permutation Sorted.
Import ListNotations.
From Verif Require Import Res ResLemmas Fp FSum SpecMle SpecKzg SpecPoly PolyLemmas SpecSumcheck SpecBatch SpecTracker SpecIop SpecRel SpecJoin ModelMle MleLemmas MleProofs MleExtra ModelVp ModelTranscript ModelSumcheck
  Pairing ModelKzg ModelBatch ModelProver ModelVerifier ModelAdvice ModelIop ProverHist VerifierHist CompileHist IopHist IopRes TmapLemmas ProverProofs HistExtra LockProofs
  CompileMain CompileSound LogDeriv BagLemmas AdviceProofs AdviceProofs2 AdviceProofs5 IopWorld IopMain IopBasic IopMulti IopRuns IopSort IopVer IopSound IopSound2 SortSound IopCheck IopComp IopClaims CompSound CompSound2 CompSound3 CompClaims RelClaims IopComp2 IopComp3 IopComp4 CompCheck.
Local Open Scope string_scope.
Local Open Scope list_scope.
Local Open Scope nat_scope.

Section M.
Context {p : positive} {E : pairing p}.
Hypothesis HE : pairing_laws E.
Hypothesis Hp : prime (Zpos p).
Notation comm := (gcar (PG1 E)).
Implicit Types (w : wd (E:=E)) (v : vtrk E).
Add Ring Fq : (@F_ring p).


(** ** What the conditions and verdicts of the parts say *)
Section J.
Hypothesis H2 : 2 < fsize p.
Lemma pow_ne' : forall n (l : list (F p)), length l = 2 ^ n -> l <> []. Proof. intros n l H ->. cbn in H. pose proof (pow_pos n). lia. Qed.
Lemma dj_core : forall n (l sl l' sl' rl vals wl : list (F p)) g g1 g2 h h', length sl = length l -> length sl' = length l' -> boolean sl -> boolean sl' -> length l <= 2 ^ n -> length l' <= 2 ^ n -> 2 ^ n < fsize p ->
  dj_vals n vals l sl l' sl' rl wl -> let ds := [g; g1; g2; h; h'] in let apart := forall x, In x (rows l sl) -> ~ In x (rows l' sl') in
  disjoint_advised n l sl l' sl' rl vals wl /\
  (disjoint_avoids n l l' rl vals ds -> apart -> incl (steps (merged n vals)) rl -> dj_claims n vals l sl l' sl' rl g g1 g2 h h' /\ dj_fits n vals l sl l' sl' rl wl g2 h h' = true) /\
  (dj_claims n vals l sl l' sl' rl g g1 g2 h h' -> disjoint_avoids n l l' rl vals ds /\ apart) /\
  (dj_claims n vals l sl l' sl' rl g g1 g2 h h' -> dj_fits n vals l sl l' sl' rl wl g2 h h' = true -> ~ steps_unlucky n rl vals wl ds -> incl (steps (merged n vals)) rl).
Proof.
  intros n l sl l' sl' rl vals wl g g1 g2 h h' L1 L2 Hb Hb' Hl Hl' Hf [V1 [V2 [V3 HW]]] ds apart.
  assert (Lc : length (merged n vals) = 2 ^ n) by (unfold merged; rewrite app_length, repeat_length; lia). assert (Lcs : length (merged_sel n vals) = 2 ^ n) by (unfold merged_sel; rewrite app_length, !repeat_length; lia).
  assert (Lm : forall l sl, length (merged_count n vals l sl) = 2 ^ n) by (intros; unfold merged_count; rewrite app_length, map_length, repeat_length; lia). pose proof (pow_ne' _ _ Lc) as Hne.
  destruct (range_sense Hp H2 _ rl wl Hne HW) as [W1 W2].
  pose proof (merged_same Hp H2 n vals l sl V1 ltac:(lia) Hb ltac:(intros x Hx; apply V2; auto)) as M1. pose proof (merged_same Hp H2 n vals l' sl' V1 ltac:(lia) Hb' ltac:(intros x Hx; apply V2; auto)) as M2. pose proof (merged_strict H2 n vals V1) as Hs.
  unfold dj_claims. cbv zeta. rewrite (sort_sense Hp H2 n _ _ _ _ _ _ Lc Lcs), !(clear_in Hp), (products_apart Hp H2 n vals l sl l' sl' ltac:(lia) ltac:(lia) V2).
  assert (X1 : In h (l ++ merged n vals) <-> In h l \/ In h (merged n vals)) by apply in_app_iff. assert (X2 : In h' (l' ++ merged n vals) <-> In h' l' \/ In h' (merged n vals)) by apply in_app_iff.
  assert (XA : disjoint_avoids n l l' rl vals ds <-> sort_avoids n (merged n vals) rl g g1 g2 /\ ~ In h (l ++ merged n vals) /\ ~ In h' (l' ++ merged n vals)).
  { unfold disjoint_avoids. split; [intros [? [? [? [? [? [Q R]]]]]]; unfold ds in Q; injection Q as <- <- <- <- <-; exact R|intros R; exists g, g1, g2, h, h'; split; [reflexivity|exact R]]. }
  split; [split; [exact V1|]; split; [exact V2|]; split; [exact V3|]; split; [exact W1|exact W2]|]. rewrite XA. split; [|split].
  - intros [Ha [Ha1 Ha2]] Hdj Hi. split; [rewrite X1 in Ha1; rewrite X2 in Ha2; clear -Ha Ha1 Ha2 Hdj Hs; tauto|]. unfold dj_fits. cbv zeta.
    rewrite (proj1 (sort_verdict Hp H2 n (merged n vals) rl wl g g1 g2 Hne HW ltac:(lia) Ha) Hi). rewrite (proj1 (incl_fits_verdict l sl (merged n vals) (merged_sel n vals) (merged_count n vals l sl) h ltac:(lia) ltac:(lia) ltac:(rewrite Lm; lia) Ha1) M1).
    rewrite (proj1 (incl_fits_verdict l' sl' (merged n vals) (merged_sel n vals) (merged_count n vals l' sl') h' ltac:(lia) ltac:(lia) ltac:(rewrite Lm; lia) Ha2) M2). reflexivity.
  - rewrite X1, X2. clear. tauto.
  - intros [[Ha _] _] Hfit Hu. unfold dj_fits in Hfit. apply andb_prop in Hfit. destruct Hfit as [Hfit _]. exact (proj2 (sort_verdict Hp H2 n (merged n vals) rl wl g g1 g2 Hne HW ltac:(lia) Ha) Hfit Hu).
Qed.

(** Folded rows. *)
Lemma cancel_l : forall c x y : F p, c <> F0 -> (c * x)%F = (c * y)%F -> x = y.
Proof. intros c x y Hc H. assert (Q : (c * (x - y))%F = F0) by (replace (c * (x - y))%F with (c * x - c * y)%F by ring; rewrite H; ring). apply (Fmul_integral Hp) in Q. destruct Q as [Q|Q]; [contradiction|]. transitivity ((x - y) + y)%F; [ring|]. rewrite Q. ring. Qed.
Lemma powers_nz : forall (r : F p) n, r <> F0 -> Fprod (powers r n) <> F0.
Proof.
  intros r n Hr. unfold powers. assert (G : forall m, Fprod (map (fun i => Fpow r i) (seq m n)) <> F0); [|apply G]. induction n as [|n IH]; intros m; cbn [seq map]; [rewrite Fprod_nil; apply (F1_neq_0 Hp)|]. rewrite Fprod_cons. intros Q.
  apply (Fmul_integral Hp) in Q. destruct Q as [Q|Q]; [|exact (IH (S m) Q)]. revert Q. clear -Hr Hp. induction m as [|m IH]; cbn [Fpow]; [apply (F1_neq_0 Hp)|]. intros Q. apply (Fmul_integral Hp) in Q. tauto.
Qed.
Lemma folded_row : forall r n (cols : list (list (F p))) sl k, length cols = n -> boolean sl -> k < length sl -> nth k sl F0 <> F0 -> nth k (aggregated (powers r n) cols sl) F0 = (Fprod (powers r n) * Fprod (row cols k))%F.
Proof.
  intros r n cols sl k L Hb Hk Hs. unfold aggregated. rewrite (nth_map_seq (fun k => (nth k sl F0 * Fprod (map (fun rx => (fst rx * snd rx)%F) (combine (powers r n) (row cols k))))%F)) by exact Hk.
  rewrite prod_split' by (unfold row; rewrite map_length, powers_len; lia). assert (Hone : nth k sl F0 = F1) by (unfold boolean in Hb; rewrite Forall_forall in Hb; destruct (Hb (nth k sl F0)) as [Q|Q]; [apply nth_In; exact Hk|contradiction|exact Q]). rewrite Hone. ring.
Qed.
Lemma agg_len : forall rs (cols : list (list (F p))) sl, length (aggregated rs cols sl) = length sl. Proof. intros. unfold aggregated. rewrite map_length, seq_length. reflexivity. Qed.
Lemma folded_incl : forall r n (oc : list (list (F p))) osl ic isl, length oc = n -> length ic = n -> boolean osl -> boolean isl ->
  (same_products oc osl ic isl -> incl (rows (aggregated (powers r n) oc osl) osl) (rows (aggregated (powers r n) ic isl) isl)) /\
  (r <> F0 -> incl (rows (aggregated (powers r n) oc osl) osl) (rows (aggregated (powers r n) ic isl) isl) -> same_products oc osl ic isl).
Proof.
  intros r n oc osl ic isl Lo Li Bo Bi. split.
  - intros H x Hx. apply rows_In in Hx; [|rewrite agg_len; reflexivity]. destruct Hx as [j [J1 [J2 J3]]]. rewrite agg_len in J1. destruct (H j J1 J3) as [k [K1 [K2 K3]]]. apply rows_In; [rewrite agg_len; reflexivity|]. exists k. rewrite agg_len. split; [exact K1|]. split; [|exact K2].
    rewrite <- J2, !folded_row by assumption. rewrite K3. reflexivity.
  - intros Hr H j J1 J2. assert (X : In (nth j (aggregated (powers r n) oc osl) F0) (rows (aggregated (powers r n) oc osl) osl)) by (apply rows_In; [rewrite agg_len; reflexivity|]; exists j; rewrite agg_len; auto).
    apply H in X. apply rows_In in X; [|rewrite agg_len; reflexivity]. destruct X as [k [K1 [K2 K3]]]. rewrite agg_len in K1. exists k. split; [exact K1|]. split; [exact K3|]. rewrite !folded_row in K2 by assumption.
    apply cancel_l in K2; [symmetry; exact K2|apply powers_nz; exact Hr].
Qed.

(** Marks of a join. *)
Lemma marks_parts : forall al asl lsl bl bsl rsl : list (F p), length asl = length al -> length lsl = length al -> length bsl = length bl -> length rsl = length bl -> marks al asl lsl bl bsl -> marks bl bsl rsl al asl ->
  (forall x, In x (rows al (both asl lsl)) -> ~ In x (rows bl (both bsl rsl))) /\ (forall x, In x (rows al (both asl lsl)) -> ~ In x (rows al (both asl (opposite lsl)))) /\ incl (rows al (both asl (opposite lsl))) (rows bl (both bsl (opposite rsl))).
Proof.
  intros al asl lsl bl bsl rsl La Ll Lb Lr Ma Mb. pose proof (F1_neq_0 Hp) as N1.
  assert (U : forall (al asl lsl bl bsl : list (F p)) x, length asl = length al -> length lsl = length al -> marks al asl lsl bl bsl -> In x (rows al (both asl lsl)) -> In x (rows al asl) /\ ~ In x (rows bl bsl)).
  { clear -N1. intros al asl lsl bl bsl x La Ll M Hx. apply rows_In in Hx; [|rewrite both_len; lia]. destruct Hx as [k [K1 [K2 K3]]]. rewrite both_nth in K3 by lia. assert (Hs : nth k asl F0 <> F0) by (intros Q; apply K3; rewrite Q; ring).
    destruct (M k K1 Hs) as [[Q1 Q2]|[Q1 _]]; [|exfalso; apply K3; rewrite Q1; ring]. rewrite K2 in Q2. split; [|exact Q2]. apply rows_In; [lia|]. exists k. auto. }
  assert (V : forall (al asl lsl bl bsl : list (F p)) x, length asl = length al -> length lsl = length al -> marks al asl lsl bl bsl -> In x (rows al (both asl (opposite lsl))) -> In x (rows al asl) /\ In x (rows bl bsl)).
  { clear -N1. intros al asl lsl bl bsl x La Ll M Hx. apply rows_In in Hx; [|rewrite both_len; rewrite ?opp_len; lia]. destruct Hx as [k [K1 [K2 K3]]]. rewrite both_nth, opp_nth in K3 by (rewrite ?opp_len; lia). assert (Hs : nth k asl F0 <> F0) by (intros Q; apply K3; rewrite Q; ring).
    destruct (M k K1 Hs) as [[Q1 _]|[Q1 Q2]]; [exfalso; apply K3; rewrite Q1; ring|]. rewrite K2 in Q2. split; [|exact Q2]. apply rows_In; [lia|]. exists k. auto. }
  split; [|split].
  - intros x X Y. apply (U al asl lsl bl bsl x La Ll Ma) in X. apply (U bl bsl rsl al asl x Lb Lr Mb) in Y. tauto.
  - intros x X Y. apply (U al asl lsl bl bsl x La Ll Ma) in X. apply (V al asl lsl bl bsl x La Ll Ma) in Y. tauto.
  - intros x X. apply (V al asl lsl bl bsl x La Ll Ma) in X. destruct X as [X1 X2]. apply rows_In in X2; [|lia]. destruct X2 as [k [K1 [K2 K3]]]. destruct (Mb k K1 K3) as [[_ Q]|[Q _]]; [exfalso; apply Q; rewrite K2; exact X1|].
    apply rows_In; [rewrite both_len; rewrite ?opp_len; lia|]. exists k. split; [exact K1|]. split; [exact K2|]. rewrite both_nth, opp_nth, Q by (rewrite ?opp_len; lia). replace (nth k bsl F0 * (F1 - F0))%F with (nth k bsl F0) by ring. exact K3.
Qed.

(** Totals of groups. *)
Lemma group_same : forall (sup sl' al : list (F p)) (w : wbag (p:=p)), length sl' = length sup -> length al = length sup -> boolean sl' -> NoDup (rows sup sl') -> (forall x, ~ In x (rows sup sl') -> weight w x = F0) ->
  (same_bag w (wcol sup sl' al) <-> forall k, k < length sup -> nth k sl' F0 <> F0 -> nth k al F0 = weight w (nth k sup F0)).
Proof.
  intros sup sl' al w L1 L2 Hb Hn Hz. assert (Hone : forall k, k < length sup -> nth k sl' F0 <> F0 -> nth k sl' F0 = F1) by (intros k Hk Hs; unfold boolean in Hb; rewrite Forall_forall in Hb; destruct (Hb (nth k sl' F0)) as [Q|Q]; [apply nth_In; lia|contradiction|exact Q]).
  split.
  - intros H k Hk Hs. rewrite H, distinct_weight by auto. rewrite (Hone k Hk Hs). ring.
  - intros H x. destruct (in_dec F_dec x (rows sup sl')) as [Q|Q].
    + apply rows_In in Q; [|lia]. destruct Q as [k [K1 [K2 K3]]]. rewrite <- K2, distinct_weight, (Hone k K1 K3), (H k K1 K3) by auto. ring.
    + rewrite (Hz x Q). destruct (F_dec (weight (wcol sup sl' al) x) F0) as [Z|Z]; [symmetry; exact Z|]. exfalso. apply Q. eapply weight_in; [| |exact Z]; lia.
Qed.
Lemma sums_core : forall (keys sl sup sl' : list (F p)) qs hs, length sl = length keys -> length sl' = length sup -> boolean sl' -> NoDup (rows sup sl') -> (forall x, In x (rows keys sl) -> In x (rows sup sl')) ->
  Forall (fun q => length (fst q) = length keys /\ length (snd q) = length sup) qs -> length hs = length qs ->
  Forall (fun h => ~ In h (keys ++ sup)) hs -> let total q := forall k, k < length sup -> nth k sl' F0 <> F0 -> nth k (snd q) F0 = weight (wcol keys sl (fst q)) (nth k sup F0) in
  (Forall total qs -> sums_fit keys sl sup sl' qs hs = true) /\ (sums_fit keys sl sup sl' qs hs = true -> Forall2 (fun q h => ~ unlucky (wcol keys sl (fst q)) (wcol sup sl' (snd q)) h) qs hs -> Forall total qs).
Proof.
  intros keys sl sup sl' qs. induction qs as [|q qs IH]; intros hs L1 L2 Hb Hn Hs Hq Hl Ha; cbv zeta; [split; intros; [reflexivity|constructor]|]. destruct hs as [|h hs]; [discriminate|].
  inversion Hq as [|? ? [Q1 Q2] Q3]; subst. inversion Ha as [|? ? A1 A2]; subst. cbn in Hl. injection Hl as Hl. destruct (IH hs L1 L2 Hb Hn Hs Q3 Hl A2) as [I1 I2]. rewrite in_app_iff in A1.
  destruct (fits_verdict (wcol keys sl (fst q)) (wcol sup sl' (snd q)) h) as [V1 V2]; [rewrite wcol_fst by lia; tauto|rewrite wcol_fst by lia; tauto|].
  assert (G : same_bag (wcol keys sl (fst q)) (wcol sup sl' (snd q)) <-> forall k, k < length sup -> nth k sl' F0 <> F0 -> nth k (snd q) F0 = weight (wcol keys sl (fst q)) (nth k sup F0)).
  { apply group_same; auto. intros x Hx. destruct (F_dec (weight (wcol keys sl (fst q)) x) F0) as [Z|Z]; [exact Z|]. exfalso. apply Hx, Hs. eapply weight_in; [| |exact Z]; lia. }
  cbn [sums_fit]. split.
  - intros H. inversion H; subst. unfold sum_fits1. rewrite (V1 (proj2 G ltac:(assumption))). apply I1. assumption.
  - intros H H3. apply andb_prop in H. destruct H as [H4 H5]. inversion H3; subst. constructor; [apply G; apply V2; assumption|apply I2; assumption].
Qed.
Lemma group_core : forall n (keys sl sup sl' rl ml wl : list (F p)) qs h g g1 g2 hs, length keys = 2 ^ n -> length sl = 2 ^ n -> length sup = 2 ^ n -> length sl' = 2 ^ n -> length ml = 2 ^ n -> boolean sl -> boolean sl' -> 2 ^ n < fsize p -> small_range rl n ->
  range_weights sup rl wl -> Forall (fun q => length (fst q) = 2 ^ n /\ length (snd q) = 2 ^ n) qs -> length hs = length qs ->
  let claims := ((clear h keys /\ clear h sup) /\ lz (nz_claim ml sl') /\ sort_claims n sup sl' rl g g1 g2) /\ Forall (fun h => clear h keys /\ clear h sup) hs in
  let fits := (incl_fits keys sl sup sl' ml h && sort_fits sup rl wl g2) && sums_fit keys sl sup sl' qs hs in
  let avoid := ~ In h (keys ++ sup) /\ sort_avoids n sup rl g g1 g2 /\ Forall (fun h => ~ In h (keys ++ sup)) hs in
  let right := sorted_by rl sup sl' /\ NoDup (rows sup sl') /\ (forall x, In x (rows sup sl') <-> In x (rows keys sl)) /\
    (forall k, k < length sup -> nth k sl' F0 <> F0 -> nth k ml F0 = ofN (count_occ F_dec (rows keys sl) (nth k sup F0))) /\
    Forall (fun q => forall k, k < length sup -> nth k sl' F0 <> F0 -> nth k (snd q) F0 = weight (wcol keys sl (fst q)) (nth k sup F0)) qs in
  (avoid -> right -> claims /\ fits = true) /\
  (claims -> fits = true -> ~ unlucky (combine keys sl) (wcol sup sl' ml) h -> ~ unlucky (unit_bag (steps sup)) (combine rl wl) g2 -> Forall2 (fun q h => ~ unlucky (wcol keys sl (fst q)) (wcol sup sl' (snd q)) h) qs hs -> right) /\
  (claims -> avoid).
Proof.
  intros n keys sl sup sl' rl ml wl qs h g g1 g2 hs L1 L2 L3 L4 L5 Hb Hb' Hf Hr HW Hq Hl. pose proof (pow_ne' n sup L3) as Hne. cbv zeta.
  assert (Hq' : Forall (fun q => length (fst q) = length keys /\ length (snd q) = length sup) qs) by (rewrite L1, L3; exact Hq).
  assert (Hcl : forall h, clear h keys /\ clear h sup <-> ~ In h (keys ++ sup)) by (intros h0; rewrite !(clear_in Hp), in_app_iff; tauto).
  assert (Hcs : Forall (fun h => clear h keys /\ clear h sup) hs <-> Forall (fun h => ~ In h (keys ++ sup)) hs) by (rewrite !Forall_forall; setoid_rewrite Hcl; reflexivity).
  rewrite (sort_sense Hp H2 _ _ _ _ _ _ _ L3 L4), Hcl, Hcs, (nz_claim_zero Hp) by lia.
  assert (Hnz : (forall k, k < length sup -> nth k sl' F0 <> F0 -> nth k ml F0 <> F0) <-> ~ In F0 (rows ml sl')).
  { split; [intros H Hz; apply rows_In in Hz; [|lia]; destruct Hz as [i [I1 [I2 I3]]]; exact (H i ltac:(lia) I3 I2)|intros H k Hk Hs Hz; apply H; apply rows_In; [lia|]; exists k; split; [lia|auto]]. }
  split; [|split].
  - intros [Ha [Ha' Ha'']] [Hs [Hn [Hx [Hc Ht]]]]. apply (sorted_split H2) in Hs. destruct Hs as [Hs1 Hs2].
    assert (Hz0 : forall x, ~ In x (rows sup sl') -> weight (combine keys sl) x = F0) by (intros x Q; rewrite (rows_count Hp) by (try assumption; lia); rewrite Hx in Q; rewrite (proj1 (count_occ_not_In F_dec _ _) Q); reflexivity).
    assert (Hc' : forall k, k < length sup -> nth k sl' F0 <> F0 -> nth k ml F0 = weight (combine keys sl) (nth k sup F0)) by (intros k Hk Hs; rewrite (rows_count Hp) by (try assumption; lia); apply Hc; assumption).
    assert (Hsb : same_bag (combine keys sl) (wcol sup sl' ml)) by (apply group_same; try assumption; lia).
    split; [split; [split; [exact Ha|]; split; [|split; [exact Ha'|exact Hs2]]|exact Ha'']|].
    + apply Hnz. intros k Hk Hs. rewrite (Hc' k Hk Hs). apply (rows_weight' Hp keys sl); [lia|assumption|lia|]. apply Hx. apply rows_In; [lia|]. exists k. auto.
    + apply andb_true_intro. split; [apply andb_true_intro; split|].
      * apply (incl_fits_verdict keys sl sup sl' ml h); try lia; [exact Ha|exact Hsb].
      * eapply (sort_verdict Hp H2 n sup rl wl g g1 g2); try eassumption. lia.
      * apply (sums_core keys sl sup sl' qs hs); try assumption; try lia. intros x Q. apply Hx. exact Q.
  - intros [[Hc [Hz [Ha Hs]]] Hcs'] Hft Hu1 Hu2 Hu3. apply andb_prop in Hft. destruct Hft as [Hft Hf3]. apply andb_prop in Hft. destruct Hft as [Hf1 Hf2].
    assert (Hst : sorted_by rl sup sl') by (apply (sorted_split H2); split; [|exact Hs]; exact (proj2 (sort_verdict Hp H2 n sup rl wl g g1 g2 Hne HW ltac:(lia) Ha) Hf2 Hu2)).
    pose proof (sorted_distinct _ _ _ _ L3 L4 Hr Hst) as Hn. pose proof (proj2 (incl_fits_verdict keys sl sup sl' ml h ltac:(lia) ltac:(lia) ltac:(lia) Hc) Hf1 Hu1) as Hsb.
    destruct (support_rows sup sl' ml (combine keys sl) ltac:(lia) ltac:(lia) Hb' Hn (proj2 Hnz Hz) Hsb) as [Y Y'].
    assert (Hx : forall x, In x (rows sup sl') <-> In x (rows keys sl)) by (intros x; rewrite Y, (rows_weight' Hp keys sl x) by (try assumption; lia); reflexivity).
    split; [exact Hst|]. split; [exact Hn|]. split; [exact Hx|]. split; [intros k Hk Hs'; rewrite (Y' k Hk Hs'); apply (rows_count Hp); [lia|assumption]|].
    apply (sums_core keys sl sup sl' qs hs); try assumption; try lia. intros x Q. apply Hx. exact Q.
  - tauto.
Qed.
Lemma gb_asked : forall (tcs : list (list (F p))) ags als, gb_sums tcs ags als = map (fun q => (nth (fst q) tcs [], snd q)) (sums_asked ags als).
Proof. intros tcs ags. induction ags as [|[[c a] t] ags IH]; intros [|al als]; try reflexivity; [destruct a; reflexivity|]. unfold sums_asked in *. destruct a; cbn; rewrite IH; reflexivity. Qed.
Lemma asked_in : forall P ags (als : list (list (F p))), Forall2 (fun (i : nat * agg * tpoly) al => P (fst (fst i)) al) ags als -> Forall (fun q => P (fst q) (snd q)) (sums_asked ags als).
Proof. intros P ags als H. induction H as [|[[c a] t] al ags als H1 H3 IH]; [constructor|]. unfold sums_asked in *. destruct a; cbn; try exact IH. constructor; [exact H1|exact IH]. Qed.
End J.

Section S.
Variables (o : oracle p comm) (addr : nat -> nat) (k : nat) (ck : pparam E) (vk : vparam E) (ops : list (pop p)) (vops : list (vop E)) (s : ptrk E) (hs : list tpoly) (d D : nat).
Hypothesis HS : setting o addr k ck vk ops vops s hs d D.
Hypothesis HD : 1 <= D.
Hypothesis Hd : d <= D.
Let w0 : wd := start ops s hs.
Let G0 : good o ck k D w0 := set_good o addr k ck vk ops vops s hs d D HS HD Hd.
Let Hpp := Hpp0 HE o addr k ck vk ops vops s hs d D HS.
Let H2 : 2 < fsize p := st_two _ _ _ _ _ _ _ _ _ _ _ HS.
Let judge := ran_judge HE Hp o addr k ck vk ops vops s hs d D HS HD Hd.
Let has := bag_hasb o addr k ck vk ops vops s hs d D HS HD Hd.
Let hasp := stands_hasd o addr k ck vk ops vops s hs d D HS HD Hd.
Let len := bag_len o addr k ck vk ops vops s hs d D HS HD Hd.
Lemma table_hast : forall t cols sl, table_stands ops hs t cols sl -> hast w0 t cols sl d.
Proof. intros t cols sl [A B]. split; [|apply hasp; exact B]. clear -A hasp. induction A as [|c l cs ls [A1 A2] A3 IH]; constructor; [split; [apply hasp; exact A1|exact A2]|exact IH]. Qed.
Lemma table_len : forall t cols sl, table_stands ops hs t cols sl -> Forall (fun l => length l = 2 ^ t_nv t) cols /\ length sl = 2 ^ t_nv t /\ length cols = length (t_cols t).
Proof. intros t cols sl H. exact (hast_len o ck k D _ _ _ _ _ G0 (table_hast _ _ _ H)). Qed.

Lemma index_check : forall dbg ti to ic isl oc osl, table_stands ops hs ti ic isl -> table_stands ops hs to oc osl -> boolean isl -> boolean osl -> length (t_cols to) = length (t_cols ti) ->
  1 <= d -> 2 * (d + length (t_cols ti) * d) + 1 <= D -> 2 ^ t_nv to < fsize p ->
  exists s' r h ml, index_transform_prove o dbg s ti to = Ok s' /\ drawn (pt_tr s) (pt_tr s') = [r; h] /\
    let rs := powers r (length (t_cols ti)) in let il := aggregated rs ic isl in let ol := aggregated rs oc osl in length ml = length il /\ counts_of (rows ol osl) (rows il isl) (wcol il isl ml) /\
    let verify debug v := index_transform_verify o debug v (tcomm_of ti) (tcomm_of to) in
    let avoid := ~ In h (ol ++ il) in
    let right := same_products oc osl ic isl in
    (avoid -> right -> accepted o addr vk vops s' verify) /\
    (r <> F0 -> ~ right -> ~ unlucky (combine ol osl) (wcol il isl ml) h -> turned_down o addr k vk vops s' verify) /\
    (~ avoid -> refused addr k s').
Proof.
  intros dbg ti to ic isl oc osl Ti To Bi Bo Hn H1 HD' Hf. destruct (table_len _ _ _ Ti) as [_ [Li Ni]], (table_len _ _ _ To) as [_ [Lo No]].
  destruct (index_transform_at Hp H2 o ck k Hpp D dbg w0 ti to ic isl oc osl d G0 (table_hast _ _ _ Ti) (table_hast _ _ _ To) Bi ltac:(lia) H1 HD') as [w1 [r [h [ml [HW R]]]]]. cbv zeta in HW, R.
  destruct (judge _ _ _ _ _ (at_ran _ _ _ _ _ _ _ _ _ _ _ R)) as [s' [A1 [A2 [A3 [_ [A5 A6]]]]]]. exists s', r, h, ml. split; [exact A1|]. split; [exact A2|]. cbv zeta. pose proof HW as [W3 W4]. split; [exact W3|]. split; [exact W4|].
  set (n := length (t_cols ti)) in *. pose proof (agg_len (powers r n) ic isl) as Lil. pose proof (agg_len (powers r n) oc osl) as Lol. destruct (folded_incl H2 r n oc osl ic isl ltac:(lia) ltac:(lia) Bo Bi) as [F1' F2'].
  set (il := aggregated (powers r n) ic isl) in *. set (ol := aggregated (powers r n) oc osl) in *. rewrite !(clear_in Hp) in A3, A5, A6.
  pose proof (incl_same Hp H2 ol osl il isl ml ltac:(lia) ltac:(lia) Bo ltac:(lia) HW) as X. assert (Hin : In h (ol ++ il) <-> In h ol \/ In h il) by apply in_app_iff.
  split; [|split].
  - intros Ha Hr. apply A3; [rewrite Hin in Ha; clear -Ha; tauto|]. apply (incl_fits_verdict ol osl il isl ml h); try lia; [exact Ha|]. apply X. apply F1'. exact Hr.
  - intros Hr Hn' Hu. apply A6. intros [Q1 Q2]. apply Hn'. apply F2'; [exact Hr|]. apply X. apply (incl_fits_verdict ol osl il isl ml h); try lia; try assumption. rewrite Hin. clear -Q1. tauto.
  - intros Hn'. apply A5. rewrite Hin in Hn'. clear -Hn'. tauto.
Qed.

Lemma reduction_check : forall dbg a b ls rs rx al asl bl bsl lsl rsl rl rrl, bag_stands ops hs a al asl -> bag_stands ops hs b bl bsl -> stands ops hs ls lsl -> tp_nv ls = b_nv a -> stands ops hs rs rsl -> tp_nv rs = b_nv b -> bag_stands ops hs rx rl rrl ->
  boolean asl -> boolean bsl -> boolean lsl -> boolean rsl -> let na := b_nv a in let nb := b_nv b in let n := Nat.max na nb + 1 in n <= k -> 1 <= d -> 4 * d + 3 <= D -> 2 ^ n < fsize p ->
  let al' := both asl lsl in let bl' := both bsl rsl in let am := both asl (opposite lsl) in let bm := both bsl (opposite rsl) in
  exists s' x1 u1 x2 u2 x3 u3 m4 m5 ds1 ds2 ds3 h4 h5, join_reduction_prove o dbg s a b ls rs rx = Ok s' /\ drawn (pt_tr s) (pt_tr s') = ds1 ++ ds2 ++ ds3 ++ [h4; h5] /\
    disjoint_advised n al al' bl bl' rl x1 u1 /\ disjoint_advised (na + 1) al al' al am rl x2 u2 /\ disjoint_advised (nb + 1) bl bl' bl bm rl x3 u3 /\
    length m4 = length bl /\ counts_of (rows al am) (rows bl bm) (wcol bl bm m4) /\ length m5 = length al /\ counts_of (rows bl bm) (rows al am) (wcol al am m5) /\
    let verify debug v := join_reduction_verify o debug v (comm_of a) (comm_of b) (tp_id ls) (tp_id rs) (comm_of rx) in
    let avoid := disjoint_avoids n al bl rl x1 ds1 /\ disjoint_avoids (na + 1) al al rl x2 ds2 /\ disjoint_avoids (nb + 1) bl bl rl x3 ds3 /\ ~ In h4 (al ++ bl) /\ ~ In h5 (al ++ bl) in
    let exact := marks al asl lsl bl bsl /\ marks bl bsl rsl al asl in
    let fit := incl (steps (merged n x1)) rl /\ incl (steps (merged (na + 1) x2)) rl /\ incl (steps (merged (nb + 1) x3)) rl in
    (avoid -> exact -> fit -> accepted o addr vk vops s' verify) /\
    (~ exact -> ~ unlucky (combine al am) (wcol bl bm m4) h4 -> ~ unlucky (combine bl bm) (wcol al am m5) h5 -> turned_down o addr k vk vops s' verify) /\
    (~ fit -> ~ steps_unlucky n rl x1 u1 ds1 -> ~ steps_unlucky (na + 1) rl x2 u2 ds2 -> ~ steps_unlucky (nb + 1) rl x3 u3 ds3 -> turned_down o addr k vk vops s' verify) /\
    (~ avoid -> refused addr k s').
Proof.
  intros dbg a b ls rs rx al asl bl bsl lsl rsl rl rrl Ta Tb Tl Nl Tr Nr Tx Ba Bb Bl Br na nb n Hn H1 HD' Hf al' bl' am bm.
  destruct (len _ _ _ Ta) as [La Las], (len _ _ _ Tb) as [Lb Lbs]. fold na in La, Las. fold nb in Lb, Lbs. pose proof (hasd_len o ck k D _ _ _ _ G0 (hasp _ _ Tl)) as Lls. pose proof (hasd_len o ck k D _ _ _ _ G0 (hasp _ _ Tr)) as Lrs. rewrite Nl in Lls. rewrite Nr in Lrs. fold na in Lls. fold nb in Lrs.
  destruct (join_reduction_at Hp H2 o ck k Hpp D w0 a b ls rs rx al asl bl bsl lsl rsl rl rrl d dbg G0 (has _ _ _ Ta) (has _ _ _ Tb) (hasp _ _ Tl) Nl (hasp _ _ Tr) Nr (has _ _ _ Tx) Ba Bb Bl Br Hn H1 HD')
    as [w1 [x1 [u1 [g1 [g11 [g12 [h1 [h1' [x2 [u2 [g2 [g21 [g22 [h2 [h2' [x3 [u3 [g3 [g31 [g32 [h3 [h3' [h4 [m4 [h5 [m5 [V1 [V2 [V3 [V4 [V5 R]]]]]]]]]]]]]]]]]]]]]]]]]]]]]]].
  fold na nb n al' bl' am bm in V1, V2, V3, V4, V5, R.
  assert (Pa : 2 ^ na <= 2 ^ (na + 1) /\ 2 ^ (na + 1) <= 2 ^ n) by (split; apply Nat.pow_le_mono_r; lia). assert (Pb : 2 ^ nb <= 2 ^ (nb + 1) /\ 2 ^ (nb + 1) <= 2 ^ n) by (split; apply Nat.pow_le_mono_r; lia).
  assert (Lal : length al' = length al) by (unfold al'; rewrite both_len; lia). assert (Lbl : length bl' = length bl) by (unfold bl'; rewrite both_len; lia).
  assert (Lam : length am = length al) by (unfold am; rewrite both_len; rewrite ?opp_len; lia). assert (Lbm : length bm = length bl) by (unfold bm; rewrite both_len; rewrite ?opp_len; lia).
  assert (Bal : boolean al') by (apply bool_both; [lia|assumption|assumption]). assert (Bbl : boolean bl') by (apply bool_both; [lia|assumption|assumption]).
  assert (Bam : boolean am) by (apply bool_both; [rewrite opp_len; lia|assumption|apply bool_opp; assumption]). assert (Bbm : boolean bm) by (apply bool_both; [rewrite opp_len; lia|assumption|apply bool_opp; assumption]).
  destruct (judge _ _ _ _ _ (at_ran _ _ _ _ _ _ _ _ _ _ _ R)) as [s' [A1 [A2 [A3 [_ [A5 A6]]]]]].
  destruct (dj_core H2 n al al' bl bl' rl x1 u1 g1 g11 g12 h1 h1' Lal Lbl Bal Bbl ltac:(lia) ltac:(lia) Hf V1) as [U1 [C1 [C1' C1'']]].
  destruct (dj_core H2 (na + 1) al al' al am rl x2 u2 g2 g21 g22 h2 h2' Lal Lam Bal Bam ltac:(lia) ltac:(lia) ltac:(lia) V2) as [U2 [C2 [C2' C2'']]].
  destruct (dj_core H2 (nb + 1) bl bl' bl bm rl x3 u3 g3 g31 g32 h3 h3' Lbl Lbm Bbl Bbm ltac:(lia) ltac:(lia) ltac:(lia) V3) as [U3 [C3 [C3' C3'']]].
  exists s', x1, u1, x2, u2, x3, u3, m4, m5, [g1; g11; g12; h1; h1'], [g2; g21; g22; h2; h2'], [g3; g31; g32; h3; h3'], h4, h5. split; [exact A1|]. split; [exact A2|]. split; [exact U1|]. split; [exact U2|]. split; [exact U3|].
  pose proof V4 as [W4 W4']. pose proof V5 as [W5 W5']. split; [exact W4|]. split; [exact W4'|]. split; [exact W5|]. split; [exact W5'|]. cbv zeta.
  pose proof (incl_same Hp H2 al am bl bm m4 ltac:(lia) ltac:(lia) Bam ltac:(lia) V4) as X4. pose proof (incl_same Hp H2 bl bm al am m5 ltac:(lia) ltac:(lia) Bbm ltac:(lia) V5) as X5.
  assert (I4 : In h4 (al ++ bl) <-> In h4 al \/ In h4 bl) by apply in_app_iff. assert (I5 : In h5 (bl ++ al) <-> In h5 bl \/ In h5 al) by apply in_app_iff. assert (I5' : In h5 (al ++ bl) <-> In h5 al \/ In h5 bl) by apply in_app_iff.
  rewrite !(clear_in Hp) in A3, A5, A6.
  split; [|split; [|split]].
  - intros [D1 [D2 [D3 [D4 D5]]]] [Ma Mb] [S1 [S2 S3]]. destruct (marks_parts H2 al asl lsl bl bsl rsl ltac:(lia) ltac:(lia) ltac:(lia) ltac:(lia) Ma Mb) as [Y1 [Y2 Y4]]. destruct (marks_parts H2 bl bsl rsl al asl lsl ltac:(lia) ltac:(lia) ltac:(lia) ltac:(lia) Mb Ma) as [_ [Y3 Y5]].
    destruct (C1 D1 Y1 S1) as [Z1 Z1']. destruct (C2 D2 Y2 S2) as [Z2 Z2']. destruct (C3 D3 Y3 S3) as [Z3 Z3']. apply A3; [split; [exact Z1|]; split; [exact Z2|]; split; [exact Z3|]; rewrite I4 in D4; rewrite I5' in D5; clear -D4 D5; tauto|].
    rewrite Z1', Z2', Z3'. cbn [andb]. rewrite (proj1 (incl_fits_verdict al am bl bm m4 h4 ltac:(lia) ltac:(lia) ltac:(lia) D4) (proj2 X4 Y4)). rewrite (proj1 (incl_fits_verdict bl bm al am m5 h5 ltac:(lia) ltac:(lia) ltac:(lia) ltac:(rewrite I5; rewrite I5' in D5; clear -D5; tauto)) (proj2 X5 Y5)). reflexivity.
  - intros He Hu4 Hu5. apply A6. intros [[Q1 [Q2 [Q3 [Q4 Q5]]]] Q]. apply He. apply andb_prop in Q. destruct Q as [_ Q]. apply andb_prop in Q. destruct Q as [_ Q]. apply andb_prop in Q. destruct Q as [_ Q]. apply andb_prop in Q. destruct Q as [Q6 Q7].
    pose proof (proj2 (C1' Q1)) as Y1. pose proof (proj2 (C2' Q2)) as Y2. pose proof (proj2 (C3' Q3)) as Y3.
    assert (Y4 : incl (rows al am) (rows bl bm)) by (apply X4; apply (incl_fits_verdict al am bl bm m4 h4); try lia; try assumption; rewrite I4; clear -Q4; tauto).
    assert (Y5 : incl (rows bl bm) (rows al am)) by (apply X5; apply (incl_fits_verdict bl bm al am m5 h5); try lia; try assumption; rewrite I5; clear -Q5; tauto).
    split; [apply (join_marks Hp H2 al asl lsl bl bsl rsl)|apply (join_marks Hp H2 bl bsl rsl al asl lsl)]; try lia; try assumption; intros x; first [exact (Y1 x)|exact (Y2 x)|exact (Y3 x)|intros X Y; exact (Y1 x Y X)].
  - intros Hf' Hu1 Hu2 Hu3. apply A6. intros [[Q1 [Q2 [Q3 _]]] Q]. apply Hf'. apply andb_prop in Q. destruct Q as [P1 Q]. apply andb_prop in Q. destruct Q as [P2 Q]. apply andb_prop in Q. destruct Q as [P3 _]. split; [exact (C1'' Q1 P1 Hu1)|]. split; [exact (C2'' Q2 P2 Hu2)|exact (C3'' Q3 P3 Hu3)].
  - intros Ha. apply A5. intros [Q1 [Q2 [Q3 [Q4 Q5]]]]. apply Ha. split; [exact (proj1 (C1' Q1))|]. split; [exact (proj1 (C2' Q2))|]. split; [exact (proj1 (C3' Q3))|]. rewrite I4, I5'. clear -Q4 Q5. tauto.
Qed.
(** Marks that are not boolean: the prover ends, and no check can be compiled. *)
Lemma reduction_marks : forall dbg a b ls rs rx al asl bl bsl lsl rsl rl rrl, bag_stands ops hs a al asl -> bag_stands ops hs b bl bsl -> stands ops hs ls lsl -> tp_nv ls = b_nv a -> stands ops hs rs rsl -> tp_nv rs = b_nv b -> bag_stands ops hs rx rl rrl ->
  Nat.max (b_nv a) (b_nv b) + 1 <= k -> 1 <= d -> 4 * d + 3 <= D -> ~ (boolean lsl /\ boolean rsl) ->
  exists s', join_reduction_prove o dbg s a b ls rs rx = Ok s' /\ refused addr k s'.
Proof.
  intros dbg a b ls rs rx al asl bl bsl lsl rsl rl rrl Ta Tb Tl Nl Tr Nr Tx Hn H1 HD' Hno.
  destruct (join_reduction_any Hp H2 o ck k Hpp D w0 a b ls rs rx al asl bl bsl lsl rsl rl rrl d dbg G0 (has _ _ _ Ta) (has _ _ _ Tb) (hasp _ _ Tl) Nl (hasp _ _ Tr) Nr (has _ _ _ Tx) Hn H1 HD')
    as [w1 [x1 [u1 [g1 [g11 [g12 [h1 [h1' [x2 [u2 [g2 [g21 [g22 [h2 [h2' [x3 [u3 [g3 [g31 [g32 [h3 [h3' [h4 [m4 [h5 [m5 [_ [_ [_ [_ [_ R]]]]]]]]]]]]]]]]]]]]]]]]]]]]]]].
  destruct (judge _ _ _ _ _ (at_ran _ _ _ _ _ _ _ _ _ _ _ R)) as [s' [A1 [A2 [A3 [_ [A5 A6]]]]]]. exists s'. split; [exact A1|]. apply A5. intros [[Q1 Q2] _]. apply Hno. split; apply (sel_claim_zero Hp); assumption.
Qed.
Lemma join_check : forall dbg a b ai bi ac asl bc bsl, table_stands ops hs a ac asl -> table_stands ops hs b bc bsl -> boolean asl -> boolean bsl -> ai < length (t_cols a) -> bi < length (t_cols b) ->
  1 <= d -> 2 * (d + length (t_cols a) * d) + 1 <= D -> 2 ^ t_nv b < fsize p ->
  let ka := nth ai ac [] in let kb := nth bi bc [] in
  ((exists i, i < length bsl /\ missing ka asl kb bsl i) -> final_join_prove o dbg s a b ai bi = Err IOPInvalidParameters) /\
  (dbg = true -> ~ NoDup ka -> final_join_prove o dbg s a b ai bi = Err IOPInvalidParameters) /\
  ((forall i, i < length bsl -> ~ missing ka asl kb bsl i) -> (dbg = true -> NoDup ka) ->
    exists s' ta tcs r h, let res := mkTable (ta ++ t_cols b) (t_sel b) in
      final_join_prove o dbg s a b ai bi = Ok (res, s') /\ length ta = length (t_cols a) /\ Forall2 (fun c l => exists s1, tp_evaluations s' c = Ok (l, s1)) (t_cols res) (tcs ++ bc) /\
      joined_rows ac ka asl kb bsl tcs /\ drawn (pt_tr s) (pt_tr s') = [r; h] /\
      let rs := powers r (length (t_cols a)) in
      let avoid := ~ In h (aggregated rs tcs bsl ++ aggregated rs ac asl) in
      let verify debug v := returning (tcomm_of res) (final_join_verify o debug v (tcomm_of a) (tcomm_of b) ai bi) in
      (avoid -> accepted o addr vk vops s' verify) /\ (~ avoid -> refused addr k s')).
Proof.
  intros dbg a b ai bi ac asl bc bsl Ta Tb Ba Bb Hai Hbi H1 HD' Hf ka kb. destruct (table_len _ _ _ Ta) as [La [Las Na]], (table_len _ _ _ Tb) as [Lb [Lbs Nb]]. rewrite Lbs. pose proof (table_hast _ _ _ Ta) as Ha. pose proof (table_hast _ _ _ Tb) as Hb.
  split; [|split].
  - intros [i [Hi Hm]]. destruct (final_join_start H2 o ck k D dbg w0 a b ai bi ac asl bc bsl d G0 Ha Hb Hai Hbi) as [[_ Q]|[Q _]]; [exact Q|]. exfalso. exact (Q i Hi Hm).
  - intros -> Hn. exact (final_join_dup H2 o ck k Hpp D w0 a b ai bi ac asl bc bsl d G0 Ha Hb Hai Hbi HD Hn).
  - intros Hm Hn. destruct (final_join_at Hp H2 o ck k Hpp D dbg w0 a b ai bi ac asl bc bsl d G0 Ha Hb Ba Hai Hbi Hm Hn H1 HD') as [w1 [tr [ta [r [h [ml [Lt [Ht [Lta [HW [[Hr _] [EP R]]]]]]]]]]]].
    cbv zeta in HW, Hr, EP, R. set (tcs := map (moved (t_nv b) tr bsl) ac) in *. exists (ws w1), ta, tcs, r, h. cbv zeta. split; [exact EP|]. split; [exact Lta|].
    assert (G1 : good o ck k D w1) by (apply (ran_good _ _ _ _ _ _ _ _ _ _ _ R)).
    destruct (judge _ _ _ _ _ (at_ran _ _ _ _ _ _ _ _ _ _ _ R)) as [s' [A1 [A2 [A3 [_ [A5 _]]]]]]. change (ws w0) with s in A1, EP. rewrite EP in A1. cbn [bind snd] in A1. injection A1 as <-.
    split; [destruct Hr as [Hr _]; clear -Hr G1; induction Hr as [|c l cs ls [X _] Y IH]; constructor; [|exact IH]; destruct (evals_at o ck k D w1 c l d G1 X) as [w2 [X2 _]]; exists (ws w2); exact X2|].
    assert (J : joined_rows ac ka asl kb bsl tcs).
    { intros i Hi Hs. rewrite Lbs in Hi. destruct (Ht i Hi Hs) as [T1 [T2 T3]]. exists (nth i tr 0). split; [lia|]. split; [exact T2|]. split; [exact T3|]. unfold row, tcs. rewrite map_map. apply map_ext. intros c. rewrite moved_nth by exact Hi. rewrite Hs, (proj2 (Feqb_eq F1 F1) eq_refl). reflexivity. }
    split; [exact J|]. split; [exact A2|]. set (n := length (t_cols a)) in *. pose proof (agg_len (powers r n) ac asl) as Lil. pose proof (agg_len (powers r n) tcs bsl) as Lol.
    assert (Ntc : length tcs = n) by (unfold tcs; rewrite map_length; exact Na). destruct (folded_incl H2 r n tcs bsl ac asl Ntc ltac:(lia) Bb Ba) as [F1' _]. pose proof HW as [W3 _].
    set (il := aggregated (powers r n) ac asl) in *. set (ol := aggregated (powers r n) tcs bsl) in *. pose proof (incl_same Hp H2 ol bsl il asl ml ltac:(lia) ltac:(lia) Bb ltac:(lia) HW) as X. rewrite !(clear_in Hp) in A3, A5.
    assert (Hin : In h (ol ++ il) <-> In h ol \/ In h il) by apply in_app_iff.
    assert (Hone : forall i, i < 2 ^ t_nv b -> nth i bsl F0 = F0 \/ nth i bsl F0 = F1) by (intros i Hi; unfold boolean in Bb; rewrite Forall_forall in Bb; apply Bb; apply nth_In; lia).
    assert (Hz : lz (zipw Fmul (zipw Fsub (nth ai tcs []) kb) bsl)).
    { assert (L1 : length (nth ai tcs []) = 2 ^ t_nv b) by (unfold tcs; rewrite nth_indep with (d' := moved (t_nv b) tr bsl []) by (rewrite map_length; lia); rewrite map_nth; apply moved_len).
      assert (L3 : length kb = 2 ^ t_nv b) by (unfold kb; rewrite Forall_forall in Lb; apply Lb; apply nth_In; lia).
      apply lz_nth. intros i Hi. unfold zipw in Hi. rewrite !map_length, !combine_length, !map_length, !combine_length in Hi. rewrite zipw_nth0 by (unfold zipw; rewrite ?map_length, ?combine_length; lia). rewrite zipw_nth0 by lia.
      destruct (Hone i ltac:(lia)) as [Q|Q]; rewrite Q; [ring|]. destruct (Ht i ltac:(lia) Q) as [_ [_ T3]]. unfold tcs. rewrite nth_indep with (d' := moved (t_nv b) tr bsl []) by (rewrite map_length; lia). rewrite map_nth, moved_nth by lia. rewrite Q, (proj2 (Feqb_eq F1 F1) eq_refl). unfold kb. rewrite T3. ring. }
    split.
    + intros Hav. apply A3; [split; [rewrite Hin in Hav; clear -Hav; tauto|exact Hz]|]. apply (incl_fits_verdict ol bsl il asl ml h); try lia; [exact Hav|]. apply X. apply F1'.
      intros i Hi Hs. destruct (Hone i ltac:(lia)) as [Q|Q]; [contradiction|]. destruct (J i Hi Q) as [kk [K1 [K2 [_ K4]]]]. exists kk. split; [exact K1|]. split; [rewrite K2; apply (F1_neq_0 Hp)|rewrite K4; reflexivity].
    + intros Hav. apply A5. rewrite Hin in Hav. clear -Hav. tauto.
Qed.

Lemma group_check : forall dbg t g sp sps sel mult ags rx tcs sl sup sl' ml als rl rsl, table_stands ops hs t tcs sl -> g < length (t_cols t) -> stands ops hs sp sup -> tp_nv sp = t_nv t -> stands ops hs sel sl' -> tp_nv sel = t_nv t ->
  stands ops hs mult ml -> tp_nv mult = t_nv t -> bag_stands ops hs rx rl rsl ->
  Forall2 (fun (i : nat * agg * tpoly) al => fst (fst i) < length (t_cols t) /\ (snd (fst i) = AggCount \/ snd (fst i) = AggSum) /\ stands ops hs (snd i) al /\ tp_nv (snd i) = t_nv t) ags als ->
  1 <= d -> 2 * d + 3 <= D -> boolean sl -> boolean sl' -> 2 ^ t_nv t < fsize p -> small_range rl (t_nv t) ->
  let gi := mkGp [g] (sp :: sps) sel mult ags in let keys := nth g tcs [] in let res := mkTable (sp :: repeat mult (counts_in (gb_ids ags))) sel in
  exists s' h q q1 q2 wl zs, group_by_prove o dbg s t gi rx = Ok (res, s') /\ drawn (pt_tr s) (pt_tr s') = [h; q; q1; q2] ++ zs /\ length zs = length (sums_asked ags als) /\
    length wl = length rl /\ counts_of (steps sup) rl (combine rl wl) /\
    let verify debug v := returning (tcomm_of res) (group_by_verify o debug v (tcomm_of t) (gp_ids gi) (comm_of rx)) in
    let avoid := ~ In h (keys ++ sup) /\ sort_avoids (t_nv t) sup rl q q1 q2 /\ Forall (fun z => ~ In z (keys ++ sup)) zs in
    let right := sorted_by rl sup sl' /\ grouped tcs keys sl sup sl' ml (sums_asked ags als) in
    (avoid -> right -> accepted o addr vk vops s' verify) /\
    (~ right -> ~ unlucky (combine keys sl) (wcol sup sl' ml) h -> ~ unlucky (unit_bag (steps sup)) (combine rl wl) q2 ->
      Forall2 (fun x z => ~ unlucky (wcol keys sl (nth (fst x) tcs [])) (wcol sup sl' (snd x)) z) (sums_asked ags als) zs -> turned_down o addr k vk vops s' verify) /\
    (~ avoid -> refused addr k s').
Proof.
  intros dbg t g sp sps sel mult ags rx tcs sl sup sl' ml als rl rsl Tt Hg Tsp Nsp Tse Nse Tm Nm Tx Ta H1 HD' Hb Hb' Hf Hr gi keys res. destruct (table_len _ _ _ Tt) as [Lt [Ls Nt]].
  pose proof (hasd_len o ck k D _ _ _ _ G0 (hasp _ _ Tsp)) as L3. pose proof (hasd_len o ck k D _ _ _ _ G0 (hasp _ _ Tse)) as L4. pose proof (hasd_len o ck k D _ _ _ _ G0 (hasp _ _ Tm)) as L5. rewrite Nsp in L3. rewrite Nse in L4. rewrite Nm in L5.
  assert (Lc : forall c, c < length (t_cols t) -> length (nth c tcs []) = 2 ^ t_nv t) by (intros c Hc; rewrite Forall_forall in Lt; apply Lt; apply nth_In; lia).
  assert (Ha : Forall2 (agg_at w0 t d) ags als) by (clear -Ta hasp; induction Ta as [|i al l als [A [B [C X]]] H3 IH]; constructor; [|exact IH]; split; [exact A|]; split; [exact B|]; split; [apply hasp; exact C|exact X]).
  destruct (group_by_at Hp H2 o ck k Hpp D dbg w0 t g sp sps sel mult ags rx tcs sl sup sl' ml als rl rsl d G0 (table_hast _ _ _ Tt) Hg (hasp _ _ Tsp) Nsp (hasp _ _ Tse) Nse (hasp _ _ Tm) Nm Ha (has _ _ _ Tx) H1 HD')
    as [w1 [h [q [q1 [q2 [wl [zs [HW [Lz [EP [_ R]]]]]]]]]]]. cbv zeta in Lz, EP, R. fold gi keys res in EP, R.
  destruct (judge _ _ _ _ _ (at_ran _ _ _ _ _ _ _ _ _ _ _ R)) as [s' [A1 [A2 [A3 [_ [A5 A6]]]]]]. change (ws w0) with s in A1, EP. rewrite EP in A1. cbn [bind snd] in A1. injection A1 as <-.
  destruct (range_sense Hp H2 sup rl wl (pow_ne' H2 _ _ L3) HW) as [W1 W2].
  assert (Hq : Forall (fun q => length (fst q) = 2 ^ t_nv t /\ length (snd q) = 2 ^ t_nv t) (gb_sums tcs ags als)).
  { rewrite gb_asked, Forall_map. apply (asked_in (fun c al => length (nth c tcs []) = 2 ^ t_nv t /\ length al = 2 ^ t_nv t)). clear -Ta Lc hasp G0. induction Ta as [|i al l als [A [B [C X]]] H3 IH]; constructor; [|exact IH]. split; [apply Lc; exact A|]. rewrite <- X. exact (hasd_len o ck k D _ _ _ _ G0 (hasp _ _ C)). }
  destruct (group_core H2 (t_nv t) keys sl sup sl' rl ml wl (gb_sums tcs ags als) h q q1 q2 zs (Lc g Hg) Ls L3 L4 L5 Hb Hb' Hf Hr HW Hq Lz) as [C1 [C2 C3]].
  rewrite gb_asked in C1, C2, Lz. rewrite map_length in Lz. exists (ws w1), h, q, q1, q2, wl, zs. split; [exact EP|]. split; [exact A2|]. split; [exact Lz|]. split; [exact W1|]. split; [exact W2|]. cbv zeta. unfold grouped.
  rewrite Forall_map in C1, C2. rewrite gb_asked in A3, A6. split; [|split].
  - intros Hav Hr'. destruct (C1 Hav Hr') as [X1 X2]. exact (A3 X1 X2).
  - intros Hn Hu1 Hu2 Hu3. apply A6. intros [X1 X2]. apply Hn. apply (C2 X1 X2 Hu1 Hu2). clear -Hu3. induction Hu3; cbn [map]; constructor; assumption.
  - intros Hn. apply A5. intros X. exact (Hn (C3 X)).
Qed.
End S.
End M.
