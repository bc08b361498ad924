(** Both sides of a run for grouping. *)
From Coq Require Import String List Arith Lia Bool ZArith Znumtheory Permutation.
Import ListNotations.
From Verif Require Import Res ResLemmas Fp FSum SpecMle SpecPoly PolyLemmas SpecKzg SpecTracker SpecIop SpecRel ModelMle MleLemmas MleProofs MleExtra ModelVp ModelTranscript ModelSumcheck Pairing ModelKzg ModelBatch
  ModelProver ModelVerifier ModelAdvice ModelIop ProverHist VerifierHist CompileHist IopHist IopRes TmapLemmas ProverProofs ProverExtra ProverStep HistExtra IopWorld IopBasic LogDeriv BagLemmas AdviceProofs AdviceProofs2 AdviceProofs3
  AdviceProofs4 AdviceProofs5 AdviceProofs6 IopMulti IopRuns IopSort IopComp CompSound CompSound2 CompSound3 IopComp2 IopComp3.
Local Open Scope string_scope.
Local Open Scope list_scope.
Local Open Scope nat_scope.

Section P.
Context {p : positive} {E : pairing p}.
Add Ring Fq : (@F_ring p).
Notation comm := (gcar (PG1 E)).
Hypothesis Hp : prime (Zpos p).
Hypothesis H2 : 2 < fsize p.
Variable o : oracle p comm.
Variable pp : pparam E.
Variable K : nat.
Hypothesis Hpp : forall n l, n <= K -> length l = 2 ^ n -> exists c, kzg_commit pp (mkMle n l) = Ok c.
Variable D : nat.
Implicit Types (w : wd (E:=E)) (v : vtrk E).
Notation good := (good o pp K D).
Notation step := (step o pp K D).
Notation ran := (ran o pp K D).
Notation ran_at := (ran_at o pp K D).
Notation gives := (gives o pp K D).
Notation verifying := (bool -> vtrk E -> res (vtrk E)).
Ltac ong R := let S := fresh "S" in let G := fresh "G" in let L := fresh "L" in pose proof (proj1 (proj2 R)) as S; pose proof (step_good _ _ _ _ _ _ _ _ S) as G; pose proof (step_le _ _ _ _ _ _ _ _ S) as L;
  match type of S with IopWorld.step _ _ _ _ ?w _ _ _ => match goal with H : good w |- _ => carry H L;
    repeat match goal with H' : hast w _ _ _ _ |- _ => apply (hast_le o pp K D _ _ _ _ _ _ H L) in H' end;
    repeat match goal with H' : Forall2 (fun c l => hasd w c l _ /\ _) _ _ |- _ => apply (cols_le o pp K D _ _ _ _ _ _ H L) in H' end end end; clear S.
Ltac ons S := let G := fresh "G" in let L := fresh "L" in pose proof (step_good _ _ _ _ _ _ _ _ S) as G; pose proof (step_le _ _ _ _ _ _ _ _ S) as L;
  match type of S with IopWorld.step _ _ _ _ ?w _ _ _ => match goal with H : good w |- _ => carry H L;
    repeat match goal with H' : hast w _ _ _ _ |- _ => apply (hast_le o pp K D _ _ _ _ _ _ H L) in H' end;
    repeat match goal with H' : Forall2 (fun c l => hasd w c l _ /\ _) _ _ |- _ => apply (cols_le o pp K D _ _ _ _ _ _ H L) in H' end end end.


(** The column to add up and the column claimed to hold the sums, for every sum asked for. *)
Fixpoint gb_sums (tcs : list (list (F p))) (l : list (nat * agg * tpoly)) (als : list (list (F p))) : list (list (F p) * list (F p)) :=
  match l, als with
  | (c, AggSum, _) :: l, al :: als => (nth c tcs [], al) :: gb_sums tcs l als
  | _ :: l, _ :: als => gb_sums tcs l als
  | _, _ => []
  end.
Definition sum_fits1 (keys sl sup sl' : list (F p)) (q : list (F p) * list (F p)) (h : F p) : bool := Feqb (logd (wcol keys sl (fst q)) h) (logd (wcol sup sl' (snd q)) h).
Fixpoint sums_fit (keys sl sup sl' : list (F p)) (qs : list (list (F p) * list (F p))) (hs : list (F p)) : bool :=
  match qs, hs with q :: qs, h :: hs => sum_fits1 keys sl sup sl' q h && sums_fit keys sl sup sl' qs hs | _, _ => true end.
Lemma sum1_at : forall w pre grp c a l sl l' sl' cl al d, good w -> hasb w pre l sl d -> hasb w grp l' sl' d -> hasd w c cl d -> tp_nv c = b_nv pre -> hasd w a al d -> tp_nv a = b_nv grp -> 1 <= d -> 2 * d + 1 <= D ->
  exists w1 h, ran_at w w1 (multitool_prove o (ws w) [pre] [grp] [c] [a]) [h] (clear h l /\ clear h l') (fun debug v => multitool_verify o debug v [comm_of pre] [comm_of grp] [tp_id c] [tp_id a]) (sum_fits1 l sl l' sl' (cl, al) h).
Proof.
  intros w pre grp c a l sl l' sl' cl al d G Hf Hg Hc Nc Ha Na Hd HD. pose proof (hasb_says _ _ _ _ _ Hf) as I1. pose proof (hasb_says _ _ _ _ _ Hg) as I2.
  pose proof (fun cp vk v (L : lk cp vk w v) => lk_says _ _ _ _ _ _ _ L Hc) as I3. pose proof (fun cp vk v (L : lk cp vk w v) => lk_says _ _ _ _ _ _ _ L Ha) as I4.
  destruct Hf as [F1' [F2' F3']], Hg as [G1' [G2' G3']].
  destruct (multitool_run o pp K Hpp D Hp H2 w d [pre] [grp] [c] [a] [(l, sl, cl)] [(l', sl', al)] G) as [w2 [g [E2 [S2 T2]]]]; try discriminate; try reflexivity; try assumption.
  { constructor; [|constructor]. repeat split; cbn [fst snd]; try assumption. symmetry. exact Nc. }
  { constructor; [|constructor]. repeat split; cbn [fst snd]; try assumption. symmetry. exact Na. }
  exists w2, g. split; [exact E2|]. split.
  - eapply step_imp; [exact S2|]. unfold phis_zero, clear. cbn [app]. rewrite !Forall_cons_iff. cbn [fst snd]. pose proof (Forall_nil (fun t : list (F p) * list (F p) * list (F p) => lz (phi_claim g (fst (fst t))))). tauto.
  - intros cp vk N v debug L Cv. pose proof (I3 _ _ _ L) as C1. pose proof (I4 _ _ _ L) as C2. rewrite Nc in C1. rewrite Na in C2.
    destruct (T2 cp vk N v [comm_of pre] [comm_of grp] [tp_id c] [tp_id a] debug L Cv eq_refl eq_refl) as [v' [X Y]].
    { apply items1; [exact (I1 _ _ _ L)|exact C1]. } { apply items1; [exact (I2 _ _ _ L)|exact C2]. }
    exists v'. split; [|exact Y]. rewrite X. unfold wcols, sum_fits1. cbn [flat_map fst snd]. rewrite !app_nil_r. reflexivity.
Qed.

Definition agg_at w (t : table) (d : nat) (i : nat * agg * tpoly) (al : list (F p)) : Prop :=
  fst (fst i) < length (t_cols t) /\ (snd (fst i) = AggCount \/ snd (fst i) = AggSum) /\ hasd w (snd i) al d /\ tp_nv (snd i) = t_nv t.
Lemma aggs_le : forall w w1 t d l als, good w -> le w w1 -> Forall2 (agg_at w t d) l als -> Forall2 (agg_at w1 t d) l als.
Proof. intros w w1 t d l als G L H. induction H as [|i al l als [A [B [C X]]] H3 IH]; constructor; [|exact IH]. split; [exact A|]. split; [exact B|]. split; [eapply hasd_le; eassumption|exact X]. Qed.
Lemma fold_at : forall t pre grp mult tcs tsl l sl l' sl' d, b_nv pre = t_nv t -> b_nv grp = t_nv t -> 1 <= d -> 2 * d + 1 <= D ->
  forall ags als w acc, good w -> hast w t tcs tsl d -> hasb w pre l sl d -> hasb w grp l' sl' d -> Forall2 (agg_at w t d) ags als ->
  exists w1 hs, length hs = length (gb_sums tcs ags als) /\ foldM (gb_agg_prove o t pre grp mult) (acc, ws w) ags = Ok (acc ++ repeat mult (counts_in (gb_ids ags)), ws w1) /\ step w w1 hs (Forall (fun h => clear h l /\ clear h l') hs) /\
    forall cp vk N v debug, lk cp vk w v -> cov cp N w1 -> exists v', foldM (gb_agg_verify o debug (tcomm_of t) (comm_of pre) (comm_of grp) (tp_id mult)) (map tp_id acc, v) (gb_ids ags) =
      (if sums_fit l sl l' sl' (gb_sums tcs ags als) hs then Ok (map tp_id acc ++ repeat (tp_id mult) (counts_in (gb_ids ags)), v') else Err IOPInvalidVerifier) /\ lk cp vk w1 v' /\ vext v v'.
Proof.
  intros t pre grp mult tcs tsl l sl l' sl' d N1 N2 Hd HD. induction ags as [|[[c k] a] ags IH]; intros als w acc G Ht Hb Hg Ha.
  - inversion Ha; subst. exists w, []. split; [reflexivity|]. split; [cbn; rewrite app_nil_r; reflexivity|]. split; [eapply step_imp; [apply step_refl; exact G|split; [constructor|exact (fun _ => I)]]|].
    intros cp vk N v debug L Cv. exists v. cbn. rewrite app_nil_r. split; [reflexivity|]. split; [exact L|apply vext_refl].
  - inversion Ha as [|? al ? als' [A1 [A2 [A3 A4]]] Ha']; subst. cbn [fst snd] in A1, A2, A3, A4. destruct A2 as [-> | ->].
    + destruct (IH als' w (acc ++ [mult]) G Ht Hb Hg Ha') as [w1 [hs [X1 [X2 [X3 X4]]]]]. exists w1, hs. split; [exact X1|]. split; [|split; [exact X3|]].
      * cbn [foldM gb_agg_prove fst snd bind]. rewrite X2. rewrite <- app_assoc. reflexivity.
      * intros cp vk N v debug L Cv. destruct (X4 cp vk N v debug L Cv) as [v' [Y1 Y2]]. exists v'. split; [|exact Y2]. cbn [gb_ids map foldM gb_agg_verify fst snd bind]. fold (gb_ids ags). rewrite map_app in Y1. cbn [map] in Y1. rewrite Y1.
        cbn [gb_sums]. rewrite <- app_assoc. reflexivity.
    + destruct (cols_nth H2 _ _ _ _ _ _ (proj1 Ht) A1) as [cc [C1 [C2 C3]]].
      destruct (sum1_at w pre grp cc a l sl l' sl' _ al d G Hb Hg C2 ltac:(congruence) A3 ltac:(congruence) Hd HD) as [w1 [h R1]].
      pose proof (ran_le _ _ _ _ _ _ _ _ _ _ _ R1) as L1. pose proof (ran_good _ _ _ _ _ _ _ _ _ _ _ R1) as G1. apply (hast_le o pp K D _ _ _ _ _ _ G L1) in Ht. apply (hasb_le o pp K D _ _ _ _ _ _ G L1) in Hb. apply (hasb_le o pp K D _ _ _ _ _ _ G L1) in Hg. apply (aggs_le _ _ _ _ _ _ G L1) in Ha'.
      destruct (IH als' w1 acc G1 Ht Hb Hg Ha') as [w2 [hs [X1 [X2 [X3 X4]]]]]. destruct R1 as [E1 [S1 T1]]. exists w2, (h :: hs). split; [cbn [gb_sums length]; rewrite X1; reflexivity|]. split; [|split].
      * cbn [foldM gb_agg_prove fst snd]. unfold rnth. rewrite C1. cbn [bind ounwrap]. rewrite E1. cbn [bind]. exact X2.
      * eapply step_imp; [exact (step_trans _ _ _ _ _ _ _ _ _ _ _ S1 X3)|]. rewrite Forall_cons_iff. tauto.
      * intros cp vk N v debug Lk Cv. pose proof (cov_le _ _ _ _ _ _ _ _ G1 (step_le _ _ _ _ _ _ _ _ X3) Cv) as Cv1. destruct (T1 cp vk N v debug Lk Cv1) as [v1 [Y1 [Lk1 V1]]]. destruct (X4 cp vk N v1 debug Lk1 Cv) as [v2 [Z1 [Lk2 V2]]]. exists v2. split; [|split; [exact Lk2|eapply vext_trans; eassumption]].
        cbn [gb_ids map foldM gb_agg_verify fst snd]. fold (gb_ids ags). unfold rnth. cbn [tcomm_of tc_cols]. rewrite nth_error_map, C1. cbn [bind ounwrap option_map]. rewrite Y1. cbn [gb_sums sums_fit]. destruct (sum_fits1 _ _ _ _ _ h); cbn [bind andb]; [exact Z1|reflexivity].
Qed.

Lemma group_by_at : forall dbg w t g sp sps sel mult ags rx tcs sl sup sl' ml als rl rsl d, good w -> hast w t tcs sl d -> g < length (t_cols t) -> hasd w sp sup d -> tp_nv sp = t_nv t -> hasd w sel sl' d -> tp_nv sel = t_nv t ->
  hasd w mult ml d -> tp_nv mult = t_nv t -> Forall2 (agg_at w t d) ags als -> hasb w rx rl rsl d -> 1 <= d -> 2 * d + 3 <= D ->
  let gi := mkGp [g] (sp :: sps) sel mult ags in let keys := nth g tcs [] in let res := mkTable (sp :: repeat mult (counts_in (gb_ids ags))) sel in let qs := gb_sums tcs ags als in
  exists w1 h q q1 q2 wl hs, range_weights sup rl wl /\ length hs = length qs /\ group_by_prove o dbg (ws w) t gi rx = Ok (res, ws w1) /\ hast w1 res (sup :: repeat ml (counts_in (gb_ids ags))) sl' d /\
    ran_at w w1 (x <- group_by_prove o dbg (ws w) t gi rx ;; Ok (snd x)) ([h; q; q1; q2] ++ hs)
      (((clear h keys /\ clear h sup) /\ lz (nz_claim ml sl') /\ sort_claims (t_nv t) sup sl' rl q q1 q2) /\ Forall (fun h => clear h keys /\ clear h sup) hs)
      (fun debug v => returning (tcomm_of res) (group_by_verify o debug v (tcomm_of t) (gp_ids gi) (comm_of rx)))
      ((incl_fits keys sl sup sl' ml h && sort_fits sup rl wl q2) && sums_fit keys sl sup sl' qs hs).
Proof.
  intros dbg w t g sp sps sel mult ags rx tcs sl sup sl' ml als rl rsl d G Ht Hg Hsp Nsp Hse Nse Hm Nm Ha Hr Hd HD gi keys res qs.
  destruct (cols_nth H2 _ _ _ _ _ _ (proj1 Ht) Hg) as [gc [C1 [C2 C3]]]. fold keys in C2.
  assert (Hpre : hasb w (mkBag gc (t_sel t)) keys sl d) by (split; [exact C2|split; [exact (proj2 Ht)|exact C3]]).
  assert (Hgrp : hasb w (mkBag sp sel) sup sl' d) by (split; [exact Hsp|split; [exact Hse|cbn; congruence]]).
  destruct (supp_wa_at Hp H2 o pp K Hpp D w (mkBag gc (t_sel t)) (mkBag sp sel) mult rx keys sl sup sl' ml rl rsl d dbg G Hpre Hgrp Hm (eq_trans Nsp (eq_sym Nm)) Hr Hd HD) as [w1 [h [q [q1 [q2 [wl [HW R1]]]]]]].
  pose proof (ran_le _ _ _ _ _ _ _ _ _ _ _ R1) as L1. pose proof (ran_good _ _ _ _ _ _ _ _ _ _ _ R1) as G1. apply (hast_le o pp K D _ _ _ _ _ _ G L1) in Ht. apply (hasb_le o pp K D _ _ _ _ _ _ G L1) in Hpre. apply (hasb_le o pp K D _ _ _ _ _ _ G L1) in Hgrp. apply (aggs_le _ _ _ _ _ _ G L1) in Ha.
  apply (hasd_le o pp K D _ _ _ _ _ G L1) in Hsp. apply (hasd_le o pp K D _ _ _ _ _ G L1) in Hse. apply (hasd_le o pp K D _ _ _ _ _ G L1) in Hm.
  destruct (fold_at t (mkBag gc (t_sel t)) (mkBag sp sel) mult tcs sl keys sl sup sl' d C3 Nsp Hd ltac:(lia) ags als w1 [sp] G1 Ht Hpre Hgrp Ha) as [w2 [hs [X1 [X2 [X3 X4]]]]].
  pose proof (step_le _ _ _ _ _ _ _ _ X3) as L2. apply (hasd_le o pp K D _ _ _ _ _ G1 L2) in Hsp. apply (hasd_le o pp K D _ _ _ _ _ G1 L2) in Hse. apply (hasd_le o pp K D _ _ _ _ _ G1 L2) in Hm.
  destruct R1 as [E1 [S1 T1]]. assert (Hidx : forallb (fun i => i <? length (t_cols t)) (map (fun i : nat * agg * tpoly => fst (fst i)) ags) = true).
  { apply forallb_forall. intros i Hi. apply in_map_iff in Hi. destruct Hi as [x [<- Hx]]. apply Nat.ltb_lt. clear -Ha Hx. induction Ha as [|y al l als' Hy Ha IH]; [contradiction|]. destruct Hx as [->|Hx]; [exact (proj1 Hy)|exact (IH Hx)]. }
  assert (EE : group_by_prove o dbg (ws w) t gi rx = Ok (res, ws w2)).
  { unfold group_by_prove, gb_check, gi. cbn [gp_cols gp_agg gp_supp gp_sel gp_mult length Nat.leb ensure bind]. unfold rnth. cbn [nth_error ounwrap bind]. rewrite (proj2 (Nat.ltb_lt _ _) Hg), Hidx. cbn [ensure bind ounwrap]. rewrite C1. cbn [bind ounwrap].
    rewrite (bag_new_ok dbg gc (t_sel t)) by exact C3. cbn [bind]. rewrite (bag_new_ok dbg sp sel) by congruence. cbn [bind]. rewrite E1. cbn [bind]. rewrite table_new_ok by (constructor; [congruence|constructor]). cbn [bind t_cols t_sel]. rewrite X2. reflexivity. }
  exists w2, h, q, q1, q2, wl, hs. split; [exact HW|]. split; [exact X1|]. split; [exact EE|]. split.
  { split; [|exact Hse]. cbn [t_cols t_sel res]. constructor; [split; [exact Hsp|unfold t_nv; cbn; congruence]|]. clear -Hm Nm Nse. induction (counts_in (gb_ids ags)); cbn; constructor; [|assumption]. split; [exact Hm|unfold t_nv; cbn; congruence]. }
  change (b_nv (mkBag sp sel)) with (tp_nv sp) in S1. rewrite Nsp in S1.
  split; [rewrite EE; reflexivity|]. split; [exact (step_trans _ _ _ _ _ _ _ _ _ _ _ S1 X3)|].
  intros cp vk N v debug Lk Cv. pose proof (cov_le _ _ _ _ _ _ _ _ G1 L2 Cv) as Cv1. destruct (T1 cp vk N v debug Lk Cv1) as [v1 [Y1 [Lk1 V1]]]. destruct (X4 cp vk N v1 debug Lk1 Cv) as [v2 [Z1 [Lk2 V2]]]. exists v2. split; [|split; [exact Lk2|eapply vext_trans; eassumption]].
  unfold group_by_verify, gb_check, gi, gp_ids. cbn [gv_cols gv_agg gv_supp gv_sel gv_mult gp_cols gp_agg gp_supp gp_sel gp_mult map length Nat.leb ensure bind tcomm_of tc_cols tc_sel tc_nv]. unfold rnth. cbn [nth_error ounwrap bind]. rewrite map_length.
  rewrite (proj2 (Nat.ltb_lt _ _) Hg). unfold gb_ids at 1. rewrite map_map. cbn [fst]. rewrite Hidx. cbn [ensure bind ounwrap]. rewrite nth_error_map, C1. cbn [bind ounwrap option_map].
  unfold comm_of in Y1 at 1 2. unfold comm_of in Z1. cbn [b_poly b_sel b_nv] in Y1, Z1. unfold b_nv in Y1, Z1. cbn [b_poly b_sel] in Y1, Z1. rewrite C3, Nsp in Y1, Z1. cbn [map] in Z1.
  rewrite Y1. destruct (incl_fits keys sl sup sl' ml h && sort_fits sup rl wl q2); cbn [andb bind]; [|reflexivity]. fold qs in Z1. rewrite Z1. destruct (sums_fit keys sl sup sl' qs hs); cbn [bind]; [|reflexivity].
  unfold returning. cbn [bind fst snd]. destruct (tablec_dec _ _) as [_|n]; [reflexivity|]. exfalso. apply n. unfold tcomm_of, res. cbn [t_cols t_sel map app]. unfold t_nv at 2. cbn [t_sel]. rewrite Nse. f_equal. f_equal. clear. induction (counts_in (gb_ids ags)); cbn; congruence.
Qed.
End P.
