(** Both sides of a run for the one-to-many join and for grouping. *)
From Coq Require Import String List Arith Lia Bool ZArith Znumtheory Permutation.
Import ListNotations.
From Verif Require Import Res ResLemmas Fp FSum SpecMle SpecPoly PolyLemmas SpecKzg SpecTracker SpecIop SpecRel ModelMle MleLemmas MleProofs MleExtra ModelVp ModelTranscript ModelSumcheck Pairing ModelKzg ModelBatch
  ModelProver ModelVerifier ModelAdvice ModelIop ProverHist VerifierHist CompileHist IopHist IopRes TmapLemmas ProverProofs ProverExtra ProverStep HistExtra IopWorld IopBasic LogDeriv BagLemmas AdviceProofs AdviceProofs2 AdviceProofs3
  AdviceProofs4 AdviceProofs5 AdviceProofs6 IopMulti IopRuns IopSort IopComp CompSound CompSound2 CompSound3 IopComp2.
Local Open Scope string_scope.
Local Open Scope list_scope.
Local Open Scope nat_scope.

Section P.
Context {p : positive} {E : pairing p}.
Add Ring Fq : (@F_ring p).
Notation comm := (gcar (PG1 E)).
Hypothesis Hp : prime (Zpos p).
Hypothesis H2 : 2 < fsize p.
Variable o : oracle p comm.
Variable pp : pparam E.
Variable K : nat.
Hypothesis Hpp : forall n l, n <= K -> length l = 2 ^ n -> exists c, kzg_commit pp (mkMle n l) = Ok c.
Variable D : nat.
Implicit Types (w : wd (E:=E)) (v : vtrk E).
Notation good := (good o pp K D).
Notation step := (step o pp K D).
Notation ran := (ran o pp K D).
Notation ran_at := (ran_at o pp K D).
Notation gives := (gives o pp K D).
Notation verifying := (bool -> vtrk E -> res (vtrk E)).
Ltac ong R := let S := fresh "S" in let G := fresh "G" in let L := fresh "L" in pose proof (proj1 (proj2 R)) as S; pose proof (step_good _ _ _ _ _ _ _ _ S) as G; pose proof (step_le _ _ _ _ _ _ _ _ S) as L;
  match type of S with IopWorld.step _ _ _ _ ?w _ _ _ => match goal with H : good w |- _ => carry H L;
    repeat match goal with H' : hast w _ _ _ _ |- _ => apply (hast_le o pp K D _ _ _ _ _ _ H L) in H' end;
    repeat match goal with H' : Forall2 (fun c l => hasd w c l _ /\ _) _ _ |- _ => apply (cols_le o pp K D _ _ _ _ _ _ H L) in H' end end end; clear S.
Ltac ons S := let G := fresh "G" in let L := fresh "L" in pose proof (step_good _ _ _ _ _ _ _ _ S) as G; pose proof (step_le _ _ _ _ _ _ _ _ S) as L;
  match type of S with IopWorld.step _ _ _ _ ?w _ _ _ => match goal with H : good w |- _ => carry H L;
    repeat match goal with H' : hast w _ _ _ _ |- _ => apply (hast_le o pp K D _ _ _ _ _ _ H L) in H' end;
    repeat match goal with H' : Forall2 (fun c l => hasd w c l _ /\ _) _ _ |- _ => apply (cols_le o pp K D _ _ _ _ _ _ H L) in H' end end end.

(** ** The advice of the one-to-many join *)
Definition quiet {A} w w1 (r : res (A * ptrk E)) (x : A) : Prop := r = Ok (x, ws w1) /\ step w w1 [] True /\ forall cp vk v, lk cp vk w v -> lk cp vk w1 v.
Lemma commits_at : forall n d ms w, good w -> Forall (fun l => length l = 2 ^ n) ms -> n <= K -> 1 <= D -> 1 <= d ->
  exists w1 hs, gives w w1 (each_col (fun s x => tp_commit s x) (ws w) (map (mkMle n) ms)) hs [] True (fun debug v => transfer_all debug v (length ms)) (map tp_id hs) /\ Forall2 (fun c l => hasd w1 c l d /\ tp_nv c = n) hs ms /\ incl (combine hs ms) (wf w1).
Proof.
  intros n d. induction ms as [|l ms IH]; intros w G Hl Hn HD Hd.
  - exists w, []. split; [|split; [constructor|intros x []]]. split; [reflexivity|]. split; [eapply step_imp; [apply step_refl; exact G|tauto]|]. intros cp vk N v debug L Cv. exists v. split; [reflexivity|]. split; [exact L|apply vext_refl].
  - inversion Hl as [|? ? Hl1 Hl2]; subst. destruct (gives_commit_full o pp K Hpp D w n l d G Hl1 Hn HD Hd) as [w1 [h [I1 [R1 [H1 N1]]]]]. ong R1.
    destruct (IH w1 ltac:(assumption) Hl2 Hn HD Hd) as [w2 [hs [R2 [H3 I2]]]]. ong R2. exists w2, (h :: hs). split; [|split; [constructor; [split; [exact H1|exact N1]|exact H3]|]].
    2: { intros x [<-|Hx]; [apply (le_full _ _ (step_le _ _ _ _ _ _ _ _ (proj1 (proj2 R2)))); exact I1|apply I2; exact Hx]. }
    destruct R1 as [E1 [S1 T1]], R2 as [E2 [S2 T2]]. split; [cbn [each_col map]; rewrite E1; cbn [bind]; rewrite E2; reflexivity|]. split; [eapply step_imp; [exact (step_trans _ _ _ _ _ _ _ _ _ _ _ S1 S2)|tauto]|].
    intros cp vk N v debug Lk Cv. pose proof (cov_le _ _ _ _ _ _ _ _ (step_good _ _ _ _ _ _ _ _ S1) (step_le _ _ _ _ _ _ _ _ S2) Cv) as Cv1.
    destruct (T1 cp vk N v debug Lk Cv1) as [v1 [X1 [L1 V1]]]. destruct (T2 cp vk N v1 debug L1 Cv) as [v2 [X2 [L2 V2]]]. exists v2. cbn [length transfer_all map]. rewrite X1. cbn [bind]. rewrite X2. cbn [bind].
    split; [reflexivity|]. split; [exact L2|eapply vext_trans; eassumption].
Qed.
(** A column moved along the row numbers [tr] into the selected rows. *)
Definition moved (n : nat) (tr : list nat) (act old : list (F p)) : list (F p) := map (fun i => if Feqb (nth i act F0) F1 then nth (nth i tr 0) old F0 else F0) (seq 0 (2 ^ n)).
Lemma moved_len : forall n tr act old, length (moved n tr act old) = 2 ^ n. Proof. intros. unfold moved. rewrite map_length, seq_length. reflexivity. Qed.
Lemma moved_nth : forall n tr act old i, i < 2 ^ n -> nth i (moved n tr act old) F0 = if Feqb (nth i act F0) F1 then nth (nth i tr 0) old F0 else F0.
Proof. intros n tr act old i Hi. unfold moved. rewrite (nth_map_seq (fun i => if Feqb (nth i act F0) F1 then nth (nth i tr 0) old F0 else F0)) by exact Hi. reflexivity. Qed.
Lemma moved_at : forall dbg tr sel act d n na cols ls w acc, good w -> hasd w sel act d -> tp_nv sel = n -> length tr = 2 ^ n -> (forall i, i < 2 ^ n -> nth i act F0 = F1 -> nth i tr 0 < 2 ^ na) ->
  Forall2 (fun c l => hasd w c l d /\ tp_nv c = na) cols ls ->
  exists w1, quiet w w1 (foldM (fun ms c => ' (old, s) <- tp_evaluations (snd ms) c ;; ' (act, s) <- tp_evaluations s sel ;; x <- index_transformed dbg tr old act (tp_nv sel) ;; Ok (fst ms ++ [x], s)) (acc, ws w) cols)
    (acc ++ map (fun l => mkMle n (moved n tr act l)) ls).
Proof.
  intros dbg tr sel act d n na. induction cols as [|c cols IH]; intros ls w acc G Hs Hn Ht Hi Hc.
  - inversion Hc; subst. exists w. cbn [foldM map]. rewrite app_nil_r. split; [reflexivity|]. split; [eapply step_imp; [apply step_refl; exact G|tauto]|auto].
  - inversion Hc as [|? l ? ls' [Hc1 Nc] Hc2]; subst. pose proof (hasd_len _ _ _ _ _ _ _ _ G Hc1) as Ll. pose proof (hasd_len _ _ _ _ _ _ _ _ G Hs) as La.
    destruct (evals_at o pp K D w c l d G Hc1) as [w1 [E1 [S1 T1]]]. ons S1. destruct (evals_at o pp K D w1 sel act d ltac:(assumption) Hs) as [w2 [E2 [S2 T2]]]. ons S2.
    destruct (IH ls' w2 (acc ++ [mkMle (tp_nv sel) (moved (tp_nv sel) tr act l)]) ltac:(assumption) Hs eq_refl Ht Hi Hc2) as [w3 [E3 [S3 T3]]]. exists w3. split; [|split; [|auto]].
    + cbn [foldM snd]. rewrite E1. cbn [bind]. rewrite E2. cbn [bind]. rewrite (index_transformed_ok dbg tr l act (tp_nv sel) La Ht) by (intros i Hi' Ha; rewrite Ll; apply Hi; assumption). cbn [bind fst]. etransitivity; [exact E3|]. cbn [map]. rewrite <- app_assoc. reflexivity.
    + eapply step_imp; [exact (step_trans _ _ _ _ _ _ _ _ _ _ _ S1 (step_trans _ _ _ _ _ _ _ _ _ _ _ S2 S3))|tauto].
Qed.
Lemma has_dup_iff : forall l : list (F p), has_dup l = false <-> NoDup l.
Proof.
  induction l as [|x l IH]; [split; [constructor|reflexivity]|]. cbn [has_dup]. rewrite orb_false_iff, IH. split.
  - intros [A B]. constructor; [|exact B]. intros H. assert (existsb (Feqb x) l = true) by (apply existsb_exists; exists x; split; [exact H|apply Feqb_eq; reflexivity]). congruence.
  - intros H. inversion H as [|? ? A B]; subst. split; [|exact B]. destruct (existsb (Feqb x) l) eqn:Q; [|reflexivity]. apply existsb_exists in Q. destruct Q as [y [Hy Q]]. apply Feqb_eq in Q. subst y. contradiction.
Qed.
Lemma table_new_ok : forall dbg cs s, Forall (fun c => tp_nv c = tp_nv s) cs -> table_new dbg cs s = Ok (mkTable cs s).
Proof.
  intros dbg cs s H. unfold table_new. destruct dbg; [|reflexivity]. assert (Q : forallb (fun c => tp_nv c =? tp_nv s) cs = true) by (apply forallb_forall; intros c Hc; apply Nat.eqb_eq; rewrite Forall_forall in H; apply H; exact Hc). rewrite Q. reflexivity.
Qed.
Lemma cols_nth : forall w n d cs ls i, Forall2 (fun c l => hasd w c l d /\ tp_nv c = n) cs ls -> i < length cs -> exists c, nth_error cs i = Some c /\ hasd w c (nth i ls []) d /\ tp_nv c = n.
Proof.
  intros w n d cs ls i H. revert i. induction H as [|c l cs ls [H1 H3] H4 IH]; intros [|i] Hi; cbn in Hi; try lia; [exists c; auto|]. destruct (IH i ltac:(lia)) as [c' X]. exists c'. exact X.
Qed.
Lemma cols_nv : forall w n d cs ls, Forall2 (fun c l => hasd w c l d /\ tp_nv c = n) cs ls -> Forall (fun c => tp_nv c = n) cs.
Proof. intros w n d cs ls H. induction H as [|c l cs ls [H1 H3] H4 IH]; constructor; assumption. Qed.
Lemma cols_app : forall w n d cs ls cs' ls', Forall2 (fun c l => hasd w c l d /\ tp_nv c = n) cs ls -> Forall2 (fun c l => hasd w c l d /\ tp_nv c = n) cs' ls' -> Forall2 (fun c l => hasd w c l d /\ tp_nv c = n) (cs ++ cs') (ls ++ ls').
Proof. intros w n d cs ls cs' ls' H. induction H; intros H'; [exact H'|]. cbn. constructor; auto. Qed.

(** With the advice at hand. *)
Lemma final_join_wa_at : forall dbg w a b ai bi ta ac asl bc bsl tcs d, good w -> hast w a ac asl d -> hast w b bc bsl d -> Forall2 (fun c l => hasd w c l d /\ tp_nv c = t_nv b) ta tcs -> length ta = length (t_cols a) ->
  boolean asl -> ai < length (t_cols a) -> bi < length (t_cols b) -> (dbg = true -> NoDup (nth ai ac [])) -> 1 <= d -> 2 * (d + length (t_cols a) * d) + 1 <= D ->
  exists w1 r h ml, let rs := powers r (length (t_cols a)) in let il := aggregated rs ac asl in let ol := aggregated rs tcs bsl in let res := mkTable (ta ++ t_cols b) (t_sel b) in incl_weights ol bsl il asl ml /\
    final_join_prove_with_advice o dbg (ws w) a b ai bi ta = Ok (res, ws w1) /\
    ran_at w w1 (x <- final_join_prove_with_advice o dbg (ws w) a b ai bi ta ;; Ok (snd x)) [r; h] ((clear h ol /\ clear h il) /\ lz (zipw Fmul (zipw Fsub (nth ai tcs []) (nth bi bc [])) bsl))
      (fun debug v => returning (tcomm_of res) (final_join_verify_with_advice o debug v (tcomm_of a) (tcomm_of b) ai bi (map tp_id ta))) (incl_fits ol bsl il asl ml h).
Proof.
  intros dbg w a b ai bi ta ac asl bc bsl tcs d G Ha Hb Ht Lt Ba Hai Hbi Hnd Hd HD.
  (* the debug check *)
  assert (X0 : exists w0, (if dbg then c <- rnth (t_cols a) ai ;; ' (l, s) <- tp_evaluations (ws w) c ;; _ <- ensure (negb (has_dup l)) IOPInvalidParameters ;; Ok s else Ok (ws w)) = Ok (ws w0) /\ step w w0 [] True /\ forall cp vk v, lk cp vk w v -> lk cp vk w0 v).
  { destruct dbg; [|exists w; split; [reflexivity|]; split; [eapply step_imp; [apply step_refl; exact G|tauto]|auto]]. destruct (cols_nth _ _ _ _ _ _ (proj1 Ha) Hai) as [c [Q1 [Q2 Q3]]]. destruct (evals_at o pp K D w c _ d G Q2) as [w0 [E0 [S0 T0]]]. exists w0.
    split; [|auto]. unfold rnth. rewrite Q1. cbn [bind ounwrap]. rewrite E0. cbn [bind]. rewrite (proj2 (has_dup_iff _) (Hnd eq_refl)). reflexivity. }
  destruct X0 as [w0 [E0 [S0 T0]]]. ons S0.
  assert (Lb : Forall (fun c => tp_nv c = tp_nv (t_sel b)) (ta ++ t_cols b)) by (apply Forall_app; split; [exact (cols_nv _ _ _ _ _ Ht)|exact (cols_nv _ _ _ _ _ (proj1 Hb))]).
  assert (Hto : hast w0 (mkTable ta (t_sel b)) tcs bsl d) by (split; [exact Ht|exact (proj2 Hb)]).
  destruct (index_transform_at Hp H2 o pp K Hpp D dbg w0 a (mkTable ta (t_sel b)) ac asl tcs bsl d ltac:(assumption) Ha Hto Ba ltac:(cbn [t_cols]; lia) Hd HD) as [w1 [r [h [ml [HW R1]]]]]. cbv zeta in HW, R1.
  set (n := length (t_cols a)) in *. set (rs := powers r n) in *. ong R1.
  destruct (cols_nth w1 _ _ _ _ ai Ht ltac:(lia)) as [ja [J1 [J2 J3]]]. destruct (cols_nth w1 _ _ _ _ bi (proj1 Hb) Hbi) as [jb [B1 [B2 B3]]]. destruct Hb as [Hb1 Hb2].
  destruct (gives_sub o pp K D w1 ja jb _ _ d d ltac:(assumption) J2 B2 ltac:(congruence) ltac:(lia)) as [w2 [y [R2 [H3 N3]]]]. ong R2. rewrite Nat.max_id in H3.
  destruct (gives_mul o pp K D w2 y (t_sel b) _ _ d d ltac:(assumption) H3 Hb2 ltac:(rewrite N3, J3; reflexivity) ltac:(nia)) as [w3 [z [R3 [H4 N4]]]]. ong R3.
  destruct (ran_some _ _ _ _ _ _ _ _ _ _ (gives_zero o pp K D w3 z _ _ ltac:(assumption) H4)) as [w4 R4].
  pose proof (gives_then o pp K D _ _ _ _ _ _ _ _ _ _ (fun x => Ok (add_zerocheck_claim (snd x) (tp_id (fst x)))) _ _ (fun i _ v => Ok (v_add_zerocheck_claim v i)) _ R3 (at_ran _ _ _ _ _ _ _ _ _ _ _ R4)) as Y3. cbn [app] in Y3.
  pose proof (gives_then o pp K D _ _ _ _ _ _ _ _ _ _ (fun x => x <- tp_mul (snd x) (fst x) (t_sel b) ;; Ok (add_zerocheck_claim (snd x) (tp_id (fst x)))) _ _ (fun i _ v => ' (i, v) <- Ok (mul_comms v i (tp_id (t_sel b))) ;; Ok (v_add_zerocheck_claim v i)) _ R2 Y3) as Y2. cbn [app] in Y2.
  pose proof (ran_then o pp K D _ _ _ (fun s => x <- tp_sub s ja jb ;; x <- tp_mul (snd x) (fst x) (t_sel b) ;; Ok (add_zerocheck_claim (snd x) (tp_id (fst x)))) _ _ _ _ _ _ _ _ R1 Y2) as Y1. cbn [app andb] in Y1. rewrite andb_true_r in Y1.
  pose proof (ran_after o pp K D unit w w0 (Ok (tt, ws w0)) tt (fun x => s <- index_transform_prove o dbg (snd x) a (mkTable ta (t_sel b)) ;; x <- tp_sub s ja jb ;; x <- tp_mul (snd x) (fst x) (t_sel b) ;; Ok (add_zerocheck_claim (snd x) (tp_id (fst x)))) _ _ _ _ eq_refl S0 T0 Y1) as Y0.
  assert (Ls : slice_to (ta ++ t_cols b) n = Ok ta) by (unfold slice_to; rewrite app_length; replace (n <=? length ta + length (t_cols b)) with true by (symmetry; apply Nat.leb_le; lia); rewrite <- Lt, firstn_app, Nat.sub_diag, firstn_all; cbn [firstn]; rewrite app_nil_r; reflexivity).
  assert (Lv : slice_to (map tp_id ta ++ map tp_id (t_cols b)) n = Ok (map tp_id ta)) by (unfold slice_to; rewrite app_length, !map_length; replace (n <=? length ta + length (t_cols b)) with true by (symmetry; apply Nat.leb_le; lia); rewrite firstn_app, map_length, <- Lt, Nat.sub_diag; cbn [firstn]; rewrite app_nil_r, firstn_all2 by (rewrite map_length; lia); reflexivity).
  assert (Ja : rnth (ta ++ t_cols b) ai = Ok ja) by (unfold rnth; rewrite nth_error_app1, J1 by lia; reflexivity).
  assert (Jb : rnth (ta ++ t_cols b) (n + bi) = Ok jb) by (unfold rnth; rewrite nth_error_app2, Lt by lia; replace (n + bi - n) with bi by lia; rewrite B1; reflexivity).
  assert (Va : rnth (map tp_id ta ++ map tp_id (t_cols b)) ai = Ok (tp_id ja)) by (unfold rnth; rewrite <- map_app, nth_error_map, nth_error_app1, J1 by lia; reflexivity).
  assert (Vb : rnth (map tp_id ta ++ map tp_id (t_cols b)) (n + bi) = Ok (tp_id jb)) by (unfold rnth; rewrite <- map_app, nth_error_map, nth_error_app2, Lt by lia; replace (n + bi - n) with bi by lia; rewrite B1; reflexivity).
  assert (P0 : final_join_prove_with_advice o dbg (ws w) a b ai bi ta = s <- (s <- index_transform_prove o dbg (ws w0) a (mkTable ta (t_sel b)) ;; x <- tp_sub s ja jb ;; x <- tp_mul (snd x) (fst x) (t_sel b) ;; Ok (add_zerocheck_claim (snd x) (tp_id (fst x)))) ;; Ok (mkTable (ta ++ t_cols b) (t_sel b), s)).
  { unfold final_join_prove_with_advice. rewrite E0. cbn [bind]. rewrite table_new_ok by exact Lb. cbn [bind t_cols t_sel]. fold n. rewrite Ls. cbn [bind]. rewrite table_new_ok by exact (cols_nv _ _ _ _ _ Ht). cbn [bind].
    destruct (index_transform_prove o dbg (ws w0) a (mkTable ta (t_sel b))) as [s| |]; [|reflexivity|reflexivity]. cbn [bind]. rewrite Ja. cbn [bind]. rewrite Jb. cbn [bind].
    destruct (tp_sub s ja jb) as [[y' s1]| |]; [|reflexivity|reflexivity]. cbn [bind fst snd]. destruct (tp_mul s1 y' (t_sel b)) as [[z' s3]| |]; reflexivity. }
  match type of Y0 with IopRuns.ran _ _ _ _ _ ?r ?ds ?P ?ver ?bb => assert (R : ran w (x <- final_join_prove_with_advice o dbg (ws w) a b ai bi ta ;; Ok (snd x)) ds ((clear h (aggregated rs tcs bsl) /\ clear h (aggregated rs ac asl)) /\ lz (zipw Fmul (zipw Fsub (nth ai tcs []) (nth bi bc [])) bsl))
    (fun debug v => returning (tcomm_of (mkTable (ta ++ t_cols b) (t_sel b))) (final_join_verify_with_advice o debug v (tcomm_of a) (tcomm_of b) ai bi (map tp_id ta))) bb) end.
  { eapply ran_ext; [exact Y0| |clear; tauto| |reflexivity].
    - rewrite P0. cbn [bind snd]. match goal with |- bind (bind ?x _) _ = _ => destruct x; reflexivity end.
    - intros debug v. unfold final_join_verify_with_advice, returning. cbn [tcomm_of tc_cols tc_sel tc_nv t_cols t_sel]. rewrite map_length. fold n. rewrite Lv. cbn [bind].
      change (mkTablec (map tp_id ta) (tp_id (t_sel b)) (t_nv b)) with (tcomm_of (mkTable ta (t_sel b))). change (mkTablec (map tp_id (t_cols a)) (tp_id (t_sel a)) (t_nv a)) with (tcomm_of a). destruct (index_transform_verify o debug v (tcomm_of a) (tcomm_of (mkTable ta (t_sel b)))) as [v1| |]; [|reflexivity|reflexivity]. cbn [bind].
      rewrite Va, Vb. cbn [bind]. destruct (sub_comms v1 (tp_id ja) (tp_id jb)) as [y1 v2]. cbn [bind]. destruct (mul_comms v2 y1 (tp_id (t_sel b))) as [z1 v3]. cbn [bind fst snd].
      destruct (tablec_dec _ _) as [_|Q]; [reflexivity|]. exfalso. apply Q. unfold tcomm_of, t_nv. cbn [t_cols t_sel]. rewrite map_app. reflexivity. }
  destruct R as [w5 R]. exists w5, r, h, ml. cbv zeta. fold n. fold rs. split; [exact HW|]. split; [|exact R]. destruct R as [R _]. rewrite P0 in R |- *.
  match type of R with bind (bind ?x _) _ = _ => destruct x as [s5| |]; cbn [bind snd] in R |- *; [injection R as ->; reflexivity|discriminate|discriminate] end.
Qed.

(** The prover that computes the advice. *)
Lemma final_join_start : forall dbg w a b ai bi ac asl bc bsl d, good w -> hast w a ac asl d -> hast w b bc bsl d -> ai < length (t_cols a) -> bi < length (t_cols b) ->
  let ka := nth ai ac [] in let kb := nth bi bc [] in
  ((exists i, i < 2 ^ t_nv b /\ missing ka asl kb bsl i) /\ final_join_prove o dbg (ws w) a b ai bi = Err IOPInvalidParameters) \/
  ((forall i, i < 2 ^ t_nv b -> ~ missing ka asl kb bsl i) /\ exists w1 tr, step w w1 [] True /\ (forall cp vk v, lk cp vk w v -> lk cp vk w1 v) /\ length tr = 2 ^ t_nv b /\
    (forall i, i < 2 ^ t_nv b -> nth i bsl F0 = F1 -> nth i tr 0 < 2 ^ t_nv a /\ nth (nth i tr 0) asl F0 = F1 /\ nth (nth i tr 0) ka F0 = nth i kb F0) /\
    final_join_prove o dbg (ws w) a b ai bi = ' (ta, s) <- each_col (fun s x => tp_commit s x) (ws w1) (map (fun l => mkMle (t_nv b) (moved (t_nv b) tr bsl l)) ac) ;; final_join_prove_with_advice o dbg s a b ai bi ta).
Proof.
  intros dbg w a b ai bi ac asl bc bsl d G Ha Hb Hai Hbi ka kb.
  destruct (hast_len _ _ _ _ _ _ _ _ _ G Ha) as [La [Las _]]. destruct (hast_len _ _ _ _ _ _ _ _ _ G Hb) as [Lb [Lbs _]].
  destruct (cols_nth _ _ _ _ _ _ (proj1 Ha) Hai) as [ca [A1 [A2 A3]]]. destruct (cols_nth _ _ _ _ _ _ (proj1 Hb) Hbi) as [cb [B1 [B2 B3]]].
  pose proof (hasd_len _ _ _ _ _ _ _ _ G A2) as Lka. rewrite A3 in Lka. fold ka in Lka, A2. pose proof (hasd_len _ _ _ _ _ _ _ _ G B2) as Lkb. rewrite B3 in Lkb. fold kb in Lkb, B2.
  destruct (evals4_at o pp K D w ca (t_sel a) cb (t_sel b) ka asl kb bsl d G A2 (proj2 Ha) B2 (proj2 Hb)) as [w1 [w2 [w3 [w4 [E1 [E2 [E3 [E4 [S4 T4]]]]]]]]].
  destruct (row_index_ok ka asl ltac:(congruence)) as [m [M1 _]]. destruct (join_index_ok ka asl kb bsl ltac:(congruence) ltac:(congruence)) as [[[i [Hi Hm]] X]|[Hm [tr [X [Lt Htr]]]]]; unfold join_index_transform in X; rewrite M1 in X; cbn [bind] in X; rewrite Lkb in *.
  - left. split; [exists i; auto|]. unfold final_join_prove. unfold rnth at 1. rewrite A1. cbn [bind ounwrap]. rewrite E1. cbn [bind]. rewrite E2. cbn [bind]. rewrite M1. cbn [bind]. unfold rnth at 1. rewrite B1. cbn [bind ounwrap]. rewrite E3. cbn [bind]. rewrite E4. cbn [bind].
    rewrite Lkb, X. reflexivity.
  - right. split; [exact Hm|]. ons S4.
    destruct (moved_at dbg tr (t_sel b) bsl d (t_nv b) (t_nv a) (t_cols a) ac w4 [] ltac:(assumption) (proj2 Hb) eq_refl Lt ltac:(intros j Hj Hj1; rewrite Lka in Htr; apply Htr; assumption) (proj1 Ha)) as [w5 [E5 [S5 T5]]].
    exists w5, tr. split; [eapply step_imp; [exact (step_trans _ _ _ _ _ _ _ _ _ _ _ S4 S5)|tauto]|]. split; [auto|]. split; [exact Lt|]. split; [rewrite Lka in Htr; exact Htr|].
    unfold final_join_prove. unfold rnth at 1. rewrite A1. cbn [bind ounwrap]. rewrite E1. cbn [bind]. rewrite E2. cbn [bind]. rewrite M1. cbn [bind]. unfold rnth at 1. rewrite B1. cbn [bind ounwrap]. rewrite E3. cbn [bind]. rewrite E4. cbn [bind].
    rewrite Lkb, X. cbn [bind]. cbn [app] in E5. rewrite E5. cbn [bind]. reflexivity.
Qed.
Lemma final_join_at : forall dbg w a b ai bi ac asl bc bsl d, good w -> hast w a ac asl d -> hast w b bc bsl d -> boolean asl -> ai < length (t_cols a) -> bi < length (t_cols b) ->
  let ka := nth ai ac [] in let kb := nth bi bc [] in (forall i, i < 2 ^ t_nv b -> ~ missing ka asl kb bsl i) -> (dbg = true -> NoDup ka) -> 1 <= d -> 2 * (d + length (t_cols a) * d) + 1 <= D ->
  exists w1 tr ta r h ml, length tr = 2 ^ t_nv b /\ (forall i, i < 2 ^ t_nv b -> nth i bsl F0 = F1 -> nth i tr 0 < 2 ^ t_nv a /\ nth (nth i tr 0) asl F0 = F1 /\ nth (nth i tr 0) ka F0 = nth i kb F0) /\ length ta = length (t_cols a) /\
    let rs := powers r (length (t_cols a)) in let tcs := map (moved (t_nv b) tr bsl) ac in let il := aggregated rs ac asl in let ol := aggregated rs tcs bsl in let res := mkTable (ta ++ t_cols b) (t_sel b) in incl_weights ol bsl il asl ml /\
    (hast w1 res (tcs ++ bc) bsl d /\ incl (combine ta tcs) (wf w1)) /\ final_join_prove o dbg (ws w) a b ai bi = Ok (res, ws w1) /\
    ran_at w w1 (x <- final_join_prove o dbg (ws w) a b ai bi ;; Ok (snd x)) [r; h] ((clear h ol /\ clear h il) /\ lz (zipw Fmul (zipw Fsub (nth ai tcs []) kb) bsl))
      (fun debug v => returning (tcomm_of res) (final_join_verify o debug v (tcomm_of a) (tcomm_of b) ai bi)) (incl_fits ol bsl il asl ml h).
Proof.
  intros dbg w a b ai bi ac asl bc bsl d G Ha Hb Ba Hai Hbi ka kb Hm Hnd Hd HD. destruct (hast_len _ _ _ _ _ _ _ _ _ G Ha) as [La [Las Lac]].
  destruct (final_join_start dbg w a b ai bi ac asl bc bsl d G Ha Hb Hai Hbi) as [[[i [Hi Q]] _]|[_ [w1 [tr [S1 [T1 [Lt [Htr E1]]]]]]]]; [exfalso; exact (Hm i Hi Q)|]. fold ka kb in Htr. ons S1.
  set (tcs := map (moved (t_nv b) tr bsl) ac). assert (Kb : t_nv b <= K) by (destruct (hasd_at _ _ _ _ _ _ _ _ ltac:(eassumption) (proj2 Hb)) as [_ [_ [X _]]]; exact X).
  assert (Lc : Forall (fun l => length l = 2 ^ t_nv b) tcs) by (apply Forall_forall; intros l Hl; apply in_map_iff in Hl; destruct Hl as [x [<- _]]; apply moved_len).
  destruct (commits_at (t_nv b) d tcs w1 ltac:(assumption) Lc Kb ltac:(lia) Hd) as [w2 [ta [R2 [H3 I3]]]]. ong R2.
  assert (Lta : length ta = length (t_cols a)) by (rewrite <- Lac; transitivity (length tcs); [clear -H3; induction H3; cbn; congruence|apply map_length]).
  destruct (final_join_wa_at dbg w2 a b ai bi ta ac asl bc bsl tcs d ltac:(assumption) Ha Hb H3 Lta Ba Hai Hbi Hnd Hd HD) as [w3 [r [h [ml [HW [E3 R3]]]]]].
  pose proof (gives_then o pp K D _ _ _ _ _ _ _ _ _ _ (fun x => x <- final_join_prove_with_advice o dbg (snd x) a b ai bi (fst x) ;; Ok (snd x)) _ _ (fun ids debug v => returning (tcomm_of (mkTable (ta ++ t_cols b) (t_sel b))) (final_join_verify_with_advice o debug v (tcomm_of a) (tcomm_of b) ai bi ids)) _ R2 (at_ran _ _ _ _ _ _ _ _ _ _ _ R3)) as Y1. cbn [app] in Y1.
  pose proof (ran_after o pp K D unit w w1 (Ok (tt, ws w1)) tt (fun x => x <- each_col (fun s x => tp_commit s x) (snd x) (map (mkMle (t_nv b)) tcs) ;; x <- final_join_prove_with_advice o dbg (snd x) a b ai bi (fst x) ;; Ok (snd x)) _ _ _ _ eq_refl S1 T1 Y1) as Y0.
  assert (EE : final_join_prove o dbg (ws w) a b ai bi = Ok (mkTable (ta ++ t_cols b) (t_sel b), ws w3)).
  { rewrite E1. replace (map (fun l => mkMle (t_nv b) (moved (t_nv b) tr bsl l)) ac) with (map (mkMle (t_nv b)) tcs) by (unfold tcs; rewrite map_map; reflexivity). rewrite (proj1 R2). exact E3. }
  assert (R : ran_at w w3 (x <- final_join_prove o dbg (ws w) a b ai bi ;; Ok (snd x)) [r; h] ((clear h (aggregated (powers r (length (t_cols a))) tcs bsl) /\ clear h (aggregated (powers r (length (t_cols a))) ac asl)) /\ lz (zipw Fmul (zipw Fsub (nth ai tcs []) kb) bsl))
    (fun debug v => returning (tcomm_of (mkTable (ta ++ t_cols b) (t_sel b))) (final_join_verify o debug v (tcomm_of a) (tcomm_of b) ai bi)) (incl_fits (aggregated (powers r (length (t_cols a))) tcs bsl) bsl (aggregated (powers r (length (t_cols a))) ac asl) asl ml h)).
  { split; [rewrite EE; reflexivity|]. pose proof (step_trans _ _ _ _ _ _ _ _ _ _ _ S1 (step_trans _ _ _ _ _ _ _ _ _ _ _ (proj1 (proj2 R2)) (proj1 (proj2 R3)))) as S. cbn [app] in S. split; [eapply step_imp; [exact S|clear; tauto]|].
    intros cp vk N v debug Lk Cv. destruct R2 as [_ [S2 T2]]. destruct R3 as [_ [S3 T3]]. pose proof (cov_le _ _ _ _ _ _ _ _ (step_good _ _ _ _ _ _ _ _ S2) (step_le _ _ _ _ _ _ _ _ S3) Cv) as Cv2.
    destruct (T2 cp vk N v debug (T1 _ _ _ Lk) Cv2) as [v2 [X2 [L2 V2]]]. destruct (T3 cp vk N v2 debug L2 Cv) as [v3 [X3 [L3 V3]]]. exists v3. split; [|split; [exact L3|eapply vext_trans; eassumption]].
    rewrite <- X3. unfold final_join_verify. cbn [tcomm_of tc_cols]. rewrite map_length. replace (length (t_cols a)) with (length tcs) by (unfold tcs; rewrite map_length; exact Lac). rewrite X2. reflexivity. }
  exists w3, tr, ta, r, h, ml. split; [exact Lt|]. split; [exact Htr|]. split; [exact Lta|]. cbv zeta. fold tcs. split; [exact HW|]. split; [|split; [exact EE|exact R]].
  pose proof (step_le _ _ _ _ _ _ _ _ (proj1 (proj2 R3))) as L3. split; [|eapply incl_tran; [exact I3|exact (le_full _ _ L3)]]. split; cbn [t_cols t_sel]; [|eapply hasd_le; [eassumption|exact L3|exact (proj2 Hb)]]. eapply cols_le; [eassumption|exact L3|]. apply cols_app; [exact H3|exact (proj1 Hb)].
Qed.
Lemma final_join_dup : forall w a b ai bi ac asl bc bsl d, good w -> hast w a ac asl d -> hast w b bc bsl d -> ai < length (t_cols a) -> bi < length (t_cols b) -> 1 <= D -> ~ NoDup (nth ai ac []) -> final_join_prove o true (ws w) a b ai bi = Err IOPInvalidParameters.
Proof.
  intros w a b ai bi ac asl bc bsl d G Ha Hb Hai Hbi HD Hnd. destruct (final_join_start true w a b ai bi ac asl bc bsl d G Ha Hb Hai Hbi) as [[_ Q]|[_ [w1 [tr [S1 [T1 [Lt [Htr E1]]]]]]]]; [exact Q|]. ons S1.
  assert (Kb : t_nv b <= K) by (destruct (hasd_at _ _ _ _ _ _ _ _ ltac:(eassumption) (proj2 Hb)) as [_ [_ [X _]]]; exact X).
  destruct (commits_at (t_nv b) 1 (map (moved (t_nv b) tr bsl) ac) w1 ltac:(assumption) ltac:(apply Forall_forall; intros l Hl; apply in_map_iff in Hl; destruct Hl as [x [<- _]]; apply moved_len) Kb HD (le_n 1)) as [w2 [ta [R2 [H3 I3]]]]. ong R2.
  rewrite E1. rewrite map_map in R2. rewrite (proj1 R2). cbn [bind]. unfold final_join_prove_with_advice. destruct (cols_nth _ _ _ _ _ _ (proj1 Ha) Hai) as [c [Q1 [Q2 Q3]]]. destruct (evals_at o pp K D w2 c _ d ltac:(assumption) Q2) as [w5 [E5 _]].
  unfold rnth at 1. rewrite Q1. cbn [bind ounwrap]. rewrite E5. cbn [bind]. destruct (has_dup (nth ai ac [])) eqn:Q; [reflexivity|]. exfalso. apply Hnd. apply has_dup_iff. exact Q.
Qed.
End P.
