(** Every call of a session only adds: to the map of virtual commitments, to the claims and to the transcript. *)
From Coq Require Import String List Arith Lia Bool ZArith Znumtheory Permutation.
Import ListNotations.
From Verif Require Import Res ResLemmas Fp FSum SpecMle SpecPoly PolyLemmas SpecTracker SpecIop SpecRel ModelMle MleLemmas MleProofs ModelTranscript Pairing ModelKzg ModelBatch
  ModelProver ModelVerifier ModelAdvice ModelIop ProverHist VerifierHist SessHist CompileHist IopHist TmapLemmas LogDeriv BagLemmas IopWorld IopBasic IopVer IopSound IopSound2 SortSound IopClaims CompSound CompSound2 CompSound3 CompClaims.
Local Open Scope string_scope.
Local Open Scope list_scope.
Local Open Scope nat_scope.
#[local] Opaque track_virtual v_add_scalar.

Section P.
Context {p : positive} {E : pairing p}.
Notation comm := (gcar (PG1 E)).
Implicit Types (v : vtrk E).
Variable o : oracle p comm.
Hypothesis Hp : prime (Zpos p).
Hypothesis H2 : 2 < fsize p.

Lemma go_same : forall v v', vready v -> vt_next v' = vt_next v -> vt_virt v' = vt_virt v -> vt_zc v' = vt_zc v -> vt_sc v' = vt_sc v -> vt_tr v' = vt_tr v -> vt_mat v' = vt_mat v -> vgo v v' [].
Proof.
  intros v v' R H1 H3 H4 H5 H6 H7. constructor; [lia|intros i Hi; rewrite H3; apply R; lia|rewrite H3; apply sub_refl|exists []; rewrite app_nil_r; exact H4|exists []; rewrite app_nil_r; exact H5|exists []; rewrite app_nil_r, H6; auto|apply bound_same; [lia|exact H7|exists []; rewrite app_nil_r, H6; auto]].
Qed.
Lemma vstep_go : forall debug v ids op v' ids', vready v -> vstep o debug (v, ids) op = Ok (v', ids') -> exists ds, vgo v v' ds.
Proof.
  intros debug v hs op u hs' R E1.
  assert (Q : forall r, (forall id x, r = Ok (id, x) -> exists ds, vgo v x ds) -> vpush hs r = Ok (u, hs') -> exists ds, vgo v u ds).
  { intros r Hr Hu. unfold vpush in Hu. destruct r as [[id x]| |]; cbn [bind] in Hu; try discriminate. injection Hu as Hu _. subst. eapply Hr. reflexivity. }
  assert (Q1 : forall e id x, Ok (track_virtual v e) = Ok (id, x) -> exists ds, vgo v x ds) by (intros e id x Hx; apply Okinj in Hx; destruct (go_virtual v e id x R Hx) as [_ [_ [_ X]]]; eexists; exact X).
  unfold vstep in E1. destruct op; repeat match type of E1 with (bind (rnth hs ?i) _) = _ => destruct (rnth hs i); cbn [bind] in E1; try discriminate end.
  - eapply Q; [|exact E1]. apply Q1.
  - eapply Q; [|exact E1]. intros id x Hx. injection Hx as Hx Hx'. eexists. eapply put_go; try (subst x; reflexivity); [exact R| |]; [exists [EMsg "comm" (PComm c)]; subst x; split; reflexivity|]. apply (bound_comm v c id). unfold track_mat_comm, v_gen_id. cbn. f_equal; [exact Hx|exact Hx'].
  - eapply Q; [|exact E1]. intros id x Hx. destruct (go_transfer debug v id x R Hx) as [_ [_ [_ X]]]. eexists; exact X.
  - eapply Q; [|exact E1]. apply Q1.
  - eapply Q; [|exact E1]. apply Q1.
  - eapply Q; [|exact E1]. apply Q1.
  - eapply Q; [|exact E1]. intros id x Hx. apply Okinj in Hx. destruct (go_adds v _ _ id x R Hx) as [_ [_ [_ X]]]. eexists; exact X.
  - eapply Q; [|exact E1]. apply Q1.
  - eapply Q; [|exact E1]. apply Q1.
  - eapply Q; [|exact E1]. apply Q1.
  - destruct (vt_challenge o l v) as [[c x]| |] eqn:E2; cbn [bind] in E1; try discriminate. injection E1 as E1 _. subst. eexists. apply (go_chal o l v c u R E2).
  - injection E1 as E1 _. subst u. exists []. constructor; cbn; [lia|exact R|apply sub_refl|exists []; rewrite app_nil_r; reflexivity|exists []; rewrite app_nil_r; reflexivity|eexists; split; reflexivity|]. apply bound_same; cbn; [lia|reflexivity|]. eexists. split; reflexivity.
  - injection E1 as E1 _. subst u. eexists. apply go_sum. exact R.
  - destruct (get_prover_claimed_sum v _); cbn [bind] in E1; try discriminate. injection E1 as E1 _. subst u. eexists. apply go_sum. exact R.
  - injection E1 as E1 _. subst u. eexists. apply go_zero. exact R.
  - injection E1 as E1 _. subst u. exists []. apply go_same; try reflexivity. exact R.
Qed.
Lemma presc_perm_go : forall debug v v' fx gx perm, vready v -> presc_perm_verify o debug v fx gx perm = Ok v' -> exists ds, vgo v v' ds.
Proof.
  intros debug v v' fx gx perm R H. unfold presc_perm_verify in H. pose proof (vgo_refl v R) as G. vchal G H g. vvirt G H. vvirt G H. vtrans G H. vtrans G H. do 6 vvirt G H.
  destruct (bag_eq_verify _ _ _ _ _) as [v1| |] eqn:E1; cbn [bind] in H; try discriminate. destruct (bag_eq_sound o Hp H2 _ _ _ _ _ (y_ready _ _ _ G) E1) as [g' [G1 _]]. vjoin G G1.
  apply Okinj in H. subst v'. eexists. eapply vgo_trans; [eapply vgo_trans; [exact G|apply go_zero; exact (y_ready _ _ _ G)]|apply go_zero]. exact (y_ready _ _ _ G).
Qed.
Lemma final_join_wa_go : forall debug v v' a b ai bi ta t, vready v -> final_join_verify_with_advice o debug v a b ai bi ta = Ok (t, v') -> exists ds, vgo v v' ds.
Proof.
  intros debug v v' a b ai bi ta t R H. unfold final_join_verify_with_advice in H. cbv zeta in H. cbn [tc_cols tc_sel tc_nv] in H. destruct (slice_to _ _) as [tc| |]; cbn [bind] in H; try discriminate.
  destruct (index_transform_verify _ _ _ _ _) as [v1| |] eqn:E1 in H; cbn [bind] in H; try discriminate. destruct (index_transform_says o Hp H2 _ _ _ _ _ R E1) as [r [h [m [_ [G _]]]]].
  destruct (rnth _ ai) as [ja| |]; cbn [bind] in H; try discriminate. destruct (rnth _ _) as [jb| |]; cbn [bind] in H; try discriminate.
  vvirt G H. vvirt G H. vzero G H. apply Okinj in H. inversion H; subst. eexists. exact G.
Qed.
Lemma each_comm_go : forall (f : nat -> vexp p) l v cs v', vready v -> each_comm (fun v c => track_virtual v (f c)) v l = (cs, v') ->
  vgo v v' [] /\ Forall2 (fun c c' => mget (vt_virt v') c' = Some (f c)) l cs.
Proof.
  intros f l. induction l as [|c l IH]; intros v cs v' R H; cbn [each_comm] in H.
  - injection H as <- <-. split; [apply vgo_refl; exact R|constructor].
  - destruct (track_virtual v (f c)) as [h v1] eqn:E1. destruct (each_comm _ v1 l) as [hs v2] eqn:E2. injection H as <- <-. destruct (go_virtual v (f c) h v1 R E1) as [_ [_ [M1 G1]]].
    destruct (IH v1 hs v2 (y_ready _ _ _ G1) E2) as [G2 M2]. split; [exact (vgo_trans _ _ _ _ _ G1 G2)|]. constructor; [apply (y_sub _ _ _ G2); exact M1|exact M2].
Qed.
Lemma cross_go : forall v v' a b t, vready v -> cross_verify v a b = (t, v') -> exists ds, vgo v v' ds.
Proof.
  intros v v' a b t R H. unfold cross_verify in H.
  destruct (each_comm _ v (tc_cols a)) as [ia v1] eqn:E1. destruct (each_comm_go _ _ _ _ _ R E1) as [G _]. destruct (each_comm _ v1 (tc_cols b)) as [ib v2] eqn:E2. destruct (each_comm_go _ _ _ _ _ (y_ready _ _ _ G) E2) as [G2 _]. vjoin G G2.
  vvirt G H. vvirt G H. vvirt G H. inversion H; subst. eexists. exact G.
Qed.
Lemma vcall_go : forall v v', vready v -> vcall o v v' -> exists ds, vgo v v' ds.
Proof.
  intros v v' R H. destruct H.
  - eapply vstep_go; eauto.
  - destruct (selector_sound _ _ _ R H) as [G _]. eexists; exact G.
  - destruct (no_zeros_sound _ _ _ _ R H) as [G _]. eexists; exact G.
  - destruct (multitool_lists o Hp H2 _ _ _ _ _ _ _ R H) as [g [G _]]. eexists; exact G.
  - destruct (bag_eq_sound o Hp H2 _ _ _ _ _ R H) as [g [G _]]. eexists; exact G.
  - destruct (bag_sum_sound o Hp H2 _ _ _ _ _ _ R H) as [g [G _]]. eexists; exact G.
  - destruct (inclusion_sound o Hp H2 _ _ _ _ _ R H) as [g [_ [G _]]]. eexists; exact G.
  - destruct (inclusion_wa_sound o Hp H2 _ _ _ _ _ _ R H) as [g [G _]]. eexists; exact G.
  - eapply presc_perm_go; eauto.
  - destruct (strict_sort_sound o Hp H2 _ _ _ _ _ R H) as [g [g1 [g2 [q [m [_ [_ [_ [_ [G _]]]]]]]]]]. eexists; exact G.
  - destruct (supp_says o Hp H2 _ _ _ _ _ _ R H) as [m [h [g [g1 [g2 [q [mm [_ [_ [_ [G _]]]]]]]]]]]. eexists; exact G.
  - destruct (supp_wa_says o Hp H2 _ _ _ _ _ _ _ R H) as [h [g [g1 [g2 [q [mm HH]]]]]]. decompose [and] HH. match goal with X : sound _ _ _ _ |- _ => destruct X as [G _] end. eexists; exact G.
  - destruct (disjoint_says' o Hp H2 _ _ _ _ _ _ R H) as [got [ds [_ [G _]]]]. eexists; exact G.
  - pose proof (disjoint_wa_says o Hp H2 _ _ _ _ _ _ _ _ _ R H) as HH. repeat match goal with X : ex _ |- _ => destruct X | X : _ /\ _ |- _ => destruct X end. match goal with X : sound _ _ _ _ |- _ => destruct X as [G _] | _ => idtac end. eexists; eassumption.
  - pose proof (set_disjoint_says o Hp H2 _ _ _ _ _ _ R H) as HH. cbv zeta in HH. repeat match goal with X : ex _ |- _ => destruct X | X : _ /\ _ |- _ => destruct X end. match goal with X : sound _ _ _ _ |- _ => destruct X as [G _] | _ => idtac end. eexists; eassumption.
  - pose proof (set_union_says o Hp H2 _ _ _ _ _ _ _ R H) as HH. cbv zeta in HH. repeat match goal with X : ex _ |- _ => destruct X | X : _ /\ _ |- _ => destruct X end. match goal with X : sound _ _ _ _ |- _ => destruct X as [G _] | _ => idtac end. eexists; eassumption.
  - pose proof (set_diff_says o Hp H2 _ _ _ _ _ _ _ _ _ R H) as HH. cbv zeta in HH. repeat match goal with X : ex _ |- _ => destruct X | X : _ /\ _ |- _ => destruct X end. match goal with X : sound _ _ _ _ |- _ => destruct X as [G _] | _ => idtac end. eexists; eassumption.
  - pose proof (set_intersect_says o Hp H2 _ _ _ _ _ _ _ _ _ R H) as HH. cbv zeta in HH. repeat match goal with X : ex _ |- _ => destruct X | X : _ /\ _ |- _ => destruct X end. match goal with X : sound _ _ _ _ |- _ => destruct X as [G _] | _ => idtac end. eexists; eassumption.
  - eapply cross_go; eauto.
  - pose proof (row_agg_says H2 _ _ _ _ _ R H) as HH. repeat match goal with X : ex _ |- _ => destruct X | X : _ /\ _ |- _ => destruct X end. match goal with X : sound _ _ _ _ |- _ => destruct X as [G _] | _ => idtac end. eexists; eassumption.
  - destruct (index_transform_says o Hp H2 _ _ _ _ _ R H) as [r [h [m [_ [G _]]]]]. eexists; exact G.
  - pose proof (join_reduction_says o Hp H2 _ _ _ _ _ _ _ _ R H) as HH. cbv zeta in HH. repeat match goal with X : ex _ |- _ => destruct X | X : _ /\ _ |- _ => destruct X end. match goal with X : sound _ _ _ _ |- _ => destruct X as [G _] | _ => idtac end. eexists; eassumption.
  - pose proof (final_join_says o Hp H2 _ _ _ _ _ _ _ _ R H) as HH. repeat match goal with X : ex _ |- _ => destruct X | X : _ /\ _ |- _ => destruct X end. match goal with X : sound _ _ _ _ |- _ => destruct X as [G _] | _ => idtac end. eexists; eassumption.
  - eapply final_join_wa_go; eauto.
  - pose proof (group_by_says o Hp H2 _ _ _ _ _ _ _ R H) as HH. repeat match goal with X : ex _ |- _ => destruct X | X : _ /\ _ |- _ => destruct X end. match goal with X : sound _ _ _ _ |- _ => destruct X as [G _] | _ => idtac end. eexists; eassumption.
Qed.
Lemma vcalls_go : forall v v', vcalls o v v' -> vready v -> exists ds, vgo v v' ds.
Proof.
  intros v v' H R. induction H as [v|v v' v'' H IH Hc]; [exists []; apply vgo_refl; exact R|]. destruct (IH R) as [ds G]. destruct (vcall_go _ _ (y_ready _ _ _ G) Hc) as [ds' G']. exists (ds ++ ds'). eapply vgo_trans; eauto.
Qed.
Lemma session_ready : forall v, in_session o v -> vready v.
Proof. intros v [vk [cp H]]. destruct (vcalls_go _ _ H) as [ds G]; [intros i _; reflexivity|exact (y_ready _ _ _ G)]. Qed.
Lemma calls_later : forall v v', vcalls o v v' -> vready v -> exists ds, vgo v v' ds. Proof. exact vcalls_go. Qed.
End P.

Section R.
Context {p : positive} {E : pairing p}.
Implicit Types (v : vtrk E).
Variable o : oracle p (gcar (PG1 E)).
Lemma vcalls_app : forall v v' v'', vcalls o v v' -> vcalls o v' v'' -> vcalls o v v''.
Proof. intros v v' v'' H H'. induction H' as [|? ? ? ? IH Hc]; [exact H|]. eapply vcs_more; [exact (IH H)|exact Hc]. Qed.
Lemma run_session : forall debug vk cp vops v ids, vrun o debug vk cp vops = Ok (v, ids) -> in_session o v.
Proof.
  intros debug vk cp vops v ids H. exists vk, cp. unfold vrun in H.
  assert (G : forall ops w v ids, foldM (vstep o debug) w ops = Ok (v, ids) -> vcalls o (fst w) v).
  { clear. intros ops. induction ops as [|op ops IH]; intros [v hs] v' ids H; [cbn in H; injection H as H _; subst; constructor|].
    cbn [foldM] in H. destruct (vstep o debug (v, hs) op) as [[u hs']| |] eqn:E1; cbn [bind] in H; try discriminate. eapply vcalls_app; [eapply vcs_more; [constructor|eapply vc_tracker; exact E1]|exact (IH (u, hs') v' ids H)]. }
  exact (G vops _ v ids H).
Qed.
Lemma session_calls : forall v v', in_session o v -> vcalls o v v' -> in_session o v'.
Proof. intros v v' [vk [cp H]] H'. exists vk, cp. eapply vcalls_app; eauto. Qed.
End R.
