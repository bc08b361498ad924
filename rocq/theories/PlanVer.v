(** The verifier's run of a plan is a session. *)
From Coq Require Import String List Arith Lia Bool ZArith Znumtheory Permutation Sorted.
Import ListNotations.
From Verif Require Import Res ResLemmas Fp FSum SpecMle SpecKzg SpecPoly PolyLemmas SpecSumcheck SpecBatch SpecTracker SpecIop SpecRel SpecJoin ModelMle MleLemmas MleProofs MleExtra ModelVp ModelTranscript ModelSumcheck
  Pairing ModelKzg ModelBatch ModelProver ModelVerifier ModelAdvice ModelIop ProverHist VerifierHist CompileHist SessHist IopHist IopRes TmapLemmas ProverProofs HistExtra LockProofs
  CompileMain CompileSound LogDeriv BagLemmas AdviceProofs AdviceProofs2 AdviceProofs5 IopWorld IopMain IopBasic IopMulti IopRuns IopSort IopVer IopSound IopSound2 SortSound IopCheck IopComp IopClaims CompSound CompSound2 CompSound3 CompClaims RelClaims IopComp2 IopComp3 IopComp4 CompCheck CompCheck2 SessProofs PlanHist.
Local Open Scope string_scope.
Local Open Scope list_scope.
Local Open Scope nat_scope.

#[local] Opaque track_virtual v_add_scalar.

(** ** The verifier's run of a plan *)
Section V.
Context {p : positive} {E : pairing p}.
Notation comm := (gcar (PG1 E)).
Implicit Types (v : vtrk E) (A : reading (p:=p)).
Variable o : oracle p comm.
Lemma nothing_ok : forall S (r : res S) hs s, nothing r = Ok (hs, s) -> r = Ok s /\ hs = []. Proof. intros S [x| |] hs s H; cbn in H; try discriminate. injection H as <- <-. auto. Qed.
Lemma ids_ok : forall (r : res (tablec * vtrk E)) hs v, ids_of r = Ok (hs, v) -> exists t, r = Ok (t, v). Proof. intros [[t v1]| |] hs v H; cbn in H; try discriminate. injection H as _ <-. eauto. Qed.
Lemma one_call : forall v v', vcall o v v' -> vcalls o v v'. Proof. intros v v' H. eapply vcs_more; [constructor|exact H]. Qed.
Lemma transfer_call : forall debug v id v', v_transfer debug v = Ok (id, v') -> vcall o v v'.
Proof. intros debug v id v' H. apply (vc_tracker o debug [] [id] VONext). cbn [vstep]. unfold v_transfer in H. destruct (transfer_prover_comm debug v (v_get_next_id v)) as [[id' v1]| |]; cbn [bind] in H |- *; try discriminate. injection H as <- <-. reflexivity. Qed.
Lemma take_calls : forall debug ns v hs v', take_over debug v ns = Ok (hs, v') -> vcalls o v v'.
Proof.
  intros debug ns. induction ns as [|n ns IH]; intros v hs v' H; cbn [take_over] in H; [injection H as _ <-; constructor|].
  destruct (v_transfer debug v) as [[id u]| |] eqn:Q; cbn [bind] in H; try discriminate. destruct (take_over debug u ns) as [[hs1 u1]| |] eqn:Q1; cbn [bind] in H; try discriminate. injection H as _ <-.
  eapply vcalls_app; [apply one_call; eapply transfer_call; exact Q|eapply IH; exact Q1].
Qed.
Lemma verify1_call : forall debug v t hs v', verify1 o debug v t = Ok (hs, v') -> vcalls o v v'.
Proof.
  intros debug v t hs v' H. destruct t; cbn [verify1] in H.
  - apply one_call. apply (vc_tracker o debug [] ([match hs with h :: _ => tp_id h | _ => 0 end]) VONext). cbn [vstep]. unfold v_transfer in H. destruct (transfer_prover_comm debug v (v_get_next_id v)) as [[id v1]| |]; cbn [bind one_id] in H; try discriminate. cbn in H. injection H as <- <-. reflexivity.
  - apply one_call. apply (vc_tracker o debug [tp_id a; tp_id b] ([tp_id a; tp_id b] ++ [fst (add_comms v (tp_id a) (tp_id b))]) (VOAdd 0 1)). injection H as _ <-. cbn [vstep]. unfold rnth. cbn [nth_error ounwrap bind]. unfold vpush. destruct (add_comms v (tp_id a) (tp_id b)). reflexivity.
  - apply one_call. apply (vc_tracker o debug [tp_id a; tp_id b] ([tp_id a; tp_id b] ++ [fst (sub_comms v (tp_id a) (tp_id b))]) (VOSub 0 1)). injection H as _ <-. cbn [vstep]. unfold rnth. cbn [nth_error ounwrap bind]. unfold vpush. destruct (sub_comms v (tp_id a) (tp_id b)). reflexivity.
  - apply one_call. apply (vc_tracker o debug [tp_id a; tp_id b] ([tp_id a; tp_id b] ++ [fst (mul_comms v (tp_id a) (tp_id b))]) (VOMul 0 1)). injection H as _ <-. cbn [vstep]. unfold rnth. cbn [nth_error ounwrap bind]. unfold vpush. destruct (mul_comms v (tp_id a) (tp_id b)). reflexivity.
  - apply one_call. apply (vc_tracker o debug [tp_id a] ([tp_id a] ++ [fst (v_add_scalar v (tp_id a) c)]) (VOAddS 0 c)). injection H as _ <-. cbn [vstep]. unfold rnth. cbn [nth_error ounwrap bind]. unfold vpush. destruct (v_add_scalar v (tp_id a) c). reflexivity.
  - apply one_call. apply (vc_tracker o debug [tp_id a] ([tp_id a] ++ [fst (v_mul_scalar v (tp_id a) c)]) (VOMulS 0 c)). injection H as _ <-. cbn [vstep]. unfold rnth. cbn [nth_error ounwrap bind]. unfold vpush. destruct (v_mul_scalar v (tp_id a) c). reflexivity.
  - apply one_call. apply nothing_ok in H. destruct H as [H _]. injection H as <-. apply (vc_tracker o debug [tp_id a] [tp_id a] (VOZero 0)). reflexivity.
  - apply one_call. apply nothing_ok in H. destruct H as [H _]. eapply vc_selector. exact H.
  - apply one_call. apply nothing_ok in H. destruct H as [H _]. eapply vc_no_zeros. exact H.
  - apply one_call. apply nothing_ok in H. destruct H as [H _]. eapply vc_multitool. exact H.
  - apply one_call. apply nothing_ok in H. destruct H as [H _]. eapply vc_bag_eq. exact H.
  - apply one_call. apply nothing_ok in H. destruct H as [H _]. eapply vc_bag_sum. exact H.
  - apply one_call. apply nothing_ok in H. destruct H as [H _]. eapply vc_inclusion. exact H.
  - apply one_call. apply nothing_ok in H. destruct H as [H _]. eapply vc_inclusion_wa. exact H.
  - apply one_call. apply nothing_ok in H. destruct H as [H _]. eapply vc_presc_perm. exact H.
  - apply one_call. apply nothing_ok in H. destruct H as [H _]. eapply vc_sort. exact H.
  - apply one_call. apply nothing_ok in H. destruct H as [H _]. eapply vc_supp. exact H.
  - apply one_call. apply nothing_ok in H. destruct H as [H _]. eapply vc_disjoint. exact H.
  - apply one_call. apply nothing_ok in H. destruct H as [H _]. eapply vc_set_disjoint. exact H.
  - apply one_call. apply nothing_ok in H. destruct H as [H _]. eapply vc_set_union. exact H.
  - apply one_call. apply nothing_ok in H. destruct H as [H _]. eapply vc_set_diff. exact H.
  - apply one_call. apply nothing_ok in H. destruct H as [H _]. eapply vc_set_intersect. exact H.
  - apply one_call. apply nothing_ok in H. destruct H as [H _]. eapply vc_index_transform. exact H.
  - apply one_call. apply nothing_ok in H. destruct H as [H _]. eapply vc_join_reduction. exact H.
  - apply one_call. apply ids_ok in H. destruct H as [r H]. eapply vc_final_join. exact H.
  - apply one_call. apply ids_ok in H. destruct H as [r H]. eapply vc_group_by. exact H.
  - apply one_call. apply (vc_tracker o debug [tp_id a] ([tp_id a] ++ [fst (v_increase_nv_front v (tp_id a) m)]) (VOFront 0 m)). injection H as _ <-. cbn [vstep]. unfold rnth. cbn [nth_error ounwrap bind]. unfold vpush. destruct (v_increase_nv_front v (tp_id a) m). reflexivity.
  - apply one_call. apply (vc_tracker o debug [tp_id a] ([tp_id a] ++ [fst (v_increase_nv_back v (tp_id a) m)]) (VOBack 0 m)). injection H as _ <-. cbn [vstep]. unfold rnth. cbn [nth_error ounwrap bind]. unfold vpush. destruct (v_increase_nv_back v (tp_id a) m). reflexivity.
  - apply one_call. apply nothing_ok in H. destruct H as [H _]. eapply vc_supp_wa. exact H.
  - apply one_call. apply nothing_ok in H. destruct H as [H _]. eapply vc_disjoint_wa. exact H.
  - apply one_call. apply ids_ok in H. destruct H as [r H]. eapply vc_final_join_wa. exact H.
  - apply one_call. apply ids_ok in H. destruct H as [r H]. injection H as H. eapply vc_cross. exact H.
  - eapply take_calls. exact H.
  - destruct (take_over debug v (split_shape a b)) as [[hs1 v1]| |] eqn:Q; cbn [bind] in H; try discriminate. injection H as _ <-. eapply take_calls. exact Q.
Qed.
Lemma walk_calls : forall debug pl v l v', walk o debug pl v l v' -> vcalls o v v'.
Proof. intros debug pl v l v' H. induction H as [|t next v hs v1 rest v2 H _ IH]; [constructor|]. eapply vcalls_app; [exact (verify1_call _ _ _ _ _ H)|exact IH]. Qed.
Lemma plan_walk : forall debug pl v v', in_session o v -> verify_plan o pl debug v = Ok v' ->
  exists l, walk o debug pl v l v' /\ Forall (fun x => let '(u, t, hs, u') := x in in_session o u /\ verify1 o debug u t = Ok (hs, u') /\ vcalls o u' v') l.
Proof.
  intros debug. induction pl as [|t next IH]; intros v v' S H; cbn [verify_plan] in H; [injection H as <-; exists []; split; constructor|].
  destruct (verify1 o debug v t) as [[hs v1]| |] eqn:E1; cbn [bind] in H; try discriminate. pose proof (verify1_call _ _ _ _ _ E1) as C'.
  destruct (IH hs v1 v' (session_calls o v v1 S C') H) as [l [W L]]. exists ((v, t, hs, v1) :: l). split; [econstructor; eassumption|]. constructor; [|exact L]. split; [exact S|]. split; [exact E1|exact (walk_calls _ _ _ _ _ W)].
Qed.

Hypothesis Hp : prime (Zpos p).
Hypothesis H2 : 2 < fsize p.
Lemma reads_later : forall v v', in_session o v -> vcalls o v v' -> forall A N id n l, reads A N v id n l -> reads A N v' id n l.
Proof. intros v v' S C A N id n l. apply reads_sub. destruct (vcalls_go o Hp H2 v v' C (session_ready o Hp H2 v S)) as [ds G]. exact (y_sub _ _ _ G). Qed.
Lemma pointwise_nth : forall (f : F p -> F p -> F p) a b j, j < length a -> j < length b -> nth j (pointwise f a b) F0 = f (nth j a F0) (nth j b F0).
Proof.
  intros f a b j Ha Hb. unfold pointwise. rewrite (nth_indep _ F0 ((fun xy => f (fst xy) (snd xy)) (F0, F0))) by (rewrite map_length, combine_length; lia). rewrite (map_nth (fun xy => f (fst xy) (snd xy))).
  assert (Q : forall (u w : list (F p)) i, i < length u -> i < length w -> nth i (combine u w) (F0, F0) = (nth i u F0, nth i w F0)) by (clear; induction u as [|x u IH]; intros [|y w] [|i] Hu Hw; cbn in *; try lia; [reflexivity|apply IH; lia]).
  rewrite Q by assumption. reflexivity.
Qed.
Lemma two_reads : forall v, in_session o v -> forall A N a b la lb (f : F p -> F p -> F p) e id v', track_virtual v e = (id, v') -> tp_nv a = tp_nv b -> reads A N v (tp_id a) (tp_nv a) la -> reads A N v (tp_id b) (tp_nv b) lb ->
  (forall m M j x y, mget m id = Some e -> means A m (tp_id a) M j x -> means A m (tp_id b) M j y -> means A m id M j (f x y)) -> reads A N v' id (tp_nv a) (pointwise f la lb).
Proof.
  intros v S A N a b la lb f e id v' Ht Hn Ra Rb Hm. destruct (go_virtual v e id v' (session_ready o Hp H2 v S) Ht) as [_ [_ [Hi G]]]. rewrite <- Hn in Rb. destruct (reads_sub A N v v' _ _ _ (y_sub _ _ _ G) Ra) as [R1 [R2 R3]], (reads_sub A N v v' _ _ _ (y_sub _ _ _ G) Rb) as [_ [R5 R6]].
  split; [exact R1|]. split; [unfold pointwise; rewrite map_length, combine_length; lia|]. intros j Hj. pose proof (mod_lt j (tp_nv a)). rewrite pointwise_nth by lia. apply Hm; auto.
Qed.
Lemma one_reads : forall v v' A N a la (f : F p -> F p) id, sub_map (vt_virt v) (vt_virt v') -> reads A N v (tp_id a) (tp_nv a) la ->
  (forall M j x, means A (vt_virt v') (tp_id a) M j x -> means A (vt_virt v') id M j (f x)) -> reads A N v' id (tp_nv a) (map f la).
Proof.
  intros v v' A N a la f id Hs Ra Hm. destruct (reads_sub A N v v' _ _ _ Hs Ra) as [R1 [R2 R3]]. split; [exact R1|]. split; [rewrite map_length; exact R2|]. intros j Hj. pose proof (mod_lt j (tp_nv a)).
  rewrite (nth_indep (map _ la) F0 (f F0)) by (rewrite map_length; lia). rewrite map_nth. apply Hm. auto.
Qed.
Lemma columns_read : forall debug v, in_session o v -> forall A N a b la lb c, tp_nv a = tp_nv b -> reads A N v (tp_id a) (tp_nv a) la -> reads A N v (tp_id b) (tp_nv b) lb ->
  let column_at t l := exists h v', verify1 o debug v t = Ok ([h], v') /\ tp_nv h = tp_nv a /\ reads A N v' (tp_id h) (tp_nv h) l in
  column_at (TAdd a b) (pointwise Fadd la lb) /\ column_at (TSub a b) (pointwise Fsub la lb) /\ column_at (TMul a b) (pointwise Fmul la lb) /\
  column_at (TAddS a c) (map (fun x => Fadd x c) la) /\ column_at (TMulS a c) (map (fun x => Fmul x c) la).
Proof.
  intros debug v S A N a b la lb c Hn Ra Rb col. pose proof (session_ready o Hp H2 v S) as R. subst col; cbv beta; cbn [verify1]. unfold one_id. repeat split.
  - destruct (add_comms v (tp_id a) (tp_id b)) as [id v'] eqn:Q. exists (mkTp id (tp_nv a)), v'. split; [reflexivity|]. split; [reflexivity|]. cbn [tp_id tp_nv]. eapply two_reads; [exact S|exact Q|exact Hn|exact Ra|exact Rb|]. intros. eapply me_add; eassumption.
  - destruct (sub_comms v (tp_id a) (tp_id b)) as [id v'] eqn:Q. exists (mkTp id (tp_nv a)), v'. split; [reflexivity|]. split; [reflexivity|]. cbn [tp_id tp_nv]. eapply two_reads; [exact S|exact Q|exact Hn|exact Ra|exact Rb|]. intros. eapply me_sub; eassumption.
  - destruct (mul_comms v (tp_id a) (tp_id b)) as [id v'] eqn:Q. exists (mkTp id (tp_nv a)), v'. split; [reflexivity|]. split; [reflexivity|]. cbn [tp_id tp_nv]. eapply two_reads; [exact S|exact Q|exact Hn|exact Ra|exact Rb|]. intros. eapply me_mul; eassumption.
  - destruct (v_add_scalar v (tp_id a) c) as [id v'] eqn:Q. exists (mkTp id (tp_nv a)), v'. split; [reflexivity|]. split; [reflexivity|]. cbn [tp_id tp_nv]. destruct (go_adds v _ _ id v' R Q) as [_ [_ [Hi G]]]. eapply one_reads; [exact (y_sub _ _ _ G)|exact Ra|]. intros. eapply me_adds; eassumption.
  - destruct (v_mul_scalar v (tp_id a) c) as [id v'] eqn:Q. exists (mkTp id (tp_nv a)), v'. split; [reflexivity|]. split; [reflexivity|]. cbn [tp_id tp_nv]. destruct (go_virtual v _ id v' R Q) as [_ [_ [Hi G]]]. eapply one_reads; [exact (y_sub _ _ _ G)|exact Ra|].
    intros M j x Hx. replace (x * c)%F with (c * x)%F by (rewrite (Rmul_comm F_ring); reflexivity). eapply me_muls; eassumption.
Qed.
Lemma zero_read : forall debug v v' v'', in_session o v -> vcalls o v' v'' -> forall A N, claims_hold A N v'' -> forall a hs l, verify1 o debug v (TZero a) = Ok (hs, v') -> reads A N v (tp_id a) (tp_nv a) l -> Forall (fun y => y = F0) l.
Proof.
  intros debug v v' v'' S C A N [HC _] a hs l H [R1 [R2 R3]]. cbn [verify1] in H. apply nothing_ok in H. destruct H as [H _]. injection H as <-. pose proof (session_ready o Hp H2 v S) as R. pose proof (go_zero v (tp_id a) R) as G.
  destruct (vcalls_go o Hp H2 _ _ C (y_ready _ _ _ G)) as [ds G']. apply Forall_forall. intros x Hx. apply (In_nth _ _ F0) in Hx. destruct Hx as [j [Hj Hx]]. pose proof (Nat.pow_le_mono_r 2 (tp_nv a) N ltac:(lia) R1).
  destruct (y_zc _ _ _ G') as [z Hz]. specialize (HC (tp_id a) ltac:(rewrite Hz; apply in_or_app; left; cbn; apply in_or_app; right; left; reflexivity) j ltac:(lia)). specialize (R3 j ltac:(lia)). rewrite Nat.mod_small in R3 by lia.
  rewrite Hx in R3. eapply means_fun; [eapply means_mono; [|exact R3]|exact HC]. intros i e X. apply (y_sub _ _ _ G'), (y_sub _ _ _ G), X.
Qed.
End V.
