(** What the verifiers do when a challenge is one of the points the round messages are sampled at. *)
From Coq Require Import String List Arith Lia Bool ZArith Znumtheory.
Import ListNotations.
From Verif Require Import Res ResLemmas Fp FSum SpecMle SpecVp SpecPoly SpecSumcheck SpecBatch SpecKzg ModelMle MleLemmas MleProofs ModelVp VpHist VpProofs VpExtra ModelTranscript ModelSumcheck InterpProofs
  SumcheckHist SumcheckProofs SumcheckVerify ZerocheckProofs TranscriptProofs SumcheckExtra Pairing ModelKzg ModelBatch KzgHist KzgProofs BatchHist BatchProofs BatchExtra.
Local Open Scope string_scope.
Local Open Scope list_scope.
Local Open Scope nat_scope.

Section N.
Context {p : positive}.
Hypothesis Hp : prime (Zpos p).
Notation F := (F p).

Lemma nonnode_dec : forall k (c : F), nonnode k c \/ exists i, i < k /\ c = ofN i.
Proof.
  intros k c. induction k as [|k [IH|[i [H1 H2]]]]; [left; intros i Hi; lia| |right; exists i; split; [lia|exact H2]].
  destruct (Feqb c (ofN k)) eqn:Q; [right; exists k; split; [lia|apply Feqb_eq; exact Q]|]. left. apply Feqb_neq in Q. intros i Hi.
  destruct (Nat.eq_dec i k) as [->|]; [exact Q|apply IH; lia].
Qed.
Lemma all_nonnode_dec : forall k (cs : list F), (forall c, In c cs -> nonnode k c) \/ exists c i, In c cs /\ i < k /\ c = ofN i.
Proof.
  intros k cs. induction cs as [|c cs [IH|[x [i [H1 H2]]]]]; [left; intros c []| |right; exists x, i; split; [right; exact H1|exact H2]].
  destruct (nonnode_dec k c) as [Q|[i Q]]; [left; intros x [<-|Hx]; auto|right; exists c, i; split; [left; reflexivity|exact Q]].
Qed.

Lemma mapM_panics : forall {A B} (f : A -> res B) l, (forall a e, In a l -> f a <> Err e) -> (exists a, In a l /\ f a = Panic) -> mapM f l = Panic.
Proof.
  intros A B f l. induction l as [|a l IH]; intros He [x [Hx Hq]]; [contradiction|]. cbn [mapM]. pose proof (He a) as Ha. destruct (f a) as [b|e|] eqn:Qa; cbn [bind].
  - destruct Hx as [->|Hx]; [congruence|]. rewrite IH; [reflexivity|intros y e Hy; apply He; right; exact Hy|exists x; auto].
  - exfalso. exact (Ha e (or_introl eq_refl) eq_refl).
  - reflexivity.
Qed.
Lemma in_combine_ex : forall {A B} (a : list A) (b : list B) y, length a = length b -> In y b -> exists x, In (x, y) (combine a b).
Proof.
  intros A B a. induction a as [|x a IH]; intros [|z b] y L H; try discriminate; [contradiction|]. injection L as L. destruct H as [->|H]; [exists x; left; reflexivity|].
  destruct (IH b y L H) as [w Hw]. exists w. right. exact Hw.
Qed.

Section Sum.
Context {C : Type}.
Implicit Types (o : oracle p C) (t : tr p C).

Lemma sc_verify_node : forall o c pt ms d n t, d + 1 <= fsize p -> 0 < n -> n <= length ms -> Forall (fun m => length m = d + 1) (firstn n ms) ->
  (exists x i, In x (fst (run_msgs o (firstn n ms) (append "aux info" (PAux d n) t))) /\ i < d + 1 /\ x = ofN i) -> sc_verify o c (mkProof pt ms) d n t = Panic.
Proof.
  intros o c pt ms d n t Hf Hn Hl Hm Hx. pose proof (sc_verify_unfold o c pt ms d n t Hn Hl) as Q. pose proof (run_msgs_length o (firstn n ms) (append "aux info" (PAux d n) t)) as L.
  destruct (run_msgs o (firstn n ms) _) as [cs t']. rewrite Q. clear Q. cbn [fst] in Hx, L.
  unfold check_and_generate_subclaim. cbn [vs_finished vs_polys vs_nv vs_deg vs_chals ensure bind]. rewrite firstn_length, Nat.min_l, Nat.eqb_refl by exact Hl. cbn [ensure bind].
  rewrite mapM_panics; [reflexivity| |].
  - intros [m y] e Hi. cbn [fst snd]. pose proof (proj1 (Forall_forall _ _) Hm m (in_combine_l _ _ _ _ Hi)) as Lm. cbn beta in Lm.
    rewrite Lm, Nat.eqb_refl. cbn [ensure bind]. rewrite (interpolate_total Hp); [|intros ->; cbn in Lm; lia|lia]. destruct (existsb _ _); discriminate.
  - destruct Hx as [x [i [X1 [X2 X3]]]]. destruct (in_combine_ex (firstn n ms) cs x (eq_sym L) X1) as [m Hi]. exists (m, x). split; [exact Hi|]. cbn [fst snd].
    pose proof (proj1 (Forall_forall _ _) Hm m (in_combine_l _ _ _ _ Hi)) as Lm. cbn beta in Lm. rewrite Lm, Nat.eqb_refl. cbn [ensure bind]. rewrite X3. apply (interpolate_node Hp). lia.
Qed.

Lemma honest_lens : forall n d (f : list F -> F) pre cs, Forall (fun m => length m = d + 1) (honest n d f pre cs).
Proof. intros n d f pre cs. unfold honest. apply Forall_forall. intros m H. apply in_map_iff in H. destruct H as [i [<- _]]. apply round_msg_length. Qed.

Lemma sc_prove_node : forall o sc (v : vp p) t pf t', vp_inv v -> max_degree v < fsize p -> 0 < num_variables v -> sc_prove o sc v t = Ok (pf, t') ->
  (exists x i, In x (pf_point pf) /\ i < max_degree v + 1 /\ x = ofN i) -> forall c, sc_verify o c pf (max_degree v) (num_variables v) t = Panic.
Proof.
  intros o sc v t pf t' Hi Hd Hn H Hx c. destruct (sc_prove_spec Hp o sc v t Hi ltac:(lia) Hn) as [cs [t2 [S1 [S2 S3]]]]. rewrite H in S1. injection S1 as -> _. cbn [pf_point] in Hx.
  assert (L : length (honest (num_variables v) (max_degree v) (vp_val v) [] cs) = num_variables v) by (rewrite honest_length; exact S2).
  apply sc_verify_node; [lia|exact Hn|lia|rewrite firstn_all2 by lia; apply honest_lens|]. rewrite firstn_all2 by lia. rewrite S3. exact Hx.
Qed.
Lemma sc_built_node : forall o sc (v : vp p) e t pf t', built v e -> max_degree v < fsize p -> 0 < num_variables v -> sc_prove o sc v t = Ok (pf, t') ->
  (exists x i, In x (pf_point pf) /\ i < max_degree v + 1 /\ x = ofN i) -> forall c, sc_verify o c pf (max_degree v) (num_variables v) t = Panic.
Proof. intros o sc v e t pf t' Hb. apply sc_prove_node. exact (proj1 (built_vals v e Hb)). Qed.
End Sum.

(** ** The opening *)
Section Batch.
Context {E : pairing p} {C : Type}.
Implicit Types (o : oracle p C) (t : tr p C) (vk : vparam E).

Lemma rnth_ex : forall {B} (l : list B) i, i < length l -> exists b, rnth l i = Ok b.
Proof. intros B l i H. unfold rnth. destruct (nth_error l i) as [b|] eqn:Q; [exists b; reflexivity|]. apply nth_error_None in Q. lia. Qed.
Lemma foldM_read : forall (evals : list F) l s, (forall i, In i (map fst l) -> i < length evals) -> exists r, foldM (fun (s : F) (ie : nat * F) => v <- rnth evals (fst ie) ;; Ok (s + snd ie * v)%F) s l = Ok r.
Proof.
  intros evals l. induction l as [|[i e] l IH]; intros s H; cbn [foldM]; [eauto|]. cbn [fst snd]. rewrite (rnth_ok evals i F0) by (apply H; left; reflexivity). cbn [bind].
  apply IH. intros j Hj. apply H. right. exact Hj.
Qed.
Lemma foldM_over : forall (evals : list F) l s i, In i (map fst l) -> length evals <= i -> foldM (fun (s : F) (ie : nat * F) => v <- rnth evals (fst ie) ;; Ok (s + snd ie * v)%F) s l = Panic.
Proof.
  intros evals l. induction l as [|[j e] l IH]; intros s i Hi Hl; [contradiction|]. cbn [foldM fst snd]. destruct (Nat.le_gt_cases (length evals) j) as [G|G]; [rewrite rnth_panic by lia; reflexivity|].
  rewrite (rnth_ok evals j F0) by exact G. cbn [bind]. destruct Hi as [Hi|Hi]; [cbn in Hi; lia|]. exact (IH _ i Hi Hl).
Qed.
Lemma firstn_combine_seq : forall {B} k a (l : list B), map fst (firstn k (combine (seq a (length l)) l)) = seq a (Nat.min k (length l)).
Proof. intros B k. induction k as [|k IH]; intros a l; [reflexivity|]. destruct l as [|b l]; [reflexivity|]. cbn [length seq combine firstn map fst Nat.min]. f_equal. apply IH. Qed.
Lemma batch_sum_panic : forall (eq_t evals : list F) k, k <= length eq_t -> (k <= length evals -> exists r, batch_sum eq_t evals k = Ok r) /\ (length evals < k -> batch_sum eq_t evals k = Panic).
Proof.
  intros eq_t evals k H. unfold batch_sum. split; intros G.
  - apply foldM_read. intros i Hi. rewrite firstn_combine_seq in Hi. apply in_seq in Hi. lia.
  - apply (foldM_over evals _ _ (length evals)); [|lia]. rewrite firstn_combine_seq. apply in_seq. lia.
Qed.
Lemma batch_terms_shape : forall (a2 eq_t : list F) (comms : list (gcar (PG1 E))) points n, Forall (fun z => length z = n) points -> points <> [] -> length points <= length comms -> length points <= length eq_t ->
  (length a2 = n -> exists l, batch_terms a2 eq_t comms points = Ok l) /\ (length a2 <> n -> batch_terms a2 eq_t comms points = Err PCSInvalidParameters).
Proof.
  intros a2 eq_t comms points n Hz Hne Hc He. unfold batch_terms. split; intros Ha.
  - assert (G : forall l, (forall ip, In ip l -> fst ip < length points /\ length (snd ip) = n) -> exists r, mapM (fun ip : nat * list F => e <- kzg_eq_eval a2 (snd ip) ;; x <- rnth eq_t (fst ip) ;; c <- rnth comms (fst ip) ;; Ok (c, (e * x)%F)) l = Ok r).
    { induction l as [|[i z] l IH]; intros G; cbn [mapM]; [eauto|]. destruct (G (i, z) (or_introl eq_refl)) as [G1 G2]. cbn [fst snd] in *. assert (Qe : exists e, kzg_eq_eval a2 z = Ok e) by (unfold kzg_eq_eval; rewrite G2, Ha, Nat.eqb_refl; cbn [negb]; eexists; reflexivity).
      destruct Qe as [e ->]. cbn [bind]. rewrite (rnth_ok eq_t i F0) by lia. cbn [bind]. destruct (rnth_ex comms i ltac:(lia)) as [c ->]. cbn [bind].
      destruct (IH (fun ip H => G ip (or_intror H))) as [r ->]. cbn [bind]. eauto. }
    apply G. intros [i z] Hi. cbn [fst snd]. split; [apply in_combine_l, in_seq in Hi; lia|]. exact (proj1 (Forall_forall _ _) Hz z (in_combine_r _ _ _ _ Hi)).
  - destruct points as [|z zs]; [contradiction|]. cbn [length seq combine mapM fst snd]. unfold kzg_eq_eval. inversion Hz as [|? ? Q ?]; subst. apply Nat.eqb_neq in Ha. rewrite Ha. reflexivity.
Qed.
Lemma batch_node : forall (HE : pairing_laws E) o sc addr g h (tau : list F) n polys points vs t bp t2 comms vk, distinct_addresses addr -> 0 < n -> n <= length tau -> 2 <= length polys -> batch_wf n polys points -> is_empty t = false -> 2 < fsize p ->
  multi_open o sc addr (srs_pp (srs_of (E:=E) g h tau)) polys points vs t = Ok (bp, t2) -> length vs = length polys -> length comms = length polys ->
  (exists x i, In x (pf_point (bp_sc bp)) /\ i < 3 /\ x = ofN i) -> batch_verify o vk comms points bp t = Panic.
Proof.
  intros HE o sc addr g h tau n polys points vs t bp t2 comms vk Hinj Hn Htau Hk Hwf Ht Hf HM Hv Hc Hx.
  destruct (run_draws o "t" (Nat.log2_up (length polys)) t) as [ts t1] eqn:Hd.
  destruct (multi_open_run HE Hp o sc addr g h tau n polys points t ts t1 Hinj Hn Htau Hk Hwf Ht Hf Hd)
    as [Lts [Hpow [Hne [v [e [pf [t3 [gp [pfo [V1 [V2 [V3 [V4 [V5 [S1 [S2 [G1 [G2 [G3 [-> M]]]]]]]]]]]]]]]]]]]].
  rewrite M in HM. injection HM as <- <-. cbn [bp_sc] in Hx. unfold batch_verify. cbn [bp_sc bp_evals bp_open]. rewrite Hc, draw_vecT_ok, Hd by exact Ht. cbn [bind].
  rewrite build_eq_x_r_vec_spec by exact Hne. cbn [bind].
  destruct Hwf as [W1 [W2 W3]]. assert (Lq : length polys <= length (eq_table ts)) by (rewrite eq_table_length; exact Hpow).
  destruct (batch_terms_shape (pf_point pf) (eq_table ts) comms points n) as [T1 _]; [apply Forall_forall; exact W3|intros ->; cbn in W1; lia|lia|lia|]. destruct (T1 S2) as [l ->]. cbn [bind].
  destruct (batch_sum_panic (eq_table ts) vs (length polys) Lq) as [B1 _]. destruct (B1 ltac:(lia)) as [r ->]. cbn [bind]. rewrite S2.
  pose proof (sc_built_node o sc v e t1 pf t3 V1 ltac:(rewrite V3; exact Hf) ltac:(rewrite V2; exact Hn) S1) as Q. rewrite V2, V3 in Q. rewrite Q by exact Hx. reflexivity.
Qed.
End Batch.
End N.
