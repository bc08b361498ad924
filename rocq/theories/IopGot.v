(** How many ids a verifier's call takes, and which of them are polynomials received from the prover. *)
From Coq Require Import String List Arith Lia Bool ZArith Znumtheory.
Import ListNotations.
From Verif Require Import Res ResLemmas Fp FSum SpecMle SpecPoly SpecTracker SpecIop ModelMle ModelTranscript Pairing ModelKzg ModelBatch
  ModelProver ModelVerifier ModelAdvice ModelIop ProverHist VerifierHist CompileHist TmapLemmas IopVer IopSound.
Local Open Scope string_scope.
Local Open Scope list_scope.
Local Open Scope nat_scope.

Section P.
Context {p : positive} {E : pairing p}.
Notation comm := (gcar (PG1 E)).
Implicit Types (v : vtrk E).
Variable o : oracle p comm.

Definition queryb (m : tmap (vexp p)) (id : nat) : bool := match mget m id with Some (VQuery i) => i =? id | _ => false end.
Lemma queryb_iff : forall m id, queryb m id = true <-> mget m id = Some (VQuery id).
Proof.
  intros m id. unfold queryb. destruct (mget m id) as [e|]; [|split; discriminate]. destruct e; try (split; discriminate). rewrite Nat.eqb_eq. split; [intros ->; reflexivity|intros H; injection H as ->; reflexivity].
Qed.
(** [n] ids were taken, those with the offsets [l] for received polynomials. *)
Definition got v v' (n : nat) (l : list nat) : Prop :=
  vready v' /\ vt_next v' = vt_next v + n /\ (forall id, id < vt_next v -> mget (vt_virt v') id = mget (vt_virt v) id) /\
  filter (queryb (vt_virt v')) (seq (vt_next v) n) = map (Nat.add (vt_next v)) l.
Lemma got_ready : forall v v' n l, got v v' n l -> vready v'. Proof. intros v v' n l H. apply H. Qed.
Lemma got_refl : forall v, vready v -> got v v 0 []. Proof. intros v R. split; [exact R|]. split; [lia|]. split; reflexivity. Qed.
Lemma got_trans : forall v v1 v2 n l m k, got v v1 n l -> got v1 v2 m k -> got v v2 (n + m) (l ++ map (Nat.add n) k).
Proof.
  intros v v1 v2 n l m k [A0 [A1 [A2 A3]]] [B0 [B1 [B2 B3]]]. split; [exact B0|]. split; [lia|]. split; [intros id Hid; rewrite B2 by lia; apply A2; exact Hid|].
  rewrite seq_app, filter_app, map_app, <- A3, <- A1, B3, map_map, A1. f_equal.
  - apply filter_ext_in. intros id Hid. apply in_seq in Hid. unfold queryb. rewrite B2 by lia. reflexivity.
  - apply map_ext. intros x. lia.
Qed.
Lemma got_same : forall v v', vready v -> vt_next v' = vt_next v -> vt_virt v' = vt_virt v -> got v v' 0 [].
Proof. intros v v' R H1 H2. split; [unfold vready; rewrite H1, H2; exact R|]. split; [lia|]. split; [intros; rewrite H2; reflexivity|reflexivity]. Qed.
Lemma put_got : forall v v' k e, vready v -> vt_next v' = S (vt_next v + k) -> vt_virt v' = mput (vt_virt v) (vt_next v + k) e ->
  got v v' (S k) (match e with VQuery i => if i =? vt_next v + k then [k] else [] | _ => [] end).
Proof.
  intros v v' k e R H1 H2.
  split; [intros id Hid; rewrite H2, mget_mput; destruct (Nat.eqb_spec (vt_next v + k) id); [lia|apply R; lia]|].
  split; [lia|]. split; [intros id Hid; rewrite H2, mget_mput; destruct (Nat.eqb_spec (vt_next v + k) id); [lia|reflexivity]|].
  rewrite seq_S, filter_app. replace (filter (queryb (vt_virt v')) (seq (vt_next v) k)) with (@nil nat).
  - rewrite H2. cbn [app filter]. unfold queryb. rewrite mget_mput, Nat.eqb_refl. destruct e; try reflexivity. destruct (_ =? _); reflexivity.
  - symmetry. rewrite (filter_ext_in _ (fun _ => false)); [induction (seq (vt_next v) k); [reflexivity|assumption]|]. intros id Hid. apply in_seq in Hid. unfold queryb. rewrite H2, mget_mput.
    destruct (Nat.eqb_spec (vt_next v + k) id); [lia|]. rewrite R by lia. reflexivity.
Qed.
Definition plain (e : vexp p) : Prop := match e with VQuery _ => False | _ => True end.
Lemma got_virtual : forall v e id v', vready v -> track_virtual v e = (id, v') -> plain e -> got v v' 1 [].
Proof.
  intros v e id v' R H He. unfold track_virtual, v_gen_id, put_virt in H. injection H as H1 H2. pose proof (put_got v v' 0 e R) as G. rewrite Nat.add_0_r in G. destruct e; try contradiction; apply G; subst v' id; reflexivity.
Qed.
Lemma got_adds : forall v a c id v', vready v -> v_add_scalar v a c = (id, v') -> got v v' 2 [].
Proof.
  intros v a c id v' R H. unfold v_add_scalar, track_virtual, v_gen_id, put_virt in H. injection H as H1 H2. pose proof (put_got v v' 1 (VAddS a c) R) as G. rewrite Nat.add_1_r in G. apply G; subst v' id; reflexivity.
Qed.
Lemma got_transfer : forall debug v id v', vready v -> v_transfer debug v = Ok (id, v') -> got v v' 1 [0].
Proof.
  intros debug v id v' R H. unfold v_transfer, transfer_prover_comm in H. destruct (mget (cp_comms (vt_proof v)) (v_get_next_id v)) as [c|]; [|discriminate]. cbn [ounwrap bind] in H.
  destruct (track_mat_comm v c) as [i u] eqn:E1. destruct (rassert _) as [[]| |]; cbn [bind] in H; try discriminate. injection H as H H'. subst i u.
  unfold track_mat_comm, v_gen_id, put_virt, set_vtr in E1. injection E1 as E1 E2. pose proof (put_got v v' 0 (VQuery (vt_next v)) R) as G. rewrite Nat.add_0_r, Nat.eqb_refl in G. apply G; subst v' id; reflexivity.
Qed.
Lemma got_chal : forall l v c v', vready v -> vt_challenge o l v = Ok (c, v') -> got v v' 0 [].
Proof. intros l v c v' R H. unfold vt_challenge, drawT, draw in H. destruct (is_empty (vt_tr v)); cbn in H; [discriminate|]. injection H as H1 H2. subst v'. apply got_same; [exact R|reflexivity|reflexivity]. Qed.
Lemma got_zero : forall v id, vready v -> got v (v_add_zerocheck_claim v id) 0 []. Proof. intros v id R. apply got_same; [exact R|reflexivity|reflexivity]. Qed.
Lemma got_sum : forall v id c, vready v -> got v (v_add_sumcheck_claim v id c) 0 []. Proof. intros v id c R. apply got_same; [exact R|reflexivity|reflexivity]. Qed.
End P.

Lemma got_join : forall {p} {E : pairing p} (v v1 v2 : vtrk E) n l m k n' l', got v v1 n l -> got v1 v2 m k -> n + m = n' -> l ++ map (Nat.add n) k = l' -> got v v2 n' l'.
Proof. intros p E v v1 v2 n l m k n' l' H1 H2 <- <-. eapply got_trans; eassumption. Qed.
Lemma got_op : forall {p} {E : pairing p} (t : nat * vtrk E) v e id v', t = track_virtual v e -> plain e -> vready v -> t = (id, v') -> got v v' 1 [].
Proof. intros p E t v e id v' -> He R H. eapply got_virtual; eassumption. Qed.
Ltac gjoin G X := let Y := fresh "Y" in
  match type of G with got ?v ?v1 ?n ?l => match type of X with got _ ?v2 ?m ?k =>
    let n' := eval cbv in (n + m) in let l' := eval cbv in (l ++ map (Nat.add n) k) in
    pose proof (got_join v v1 v2 n l m k n' l' G X eq_refl eq_refl) as Y; clear G X; rename Y into G end end.
Ltac gone G t e E1 X := lazymatch type of G with got _ ?w _ _ => pose proof (got_op t w e _ _ eq_refl I (got_ready _ _ _ _ G) E1) as X end.
Ltac gvirt G H := lazymatch type of H with
  | (let '(_, _) := ?t in _) = _ => lazymatch type of t with (nat * @vtrk ?q _)%type => let i := fresh "i" in let u := fresh "u" in let E1 := fresh "Ex" in let X := fresh "X" in
      destruct t as [i u] eqn:E1;
      lazymatch t with
      | mul_comms ?v ?a ?b => gone G t (@VMul q a b) E1 X
      | sub_comms ?v ?a ?b => gone G t (@VSub q a b) E1 X
      | add_comms ?v ?a ?b => gone G t (@VAdd q a b) E1 X
      | v_mul_scalar ?v ?a ?c => gone G t (VMulS a c) E1 X
      | track_virtual_comm ?v ?f => gone G t (VFun f) E1 X
      | v_add_scalar ?v ?a ?c => pose proof (got_adds v a c i u (got_ready _ _ _ _ G) E1) as X
      end; clear E1; gjoin G X end end.
Ltac gtrans G H := match type of H with context [v_transfer ?d ?v] =>
  let i := fresh "i" in let u := fresh "u" in let E1 := fresh "Ex" in let X := fresh "X" in
  destruct (v_transfer d v) as [[i u]| |] eqn:E1; cbn [bind] in H; try discriminate H;
  pose proof (got_transfer d v i u (got_ready _ _ _ _ G) E1) as X; clear E1; gjoin G X end.
Ltac gchal G H := match type of H with context [vt_challenge ?o ?l ?v] =>
  let g := fresh "g" in let u := fresh "u" in let E1 := fresh "Ex" in let X := fresh "X" in
  destruct (vt_challenge o l v) as [[g u]| |] eqn:E1; cbn [bind] in H; try discriminate H;
  pose proof (got_chal o l v g u (got_ready _ _ _ _ G) E1) as X; clear E1; gjoin G X end.
Ltac gcall G H c L := match type of H with context [c] => 
  let u := fresh "u" in let E1 := fresh "Ex" in let X := fresh "X" in
  destruct c as [u| |] eqn:E1; cbn [bind] in H; try discriminate H; pose proof (L (got_ready _ _ _ _ G) E1) as X; clear E1; gjoin G X end.

(** Keep the kernel from running the calls when it compares runs. *)
#[local] Opaque track_virtual v_add_scalar.
Section Q.
Context {p : positive} {E : pairing p}.
Notation comm := (gcar (PG1 E)).
Implicit Types (v : vtrk E).
Variable o : oracle p comm.

Lemma subclaim_got : forall debug v g b m c v', vready v -> multitool_vsubclaim debug v g b m = Ok (c, v') -> got v v' 8 [0].
Proof.
  intros debug v g b m c v' R H. pose proof (got_refl v R) as G. unfold multitool_vsubclaim in H. gtrans G H. do 6 gvirt G H.
  destruct (get_prover_claimed_sum _ _) as [s| |]; cbn [bind] in H; try discriminate H. injection H as _ <-.
  pose proof (got_sum _ i0 s (got_ready _ _ _ _ G)) as X. gjoin G X. match goal with |- got _ (v_add_zerocheck_claim _ ?d) _ _ => pose proof (got_zero _ d (got_ready _ _ _ _ G)) as X; gjoin G X end. exact G.
Qed.
Lemma multitool_got : forall debug v fx gx mf mg v', vready v -> multitool_verify o debug v [fx] [gx] [mf] [mg] = Ok v' -> got v v' 16 [0; 8].
Proof.
  intros debug v fx gx mf mg v' R H. pose proof (got_refl v R) as G. unfold multitool_verify in H. cbn [length Nat.eqb negb ensure bind] in H. gchal G H. cbn [combine foldM] in H. unfold multitool_side in H. cbn [fst snd] in H.
  destruct (multitool_vsubclaim debug u g fx mf) as [[c u0]| |] eqn:E1; cbn [bind] in H; try discriminate H. pose proof (subclaim_got _ _ _ _ _ _ _ (got_ready _ _ _ _ G) E1) as X. gjoin G X.
  destruct (multitool_vsubclaim debug u0 g gx mg) as [[c' u1]| |] eqn:E2; cbn [bind] in H; try discriminate H. pose proof (subclaim_got _ _ _ _ _ _ _ (got_ready _ _ _ _ G) E2) as X. gjoin G X.
  destruct (ensure _ _) as [[]| |]; cbn [bind] in H; try discriminate H. injection H as <-. exact G.
Qed.
Lemma bag_eq_got : forall debug v fx gx v', vready v -> bag_eq_verify o debug v fx gx = Ok v' -> got v v' 17 [1; 9].
Proof. intros debug v fx gx v' R H. pose proof (got_refl v R) as G. unfold bag_eq_verify in H. gvirt G H. pose proof (multitool_got _ _ _ _ _ _ _ (got_ready _ _ _ _ G) H) as X. gjoin G X. exact G. Qed.
Lemma inclusion_wa_got : forall debug v fx gx m v', vready v -> inclusion_verify_with_advice o debug v fx gx m = Ok v' -> got v v' 17 [1; 9].
Proof. intros debug v fx gx m v' R H. pose proof (got_refl v R) as G. unfold inclusion_verify_with_advice in H. gvirt G H. pose proof (multitool_got _ _ _ _ _ _ _ (got_ready _ _ _ _ G) H) as X. gjoin G X. exact G. Qed.
Lemma inclusion_got : forall debug v fx gx v', vready v -> inclusion_verify o debug v fx gx = Ok v' -> got v v' 18 [0; 2; 10].
Proof. intros debug v fx gx v' R H. pose proof (got_refl v R) as G. unfold inclusion_verify in H. gtrans G H. pose proof (inclusion_wa_got _ _ _ _ _ _ (got_ready _ _ _ _ G) H) as X. gjoin G X. exact G. Qed.
Lemma no_zeros_got : forall debug v b v', vready v -> no_zeros_verify debug v b = Ok v' -> got v v' 4 [0].
Proof.
  intros debug v b v' R H. pose proof (got_refl v R) as G. unfold no_zeros_verify in H. gtrans G H. do 3 gvirt G H. injection H as <-.
  match goal with |- got _ (v_add_zerocheck_claim _ ?d) _ _ => pose proof (got_zero _ d (got_ready _ _ _ _ G)) as X; gjoin G X end. exact G.
Qed.
Lemma presc_perm_got : forall debug v fx gx perm v', vready v -> presc_perm_verify o debug v fx gx perm = Ok v' -> got v v' 27 [2; 3; 11; 19].
Proof.
  intros debug v fx gx perm v' R H. pose proof (got_refl v R) as G. unfold presc_perm_verify in H. gchal G H. do 2 gvirt G H. do 2 gtrans G H. do 6 gvirt G H.
  match type of H with context [bag_eq_verify ?o ?d ?v ?a ?b] => destruct (bag_eq_verify o d v a b) as [w| |] eqn:E1; cbn [bind] in H; try discriminate H end.
  pose proof (bag_eq_got _ _ _ _ _ (got_ready _ _ _ _ G) E1) as X. gjoin G X. injection H as <-.
  match goal with |- got _ (v_add_zerocheck_claim (v_add_zerocheck_claim _ ?e) ?d) _ _ => pose proof (got_zero _ e (got_ready _ _ _ _ G)) as X; gjoin G X; pose proof (got_zero _ d (got_ready _ _ _ _ G)) as X; gjoin G X end. exact G.
Qed.
Lemma strict_sort_got : forall debug v fx rx v', vready v -> strict_sort_verify o debug v fx rx = Ok v' -> got v v' 59 [2; 5; 6; 14; 22; 37; 39; 47; 55].
Proof.
  intros debug v fx rx v' R H. pose proof (got_refl v R) as G. unfold strict_sort_verify in H. cbv zeta in H.
  destruct (from_evaluations _ _) as [spm| |]; cbn [bind] in H; try discriminate H. destruct (diff_sel_evals _) as [ds| |]; cbn [bind] in H; try discriminate H. destruct (from_evaluations _ _) as [dsm| |]; cbn [bind] in H; try discriminate H.
  do 2 gvirt G H. gtrans G H.
  match type of H with context [presc_perm_verify ?o ?d ?v ?a ?b ?c] => destruct (presc_perm_verify o d v a b c) as [w| |] eqn:E1; cbn [bind] in H; try discriminate H end.
  pose proof (presc_perm_got _ _ _ _ _ _ (got_ready _ _ _ _ G) E1) as X. clear E1. gjoin G X. do 6 gvirt G H.
  match type of H with context [inclusion_verify ?o ?d ?v ?a ?b] => destruct (inclusion_verify o d v a b) as [w1| |] eqn:E1; cbn [bind] in H; try discriminate H end.
  pose proof (inclusion_got _ _ _ _ _ (got_ready _ _ _ _ G) E1) as X. clear E1. gjoin G X. pose proof (no_zeros_got _ _ _ _ (got_ready _ _ _ _ G) H) as X. gjoin G X. exact G.
Qed.
End Q.
