(** Independence of the two copies of a prover tracker, and what the copies of a verifier tracker share. *)
From Coq Require Import String List Arith Lia Bool ZArith.
Import ListNotations.
From Verif Require Import Res ResLemmas Fp ModelTranscript Pairing ModelKzg ModelProver ModelVerifier ProverHist VerifierHist CopyHist TmapLemmas QueryProofs.
Local Open Scope list_scope.
Local Open Scope nat_scope.

Section S.
Context {p : positive} {E : pairing p}.

Lemma two_independent : forall {W O} (step : W -> O -> res W) calls a b a' b',
  foldM (two_step step (fun _ y => y)) (a, b) calls = Ok (a', b') <->
  foldM step a (calls_of false calls) = Ok a' /\ foldM step b (calls_of true calls) = Ok b'.
Proof.
  intros W O step. induction calls as [|[[|] op] calls IH]; intros a b a' b'.
  - cbn. split; [intros H; inversion H; auto|intros [H1 H2]; inversion H1; inversion H2; reflexivity].
  - unfold calls_of in *. cbn [filter map fst snd Bool.eqb foldM two_step]. destruct (step b op) as [b1| |]; cbn [bind]; [apply IH| |]; (split; [discriminate|intros [_ H]; discriminate]).
  - unfold calls_of in *. cbn [filter map fst snd Bool.eqb foldM two_step]. destruct (step a op) as [a1| |]; cbn [bind]; [apply IH| |]; (split; [discriminate|intros [H _]; discriminate]).
Qed.

Lemma prover_copies : forall (o : oracle p (gcar (PG1 E))) s hs calls a b,
  prun2 o s hs calls = Ok (a, b) <-> foldM (pstep o) (s, hs) (calls_of false calls) = Ok a /\ foldM (pstep o) (s, hs) (calls_of true calls) = Ok b.
Proof. intros. apply two_independent. Qed.

Lemma eval_fun : forall (v : vtrk E) id f x, mget (vt_virt v) id = Some (VFun f) -> eval_virtual_comm v id x = f x.
Proof. intros v id f x H. unfold eval_virtual_comm. cbn [Nat.mul Nat.add eval_loop]. rewrite H. reflexivity. Qed.

Lemma verifier_copies_refuted : forall (o : oracle p (gcar (PG1 E))) debug (v : vtrk E) hs f g x, exists a b,
  vrun2 o debug v hs [(false, VOFun f); (true, VOFun g)] = Ok (a, b) /\
  snd a = hs ++ [vt_next v] /\ snd b = hs ++ [vt_next v] /\
  (exists v', vstep o debug (v, hs) (VOFun f) = Ok (v', hs ++ [vt_next v]) /\ eval_virtual_comm v' (vt_next v) x = f x) /\
  eval_virtual_comm (fst a) (vt_next v) x = g x.
Proof.
  intros o debug v hs f g x. eexists. eexists. split; [reflexivity|]. split; [reflexivity|]. split; [reflexivity|]. split.
  - eexists. split; [reflexivity|]. apply eval_fun. apply mget_mput_same.
  - apply eval_fun. apply mget_mput_same.
Qed.

(** The fields that are not behind references. *)
Definition own_eq (a b : vtrk E) : Prop :=
  vt_vk a = vt_vk b /\ vt_tr a = vt_tr b /\ vt_next a = vt_next b /\ vt_mat a = vt_mat b /\ vt_sc a = vt_sc b /\ vt_zc a = vt_zc b /\ vt_proof a = vt_proof b.

Lemma vstep_own : forall (o : oracle p (gcar (PG1 E))) debug op (v w : vtrk E) hs, own_eq v w ->
  match vstep o debug (v, hs) op, vstep o debug (w, hs) op with
  | Ok (v', h1), Ok (w', h2) => own_eq v' w' /\ h1 = h2
  | Err a, Err b => a = b
  | Panic, Panic => True
  | _, _ => False
  end.
Proof.
  intros o debug op v w hs [A1 [A2 [A3 [A4 [A5 [A6 A7]]]]]].
  destruct op; cbn [vstep]; unfold vpush, track_virtual_comm, add_comms, sub_comms, mul_comms, v_add_scalar, v_mul_scalar, v_increase_nv_front, v_increase_nv_back,
    transfer_prover_comm, vt_challenge, get_prover_claimed_sum, track_virtual, track_mat_comm, v_gen_id, v_get_next_id; cbn [bind put_virt set_vtr vt_vk vt_tr vt_next vt_mat vt_virt vt_query vt_sc vt_zc vt_proof];
    rewrite ?A1, ?A2, ?A3, ?A4, ?A5, ?A6, ?A7;
    repeat match goal with |- context [bind ?x _] => lazymatch x with context [bind _ _] => fail | Ok _ => fail | _ => destruct x eqn:?; cbn [bind]; try exact I; try reflexivity end end;
    repeat match goal with |- context [let (_, _) := ?x in _] => destruct x eqn:?; cbn [bind] end;
    repeat match goal with H : _ = Ok _ |- _ => progress (cbn [bind] in H) end;
    try (split; [unfold own_eq; cbn; rewrite ?A1, ?A2, ?A3, ?A4, ?A5, ?A6, ?A7; repeat split; reflexivity|reflexivity]; fail).
  all: repeat match goal with a : (F p * tr p _)%type |- _ => destruct a end; cbn [bind] in *; try congruence.
  match goal with X : Ok _ = Ok (_, ?v0), Y : Ok _ = Ok (_, ?v1) |- own_eq ?v0 ?v1 /\ _ => inversion X; inversion Y end.
  split; [|reflexivity]. unfold own_eq. cbn. auto 10.
Qed.

Lemma own_refl : forall v, own_eq v v. Proof. intros v. repeat split. Qed.
Lemma own_trans : forall a b c, own_eq a b -> own_eq b c -> own_eq a c.
Proof. intros a b c [A1 [A2 [A3 [A4 [A5 [A6 A7]]]]]] [B1 [B2 [B3 [B4 [B5 [B6 B7]]]]]]. repeat split; congruence. Qed.
Lemma own_share : forall a b, own_eq (share a b) b. Proof. intros a b. repeat split. Qed.

Lemma verifier_copies_own : forall (o : oracle p (gcar (PG1 E))) debug calls (v1 v2 w1 w2 : vtrk E) h1 h2 a b,
  own_eq v1 w1 -> own_eq v2 w2 ->
  foldM (two_step (vstep o debug) (fun a b => (share (fst a) (fst b), snd b))) ((v1, h1), (v2, h2)) calls = Ok (a, b) ->
  exists a' b', foldM (vstep o debug) (w1, h1) (calls_of false calls) = Ok a' /\ foldM (vstep o debug) (w2, h2) (calls_of true calls) = Ok b' /\
    own_eq (fst a) (fst a') /\ own_eq (fst b) (fst b') /\ snd a = snd a' /\ snd b = snd b'.
Proof.
  intros o debug. induction calls as [|[[|] op] calls IH]; intros v1 v2 w1 w2 h1 h2 a b O1 O2 H.
  - inversion H; subst. exists (w1, h1), (w2, h2). repeat (split; [reflexivity || assumption|]). reflexivity.
  - cbn [foldM] in H. apply bind_ok_inv in H. destruct H as [[[a1 k1] [a2 k2]] [H1 H2]]. unfold two_step in H1. cbn [fst snd] in H1.
    pose proof (vstep_own o debug op v2 w2 h2 O2) as S. destruct (vstep o debug (v2, h2) op) as [[v2' h2']| |]; try discriminate H1. cbn [bind fst snd] in H1. inversion H1; subst.
    destruct (vstep o debug (w2, h2) op) as [[w2' h2'']| |] eqn:Hw; try contradiction. destruct S as [S1 ->].
    destruct (IH _ _ w1 w2' _ _ _ _ (own_trans _ _ _ (own_share _ _) O1) S1 H2) as [a' [b' [P1 [P2 P3]]]]. exists a', b'.
    unfold calls_of in *. cbn [filter map fst snd Bool.eqb foldM]. rewrite Hw. cbn [bind]. auto.
  - cbn [foldM] in H. apply bind_ok_inv in H. destruct H as [[[a1 k1] [a2 k2]] [H1 H2]]. unfold two_step in H1. cbn [fst snd] in H1.
    pose proof (vstep_own o debug op v1 w1 h1 O1) as S. destruct (vstep o debug (v1, h1) op) as [[v1' h1']| |]; try discriminate H1. cbn [bind fst snd] in H1. inversion H1; subst.
    destruct (vstep o debug (w1, h1) op) as [[w1' h1'']| |] eqn:Hw; try contradiction. destruct S as [S1 ->].
    destruct (IH _ _ w1' w2 _ _ _ _ S1 (own_trans _ _ _ (own_share _ _) O2) H2) as [a' [b' [P1 [P2 P3]]]]. exists a', b'.
    unfold calls_of in *. cbn [filter map fst snd Bool.eqb foldM]. rewrite Hw. cbn [bind]. auto.
Qed.
End S.

Lemma copies_own : forall {p : positive} {E : pairing p} (o : oracle p (gcar (PG1 E))) debug (v : vtrk E) hs calls a b,
  vrun2 o debug v hs calls = Ok (a, b) ->
  exists a' b', foldM (vstep o debug) (v, hs) (calls_of false calls) = Ok a' /\ foldM (vstep o debug) (v, hs) (calls_of true calls) = Ok b' /\
    vt_tr (fst a) = vt_tr (fst a') /\ vt_next (fst a) = vt_next (fst a') /\ vt_mat (fst a) = vt_mat (fst a') /\ vt_sc (fst a) = vt_sc (fst a') /\ vt_zc (fst a) = vt_zc (fst a') /\ snd a = snd a' /\
    vt_tr (fst b) = vt_tr (fst b') /\ vt_next (fst b) = vt_next (fst b') /\ vt_mat (fst b) = vt_mat (fst b') /\ vt_sc (fst b) = vt_sc (fst b') /\ vt_zc (fst b) = vt_zc (fst b') /\ snd b = snd b'.
Proof.
  intros p E o debug v hs calls a b H. destruct (verifier_copies_own o debug calls v v v v hs hs a b (own_refl v) (own_refl v) H) as [a' [b' [P1 [P2 [A [B [C D]]]]]]].
  destruct A as [_ [A1 [A2 [A3 [A4 [A5 _]]]]]]. destruct B as [_ [B1 [B2 [B3 [B4 [B5 _]]]]]]. exists a', b'. repeat split; assumption.
Qed.

(** Both copies see the same maps after every call. *)
Lemma copies_shared : forall {p : positive} {E : pairing p} (o : oracle p (gcar (PG1 E))) debug (v : vtrk E) hs calls a b,
  vrun2 o debug v hs calls = Ok (a, b) -> forall id x, eval_virtual_comm (fst a) id x = eval_virtual_comm (fst b) id x.
Proof.
  intros p E o debug v hs calls a b H.
  assert (G : forall calls (v1 v2 : vtrk E) h1 h2, vt_virt v1 = vt_virt v2 -> vt_query v1 = vt_query v2 ->
    foldM (two_step (vstep o debug) (fun a b => (share (fst a) (fst b), snd b))) ((v1, h1), (v2, h2)) calls = Ok (a, b) -> vt_virt (fst a) = vt_virt (fst b) /\ vt_query (fst a) = vt_query (fst b)).
  { clear. intros calls. induction calls as [|[[|] op] calls IH]; intros v1 v2 h1 h2 E1 E2 H; [inversion H; subst; auto| |].
    - cbn [foldM] in H. apply bind_ok_inv in H. destruct H as [[[a1 k1] [a2 k2]] [H1 H2]]. unfold two_step in H1. cbn [fst snd] in H1.
      destruct (vstep o debug (v2, h2) op) as [[v2' h2']| |]; try discriminate H1. cbn [bind fst snd] in H1. inversion H1; subst. refine (IH _ _ _ _ _ _ H2); reflexivity.
    - cbn [foldM] in H. apply bind_ok_inv in H. destruct H as [[[a1 k1] [a2 k2]] [H1 H2]]. unfold two_step in H1. cbn [fst snd] in H1.
      destruct (vstep o debug (v1, h1) op) as [[v1' h1']| |]; try discriminate H1. cbn [bind fst snd] in H1. inversion H1; subst. refine (IH _ _ _ _ _ _ H2); reflexivity. }
  destruct (G calls v v hs hs eq_refl eq_refl H) as [G1 G2]. intros id x. unfold eval_virtual_comm. rewrite G1, G2. reflexivity.
Qed.
(** Loading the query results into one copy loads them into the other. *)
Lemma copies_queries : forall {p : positive} {E : pairing p} (o : oracle p (gcar (PG1 E))) debug (v : vtrk E) hs id i x y,
  mget (vt_virt v) id = Some (VQuery i) -> vt_query v = [] -> cp_query (vt_proof v) = [((i, x), y)] ->
  eval_virtual_comm v id x = Panic /\ exists a b, vrun2 o debug v hs [(true, VOTransferEvals)] = Ok (a, b) /\ eval_virtual_comm (fst a) id x = Ok y.
Proof.
  intros p E o debug v hs id i x y Hv Hq Hc. split; [unfold eval_virtual_comm; cbn [Nat.mul Nat.add eval_loop]; rewrite Hv, Hq; reflexivity|].
  eexists. eexists. split; [reflexivity|]. cbn [fst]. unfold eval_virtual_comm. cbn [share transfer_proof_poly_evals vt_virt vt_query Nat.mul Nat.add eval_loop]. rewrite Hv. cbn [ounwrap bind run_vexp]. rewrite Hc. cbn [fold_left fst snd].
  rewrite qget_qput, (proj2 (qkey_eq _ _) eq_refl). reflexivity.
Qed.
