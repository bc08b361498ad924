(** Copies of verifier trackers in programs with several trackers. *)
From Coq Require Import String List Arith Lia Bool ZArith.
Import ListNotations.
From Verif Require Import Res ResLemmas Fp FSum ModelMle ModelVp ModelTranscript ModelSumcheck Pairing ModelKzg ModelBatch ModelProver ModelVerifier ModelHandles HandleHist HandleProofs.
Local Open Scope list_scope.
Local Open Scope nat_scope.

Section S.
Context {p : positive} {E : pairing p}.
Implicit Types (w : list (nat * vtrk E)).

Definition coherent w : Prop := forall i j m u v, nth_error w i = Some (m, u) -> nth_error w j = Some (m, v) -> vt_virt u = vt_virt v /\ vt_query u = vt_query v.

(** What a call does to all trackers. *)
Definition moved w w' r m (v' : vtrk E) : Prop := length w' = length w /\ forall q k u, nth_error w q = Some (k, u) ->
  nth_error w' q = Some (k, if q =? r then v' else if k =? m then share v' u else u).

Lemma at_moved : forall w r m v v', nth_error w r = Some (m, v) -> moved w (upd (map (fun e => if fst e =? m then (m, share v' (snd e)) else e) w) r (m, v')) r m v'.
Proof.
  intros w r m v v' Hr. split; [rewrite upd_length, map_length; reflexivity|]. intros q k u Hq. assert (Hl : r < length w) by (apply nth_error_Some; congruence). destruct (Nat.eqb_spec q r) as [->|Q].
  - rewrite upd_same by (rewrite map_length; exact Hl). congruence.
  - rewrite upd_other by congruence. rewrite nth_error_map, Hq. cbn. destruct (Nat.eqb_spec k m) as [->|]; reflexivity.
Qed.
Lemma stay_moved : forall w r m v, coherent w -> nth_error w r = Some (m, v) -> moved w w r m v.
Proof.
  intros w r m v C Hr. split; [reflexivity|]. intros q k u Hq. destruct (Nat.eqb_spec q r) as [->|Q]; [congruence|]. destruct (Nat.eqb_spec k m) as [->|]; [|exact Hq].
  destruct (C _ _ _ _ _ Hr Hq) as [A B]. rewrite Hq. destruct u. unfold share. cbn in *. subst. reflexivity.
Qed.
Lemma at_verifier_moved : forall {A} w r (f : vtrk E -> res (A * vtrk E)) y w', at_verifier w r f = Ok (y, w') ->
  exists m v v', nth_error w r = Some (m, v) /\ f v = Ok (y, v') /\ moved w w' r m v'.
Proof.
  intros A w r f y w' H. unfold at_verifier in H. apply bind_ok_inv in H. destruct H as [[m v] [H1 H]]. apply bind_ok_inv in H. destruct H as [[z v'] [H2 H]]. inversion H; subst.
  apply rnth_inv in H1. exists m, v, v'. split; [exact H1|]. split; [exact H2|]. apply (at_moved _ _ _ v). exact H1.
Qed.
Lemma vcall_moved : forall (o : oracle p (gcar (PG1 E))) debug w c x w', coherent w -> vhcall_do o debug w c = Ok (x, w') ->
  exists r m v v', vgoes c = Some r /\ nth_error w r = Some (m, v) /\ valone o debug v c = Ok (x, v') /\ moved w w' r m v'.
Proof.
  intros o debug w c x w' C H.
  destruct c; cbn [vgoes vhcall_do] in *; unfold hv_comm, hv_fun, hv_add, hv_sub, hv_mul, hv_add_scalar, hv_mul_scalar, hv_front, hv_back, hv_transfer, hv_transfer_evals,
    hv_challenge, hv_sum_claim, hv_zero_claim, hv_verify, ans, vh_same in H.
  all: try (destruct (vh_at a =? vh_at b); cbn [rassert bind] in H; [|discriminate H]).
  all: try (apply bind_ok_inv in H; destruct H as [[y w1] [H1 H]]; inversion H; subst; apply at_verifier_moved in H1; destruct H1 as [m [v [v' [A1 [A2 A3]]]]];
    eexists _, m, v, v'; split; [reflexivity|]; split; [exact A1|]; split; [|exact A3]; cbn [valone]; clear -A2; unfold vwrapped, vnamed in *).
  all: try (match type of A2 with (let (_, _) := ?z in _) = _ => destruct z as [i u]; inversion A2; subst; reflexivity end; fail).
  all: try (inversion A2; subst; reflexivity).
  - apply bind_ok_inv in A2. destruct A2 as [[i u] [B1 B2]]. rewrite B1. inversion B2; subst. reflexivity.
  - unfold hv_eval in H. apply bind_ok_inv in H. destruct H as [y [H1 H]]. apply bind_ok_inv in H1. destruct H1 as [[m v] [H0 H1]]. inversion H; subst. apply rnth_inv in H0.
    exists (vh_at a), m, v, v. split; [reflexivity|]. split; [exact H0|]. split; [cbn [valone]; rewrite H1; reflexivity|]. apply stay_moved; assumption.
  - rewrite A2. reflexivity.
  - apply bind_ok_inv in A2. destruct A2 as [u [B1 B2]]. rewrite B1. inversion B2; subst. reflexivity.
Qed.
Lemma moved_coherent : forall w w' r m v v', coherent w -> nth_error w r = Some (m, v) -> moved w w' r m v' -> coherent w'.
Proof.
  intros w w' r m v v' C Hr [L M] i j k u u' Hi Hj.
  assert (G : forall q k u, nth_error w' q = Some (k, u) -> exists u0, nth_error w q = Some (k, u0) /\ u = if q =? r then v' else if k =? m then share v' u0 else u0).
  { intros q k0 u0 Hq. destruct (nth_error w q) as [[k1 u1]|] eqn:Q; [|apply nth_error_None in Q; assert (q < length w') by (apply nth_error_Some; congruence); lia].
    rewrite (M _ _ _ Q) in Hq. inversion Hq; subst. eexists. split; reflexivity. }
  destruct (G _ _ _ Hi) as [a [A1 ->]]. destruct (G _ _ _ Hj) as [b [B1 ->]]. pose proof (C _ _ _ _ _ A1 B1) as Cab.
  destruct (Nat.eqb_spec i r) as [->|Ni].
  - assert (k = m) by congruence. subst k. rewrite Nat.eqb_refl. destruct (j =? r); split; reflexivity.
  - destruct (Nat.eqb_spec j r) as [->|Nj]; [assert (k = m) by congruence; subst k; rewrite Nat.eqb_refl; split; reflexivity|].
    destruct (k =? m); [split; reflexivity|exact Cab].
Qed.

Lemma runs_coherent : forall (o : oracle p (gcar (PG1 E))) debug calls w answers w', coherent w -> runs (vhcall_do o debug) w calls = Ok (answers, w') ->
  coherent w' /\ length w' = length w /\ (forall q m v, nth_error w q = Some (m, v) -> exists v', nth_error w' q = Some (m, v') /\
    ((forall j u, nth_error w j = Some (m, u) -> j = q) -> runs (valone o debug) v (calls_to vgoes q calls) = Ok (answers_from vgoes q calls answers, v'))).
Proof.
  intros o debug calls. induction calls as [|c calls IH]; intros w answers w' C H; cbn [runs] in H.
  - inversion H; subst. split; [exact C|]. split; [reflexivity|]. intros q m v Hq. exists v. split; [exact Hq|]. intros _. reflexivity.
  - apply bind_ok_inv in H. destruct H as [[x w1] [H1 H]]. apply bind_ok_inv in H. destruct H as [[xs w2] [H2 H]]. inversion H; subst.
    destruct (vcall_moved _ _ _ _ _ _ C H1) as [r [m [v [v' [A1 [A2 [A3 A4]]]]]]]. destruct (IH _ _ _ (moved_coherent _ _ _ _ _ _ C A2 A4) H2) as [B1 [B2 B3]]. destruct A4 as [L M].
    split; [exact B1|]. split; [congruence|]. intros q k u Hq. destruct (B3 _ _ _ (M _ _ _ Hq)) as [u' [D1 D2]]. exists u'. split; [exact D1|]. intros U.
    assert (U' : forall j z, nth_error w1 j = Some (k, z) -> j = q).
    { intros j z Hj. destruct (nth_error w j) as [[k1 u1]|] eqn:Q; [|apply nth_error_None in Q; assert (j < length w1) by (apply nth_error_Some; congruence); lia].
      rewrite (M _ _ _ Q) in Hj. inversion Hj; subst. exact (U _ _ Q). }
    specialize (D2 U'). unfold calls_to, answers_from in *. cbn [combine filter fst]. rewrite A1. destruct (Nat.eqb_spec q r) as [->|N].
    + rewrite Nat.eqb_refl. cbn [runs map snd]. assert (u = v) by congruence. subst u. rewrite A3. cbn [bind]. rewrite D2. reflexivity.
    + rewrite (proj2 (Nat.eqb_neq r q)) by congruence. destruct (k =? m) eqn:Qk in D2; [apply Nat.eqb_eq in Qk; subst k; exfalso; apply N; symmetry; exact (U _ _ A2)|]. exact D2.
Qed.

Lemma vcopies_shared : forall (o : oracle p (gcar (PG1 E))) debug w r c w1 calls answers w', NoDup (map fst w) ->
  hv_copy w r = Ok (c, w1) -> runs (vhcall_do o debug) w1 calls = Ok (answers, w') ->
  c <> r /\ (forall id x, hv_eval w' (mkVH id c) x = hv_eval w' (mkVH id r) x) /\
  forall q m v m' v', q <> r -> nth_error w q = Some (m, v) -> nth_error w' q = Some (m', v') ->
    runs (valone o debug) v (calls_to vgoes q calls) = Ok (answers_from vgoes q calls answers, v').
Proof.
  intros o debug w r c w1 calls answers w' ND Hc H. unfold hv_copy in Hc. apply bind_ok_inv in Hc. destruct Hc as [[m v] [Hr Hc]]. inversion Hc; subst. apply rnth_inv in Hr. clear Hc.
  assert (Lr : r < length w) by (apply nth_error_Some; congruence).
  assert (U : forall i j k (a b : vtrk E), nth_error w i = Some (k, a) -> nth_error w j = Some (k, b) -> i = j).
  { intros i j k a b Hi Hj. apply (proj1 (NoDup_nth_error (map fst w)) ND); [rewrite map_length; apply nth_error_Some; congruence|]. rewrite !nth_error_map, Hi, Hj. reflexivity. }
  assert (G : forall j k u, nth_error (w ++ [(m, v)]) j = Some (k, u) -> nth_error w j = Some (k, u) \/ (j = length w /\ k = m /\ u = v)).
  { intros j k u Hj. destruct (Nat.lt_ge_cases j (length w)) as [L|L]; [left; rewrite nth_error_app1 in Hj by exact L; exact Hj|right]. rewrite nth_error_app2 in Hj by exact L.
    destruct (j - length w) as [|d] eqn:Q; cbn in Hj; [inversion Hj; repeat split; lia|destruct d; discriminate]. }
  assert (C : coherent (w ++ [(m, v)])).
  { intros i j k a b Hi Hj. destruct (G _ _ _ Hi) as [Hi'|[I1 [I2 I3]]]; destruct (G _ _ _ Hj) as [Hj'|[J1 [J2 J3]]]; subst.
    - pose proof (U _ _ _ _ _ Hi' Hj'). subst. rewrite Hi' in Hj'. inversion Hj'; subst. auto.
    - pose proof (U _ _ _ _ _ Hi' Hr). subst. rewrite Hi' in Hr. inversion Hr; subst. auto.
    - pose proof (U _ _ _ _ _ Hj' Hr). subst. rewrite Hj' in Hr. inversion Hr; subst. auto.
    - auto. }
  destruct (runs_coherent o debug _ _ _ _ C H) as [C' [L' R]]. split; [lia|]. split.
  - intros id x. destruct (R r m v) as [v1 [H1 _]]; [rewrite nth_error_app1 by exact Lr; exact Hr|]. destruct (R (length w) m v) as [v2 [H2 _]]; [rewrite nth_error_app2, Nat.sub_diag by lia; reflexivity|].
    destruct (C' _ _ _ _ _ H1 H2) as [X Y]. unfold hv_eval, rnth. cbn [vh_at vh_id]. rewrite H1, H2. cbn [ounwrap bind]. unfold eval_virtual_comm. rewrite X, Y. reflexivity.
  - intros q k u k' u' Nq Hq Hq'. destruct (R q k u) as [v1 [H1 H2]]; [rewrite nth_error_app1; [exact Hq|apply nth_error_Some; congruence]|]. rewrite H1 in Hq'. inversion Hq'; subst. apply H2.
    intros j z Hj. destruct (G _ _ _ Hj) as [Hj'|[J1 [J2 J3]]]; [exact (U _ _ _ _ _ Hj' Hq)|subst]. exfalso. apply Nq. exact (U _ _ _ _ _ Hq Hr).
Qed.
End S.
