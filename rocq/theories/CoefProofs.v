(** The coefficients of folded rows: drawn by the prover and the verifier. *)
From Coq Require Import String List Arith Lia Bool ZArith.
Import ListNotations.
From Verif Require Import Res Fp FSum SpecIop ModelMle ModelTranscript Pairing ModelKzg ModelProver ModelVerifier ModelAdvice ModelIop.
Local Open Scope string_scope.
Local Open Scope list_scope.
Local Open Scope nat_scope.

Section C.
Context {p : positive} {E : pairing p}.
Notation comm := (gcar (PG1 E)).
Variable o : oracle p comm.

(** The transcript after [n] challenges. *)
Fixpoint after (n : nat) (t : tr p comm) : list (F p) * tr p comm :=
  match n with
  | O => ([], t)
  | S k => let c := o (hist t) "r" in let '(cs, t') := after k (mkTr ((hist t ++ [EChal "r"]) ++ [EMsg "r" (PF c)]) false) in (c :: cs, t')
  end.
Lemma after_length : forall n t, length (fst (after n t)) = n.
Proof. induction n as [|n IH]; intros t; cbn [after]; [reflexivity|]. specialize (IH (mkTr ((hist t ++ [EChal "r"]) ++ [EMsg "r" (PF (o (hist t) "r"))]) false)). destruct (after n _). cbn in *. lia. Qed.
Lemma after_hist : forall n t, exists l, hist (snd (after n t)) = hist t ++ l /\ challenges l = fst (after n t).
Proof.
  induction n as [|n IH]; intros t; cbn [after]; [exists []; rewrite app_nil_r; split; reflexivity|].
  destruct (IH (mkTr ((hist t ++ [EChal "r"]) ++ [EMsg "r" (PF (o (hist t) "r"))]) false)) as [l [A B]]. destruct (after n _) as [cs t']. cbn [fst snd hist] in *.
  exists ([EChal "r"; EMsg "r" (PF (o (hist t) "r"))] ++ l). rewrite A, <- !app_assoc. split; [reflexivity|]. rewrite <- B. reflexivity.
Qed.
Lemma after_drawn : forall n t, SpecIop.drawn t (snd (after n t)) = fst (after n t).
Proof. intros n t. destruct (after_hist n t) as [l [A B]]. unfold SpecIop.drawn. rewrite A, skipn_app, skipn_all, Nat.sub_diag. exact B. Qed.
Lemma after_open : forall n t, is_empty t = false -> is_empty (snd (after n t)) = false.
Proof.
  induction n as [|n IH]; intros t H; cbn [after]; [exact H|]. specialize (IH (mkTr ((hist t ++ [EChal "r"]) ++ [EMsg "r" (PF (o (hist t) "r"))]) false) eq_refl).
  destruct (after n _). exact IH.
Qed.

Lemma sample_prove : forall n (s : ptrk E), is_empty (pt_tr s) = false -> sample_rands_prove o n s = Ok (fst (after n (pt_tr s)), set_tr s (snd (after n (pt_tr s)))).
Proof.
  induction n as [|n IH]; intros s H; cbn [sample_rands_prove after]; [destruct s; reflexivity|].
  unfold pt_challenge, drawT, draw. rewrite H. cbn [threaded bind append hist]. rewrite IH by reflexivity. cbn [bind set_tr pt_tr]. destruct (after n _). reflexivity.
Qed.
Lemma sample_verify : forall n (v : vtrk E), is_empty (vt_tr v) = false -> sample_rands_verify o n v = Ok (fst (after n (vt_tr v)), set_vtr v (snd (after n (vt_tr v)))).
Proof.
  induction n as [|n IH]; intros v H; cbn [sample_rands_verify after]; [destruct v; reflexivity|].
  unfold vt_challenge, drawT, draw. rewrite H. cbn [threaded bind append hist]. rewrite IH by reflexivity. cbn [bind set_vtr vt_tr]. destruct (after n _). reflexivity.
Qed.
Lemma powers_nth : forall (r : F p) n i, i < n -> nth_error (powers r n) i = Some (Fpow r i).
Proof. intros r n i H. unfold powers. rewrite nth_error_map, (nth_error_nth' _ 0) by (rewrite seq_length; exact H). rewrite seq_nth by exact H. reflexivity. Qed.

Lemma coefficients : forall n (s : ptrk E) (v : vtrk E), pt_tr s = vt_tr v -> is_empty (pt_tr s) = false ->
  (exists rs t, sample_rands_prove o n s = Ok (rs, set_tr s t) /\ sample_rands_verify o n v = Ok (rs, set_vtr v t) /\ length rs = n /\ SpecIop.drawn (pt_tr s) t = rs) /\
  (exists r rs t, rand_powers_prove o n s = Ok (rs, set_tr s t) /\ rand_powers_verify o n v = Ok (rs, set_vtr v t) /\ SpecIop.drawn (pt_tr s) t = [r] /\
    length rs = n /\ forall i, i < n -> nth_error rs i = Some (Fpow r i)).
Proof.
  intros n s v Q H. split.
  - exists (fst (after n (pt_tr s))), (snd (after n (pt_tr s))). rewrite sample_prove by exact H. rewrite sample_verify, Q by (rewrite <- Q; exact H).
    repeat split; [apply after_length|apply after_drawn].
  - pose proof (after_drawn 1 (pt_tr s)) as D. cbn [after fst snd] in D.
    unfold rand_powers_prove, rand_powers_verify, pt_challenge, vt_challenge, drawT, draw. rewrite <- Q, H. cbn [threaded bind append hist].
    eexists. eexists. eexists. split; [reflexivity|]. split; [reflexivity|]. split; [exact D|]. split; [unfold powers; rewrite map_length, seq_length; reflexivity|]. intros i Hi. apply powers_nth, Hi.
Qed.
Lemma no_coefficients : forall n (s : ptrk E) (v : vtrk E),
  (is_empty (pt_tr s) = true -> rand_powers_prove o n s = Err TranscriptInvalid /\ sample_rands_prove o (S n) s = Err TranscriptInvalid) /\
  (is_empty (vt_tr v) = true -> rand_powers_verify o n v = Err TranscriptInvalid /\ sample_rands_verify o (S n) v = Err TranscriptInvalid).
Proof.
  intros n s v. split; intros H; split; unfold rand_powers_prove, rand_powers_verify; cbn [sample_rands_prove sample_rands_verify]; unfold pt_challenge, vt_challenge, drawT, draw; rewrite H; reflexivity.
Qed.
End C.
