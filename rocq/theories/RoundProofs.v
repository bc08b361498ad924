(** Rejections and panics of the sum-check verifier, from the challenges that it meets. *)
From Coq Require Import String List Arith Lia Bool ZArith Znumtheory.
Import ListNotations.
From Verif Require Import Res ResLemmas Fp FSum SpecMle SpecPoly SpecSumcheck ModelMle ModelVp ModelTranscript ModelSumcheck InterpProofs SumcheckHist SumcheckVerify TranscriptProofs RoundHist.
Local Open Scope string_scope.
Local Open Scope list_scope.
Local Open Scope nat_scope.

Section R.
Context {p : positive} {C : Type}.
Hypothesis Hp : prime (Zpos p).
Notation F := (F p).
Implicit Types (o : oracle p C) (t : tr p C).

Lemma round_draws_run : forall o ms t, round_draws o ms t = fst (run_msgs o ms t).
Proof.
  clear Hp. intros o ms. induction ms as [|m ms IH]; intros t; [reflexivity|]. cbn [round_draws run_msgs]. cbv zeta. rewrite IH. unfold tdraw.
  destruct (run_msgs o ms _) as [cs t']. reflexivity.
Qed.

Lemma round_bad_length : forall o c pt ms d n t, d < fsize p -> n <= length ms ->
  (exists m, In m (firstn n ms) /\ length m <> d + 1) ->
  (forall s, sc_verify o c (mkProof pt ms) d n t <> Ok s) /\
  (Forall (nonnode (d + 1)) (met o d n ms t) -> sc_verify o c (mkProof pt ms) d n t = Err IOPInvalidVerifier).
Proof.
  intros o c pt ms d n t Hd Hl B. split; [exact (proj1 (sc_verify_bad_length Hp o c pt ms d n t Hd Hl B))|]. destruct B as [m [Hm Hlen]]. intros Ho.
  assert (Hn : 0 < n) by (destruct n; [contradiction|lia]).
  unfold met in Ho. rewrite round_draws_run in Ho.
  pose proof (sc_verify_unfold o c pt ms d n t Hn Hl) as E.
  pose proof (run_msgs_length o (firstn n ms) (append "aux info" (PAux d n) t)) as Hcs.
  destruct (run_msgs o (firstn n ms) _) as [cs t'] eqn:R. rewrite E. cbn [fst] in *.
  assert (Hin : exists x, In (m, x) (combine (firstn n ms) cs)).
  { destruct (In_nth _ _ [] Hm) as [i [Hi Ei]]. exists (nth i cs F0).
    rewrite <- Ei, <- combine_nth by lia. apply nth_In. rewrite combine_length. lia. }
  destruct Hin as [x Hin].
  unfold check_and_generate_subclaim. cbn [vs_finished vs_polys vs_nv vs_deg vs_chals ensure bind].
  rewrite firstn_length, Nat.min_l, Nat.eqb_refl by exact Hl. cbn [ensure bind].
  rewrite (mapM_err_at _ IOPInvalidVerifier); [reflexivity| |].
  - intros [m' x'] Hmx. cbn [fst snd]. destruct (Nat.eqb_spec (length m') (d + 1)) as [El|]; [|right; reflexivity]. left. cbn [ensure bind].
    rewrite (interpolate_total Hp); [|intros ->; simpl in El; lia|lia].
    rewrite nonnode_existsb; [eauto|]. rewrite El. apply in_combine_r in Hmx. exact (proj1 (Forall_forall _ _) Ho x' Hmx).
  - exists (m, x). split; [exact Hin|]. cbn [fst snd]. apply Nat.eqb_neq in Hlen. rewrite Hlen. reflexivity.
Qed.

Lemma mapM_panic_or : forall {A B} (f : A -> res B) l, (forall a, In a l -> (exists b, f a = Ok b) \/ f a = Panic) -> mapM f l = Panic \/ exists bs, mapM f l = Ok bs.
Proof.
  clear Hp. intros A B f l. induction l as [|a l IH]; intros H; [right; exists []; reflexivity|]. cbn [mapM].
  destruct (H a (or_introl eq_refl)) as [[b ->]| ->]; [|left; reflexivity]. cbn [bind].
  destruct (IH (fun x Hx => H x (or_intror Hx))) as [->|[bs ->]]; [left; reflexivity|right; eexists; reflexivity].
Qed.

(** Degree 0: the verifier reads evaluations[1]; a node makes it panic earlier. *)
Lemma round_deg0 : forall o c pt ms n t, 1 < fsize p -> 0 < n ->
  (forall s, sc_verify o c (mkProof pt ms) 0 n t <> Ok s) /\
  (n <= length ms -> (forall m, In m (firstn n ms) -> length m = 1) -> sc_verify o c (mkProof pt ms) 0 n t = Panic).
Proof.
  intros o c pt ms n t Hf Hn. split; [exact (proj1 (sc_verify_deg0 Hp o c pt ms n t Hf Hn))|]. intros Hl Hm.
  pose proof (sc_verify_unfold o c pt ms 0 n t Hn Hl) as E.
  pose proof (run_msgs_length o (firstn n ms) (append "aux info" (PAux 0 n) t)) as Hcs.
  destruct (run_msgs o (firstn n ms) _) as [cs t']. rewrite E. cbn [fst] in Hcs. clear E.
  unfold check_and_generate_subclaim. cbn [vs_finished vs_polys vs_nv vs_deg vs_chals ensure bind].
  rewrite firstn_length, Nat.min_l, Nat.eqb_refl by exact Hl. cbn [ensure bind].
  destruct n as [|n]; [lia|]. destruct ms as [|m ms]; [simpl in Hl; lia|]. cbn [firstn] in *. destruct cs as [|x cs]; [discriminate|].
  match goal with |- context [mapM ?f ?l] => destruct (mapM_panic_or f l) as [->|[bs Hbs]] end; [|reflexivity|].
  - intros [m' x'] Hmx. cbn [fst snd]. rewrite (Hm m' (in_combine_l _ _ _ _ Hmx)). cbn [Nat.add Nat.eqb ensure bind].
    rewrite (interpolate_total Hp); [|intros ->; specialize (Hm [] (in_combine_l _ _ _ _ Hmx)); discriminate|rewrite (Hm m' (in_combine_l _ _ _ _ Hmx)); lia].
    destruct (existsb _ _); [right; reflexivity|left; eexists; reflexivity].
  - rewrite Hbs. cbn [bind combine firstn mapM fst snd]. rewrite (rnth_ok m 0 F0), (rnth_panic m 1) by (rewrite (Hm m (or_introl eq_refl)); lia). reflexivity.
Qed.
End R.
