(** Several trackers: a call touches the tracker it goes to and no other. *)
From Coq Require Import String List Arith Lia Bool ZArith.
Import ListNotations.
From Verif Require Import Res ResLemmas Fp FSum ModelMle ModelVp ModelTranscript ModelSumcheck Pairing ModelKzg ModelBatch ModelProver ModelVerifier ModelHandles HandleHist.
Local Open Scope list_scope.
Local Open Scope nat_scope.

Lemma upd_same : forall {A} (l : list A) i x, i < length l -> nth_error (upd l i x) i = Some x.
Proof. induction l as [|a l IH]; intros [|i] x H; cbn in *; [lia|lia|reflexivity|apply IH; lia]. Qed.
Lemma upd_other : forall {A} (l : list A) i j x, i <> j -> nth_error (upd l i x) j = nth_error l j.
Proof. induction l as [|a l IH]; intros [|i] [|j] x H; cbn; try reflexivity; [lia|apply IH; lia]. Qed.
Lemma nth_error_ext : forall {A} (l m : list A), length l = length m -> (forall i a b, nth_error l i = Some a -> nth_error m i = Some b -> a = b) -> l = m.
Proof.
  induction l as [|a l IH]; intros [|b m] HL H; cbn in HL; try lia; [reflexivity|].
  f_equal; [exact (H 0 a b eq_refl eq_refl)|]. apply IH; [lia|]. intros i x y H1 H2. exact (H (S i) x y H1 H2).
Qed.
Lemma rnth_some : forall {A} (l : list A) i, i < length l -> exists a, nth_error l i = Some a /\ rnth l i = Ok a.
Proof. intros A l i H. unfold rnth. destruct (nth_error l i) eqn:Q; [eauto|]. apply nth_error_None in Q. lia. Qed.

Section G.
Context {W C X : Type}.
Variable (go : C -> option nat) (loc : W -> C -> res (X * W)).
Definition gstep (w : list W) (c : C) : res (X * list W) :=
  match go c with
  | None => Panic
  | Some r => t <- rnth w r ;; ' (x, t') <- loc t c ;; Ok (x, upd w r t')
  end.

Lemma gruns : forall calls w xs w',
  runs gstep w calls = Ok (xs, w') <->
  length w' = length w /\ length xs = length calls /\ (forall c, In c calls -> exists r, go c = Some r /\ r < length w) /\
  forall r t t', nth_error w r = Some t -> nth_error w' r = Some t' ->
    runs loc t (calls_to go r calls) = Ok (answers_from go r calls xs, t').
Proof.
  induction calls as [|c calls IH]; intros w xs w'; cbn [runs].
  - split.
    + intros H. inversion H; subst. split; [reflexivity|]. split; [reflexivity|]. split; [intros c []|].
      intros r t t' H1 H2. assert (t = t') by congruence. subst. reflexivity.
    + intros [HL [HX [_ H]]]. destruct xs; [|discriminate]. f_equal. f_equal. symmetry. apply nth_error_ext; [exact HL|].
      intros i a b H1 H2. specialize (H i b a H2 H1). cbn in H. inversion H. reflexivity.
  - unfold gstep at 1. destruct (go c) as [r0|] eqn:Hg; cycle 1.
    { cbn [bind]. split; [discriminate|]. intros [_ [_ [H _]]]. destruct (H c (or_introl eq_refl)) as [r [H1 _]]. congruence. }
    destruct (le_lt_dec (length w) r0) as [Hr|Hr].
    { rewrite (rnth_panic _ _ Hr). cbn [bind]. split; [discriminate|]. intros [_ [_ [H _]]].
      destruct (H c (or_introl eq_refl)) as [r [H1 H2]]. assert (r = r0) by congruence. lia. }
    destruct (rnth_some w r0 Hr) as [t0 [Ht Et]]. rewrite Et. cbn [bind].
    assert (Hc : forall r, calls_to go r (c :: calls) = if r0 =? r then c :: calls_to go r calls else calls_to go r calls).
    { intros r. unfold calls_to. cbn [filter]. rewrite Hg. destruct (r0 =? r); reflexivity. }
    assert (Ha : forall r (x : X) (xs : list X), answers_from go r (c :: calls) (x :: xs) = if r0 =? r then x :: answers_from go r calls xs else answers_from go r calls xs).
    { intros r x l. unfold answers_from. cbn [combine filter fst]. rewrite Hg. destruct (r0 =? r); reflexivity. }
    split.
    + destruct (loc t0 c) as [[x t1]| |] eqn:Hl; cbn [bind]; try discriminate.
      destruct (runs gstep (upd w r0 t1) calls) as [[ys w2]| |] eqn:Hrun; cbn [bind]; try discriminate.
      intros H. inversion H; subst xs w2. apply IH in Hrun. destruct Hrun as [L1 [L2 [L3 L4]]]. rewrite upd_length in *.
      split; [exact L1|]. split; [cbn; lia|]. split.
      * intros d [->|Hd]; [eauto|]. exact (L3 d Hd).
      * intros r t t' H1 H2. rewrite Hc, Ha. destruct (r0 =? r) eqn:Q.
        { apply Nat.eqb_eq in Q. subst r. assert (t = t0) by congruence. subst t. cbn [runs]. rewrite Hl. cbn [bind].
          rewrite (L4 r0 t1 t' (upd_same _ _ _ Hr) H2). reflexivity. }
        { apply Nat.eqb_neq in Q. apply L4; [|exact H2]. rewrite upd_other by exact Q. exact H1. }
    + intros [HL [HX [HG H]]]. destruct xs as [|x xs]; [discriminate|]. cbn in HX.
      assert (Hw : exists t', nth_error w' r0 = Some t') by (destruct (nth_error w' r0) eqn:Q; [eauto|apply nth_error_None in Q; lia]).
      destruct Hw as [t' Ht']. pose proof (H r0 t0 t' Ht Ht') as H0. rewrite Hc, Ha, Nat.eqb_refl in H0. cbn [runs] in H0.
      destruct (loc t0 c) as [[x1 t1]| |] eqn:Hl; cbn [bind] in *; try discriminate.
      destruct (runs loc t1 (calls_to go r0 calls)) as [[ys t2]| |] eqn:Hl2; cbn [bind] in H0; try discriminate.
      inversion H0; subst x1 ys t2.
      assert (Hr2 : runs gstep (upd w r0 t1) calls = Ok (xs, w')).
      { apply IH. rewrite upd_length. split; [exact HL|]. split; [lia|]. split; [intros d Hd; exact (HG d (or_intror Hd))|].
        intros r t t'' H1 H2. destruct (Nat.eq_dec r0 r) as [->|Q].
        - rewrite upd_same in H1 by exact Hr. assert (t = t1) by congruence. assert (t'' = t') by congruence. subst. exact Hl2.
        - rewrite upd_other in H1 by exact Q. specialize (H r t t'' H1 H2). rewrite Hc, Ha in H. rewrite (proj2 (Nat.eqb_neq _ _) Q) in H. exact H. }
      rewrite Hr2. reflexivity.
Qed.
End G.

Section P.
Context {p : positive} {E : pairing p}.

Lemma hcall_gstep : forall (o : oracle p (gcar (PG1 E))) sc sc' addr debug w c,
  hcall_do o sc sc' addr debug w c = gstep goes (alone o sc sc' addr debug) w c.
Proof.
  intros o sc sc' addr debug w c. unfold gstep.
  destruct c; cbn [goes hcall_do alone]; unfold hp_track, hp_commit, hp_add, hp_sub, hp_mul, hp_add_scalar, hp_mul_scalar, hp_front, hp_back, hp_evaluate,
    hp_evaluations, hp_challenge, hp_append, hp_sum_claim, hp_zero_claim, hp_compile, at_tracker, wrapped, named, ans, ph_same, bare, num, wrap.
  all: try (destruct (ph_at a =? ph_at b); cbn [rassert bind]; [|reflexivity]).
  all: match goal with |- context [rnth ?ww ?r] => destruct (rnth ww r) as [t| |] eqn:Hr; cbn [bind]; [|reflexivity|reflexivity] end.
  all: try reflexivity.
  all: try (match goal with |- context [bind (bind (bind ?x _) _) _] => destruct x as [[? ?]| |]; reflexivity end; fail).
  all: try (match goal with |- context [bind (bind ?x _) _] => destruct x as [[? ?]| |]; reflexivity end; fail).
  - destruct (tp_evaluate t {| tp_id := ph_id a; tp_nv := ph_nv a |} x); cbn [bind]; [|reflexivity|reflexivity].
    f_equal. f_equal. apply rnth_inv in Hr. apply nth_error_ext; [rewrite upd_length; reflexivity|].
    intros i y z H1 H2. destruct (Nat.eq_dec (ph_at a) i) as [<-|Q].
    + rewrite upd_same in H2; [congruence|]. apply nth_error_Some. congruence.
    + rewrite upd_other in H2 by exact Q. congruence.
Qed.

Lemma runs_ext : forall {W C X} (f g : W -> C -> res (X * W)), (forall w c, f w c = g w c) -> forall calls w, runs f w calls = runs g w calls.
Proof. intros W C X f g H. induction calls as [|c l IH]; intros w; cbn [runs]; [reflexivity|]. rewrite H. destruct (g w c) as [[x w1]| |]; cbn [bind]; [rewrite IH; reflexivity|reflexivity|reflexivity]. Qed.

Lemma prover_alone : forall (o : oracle p (gcar (PG1 E))) sc sc' addr debug w calls answers w',
  runs (hcall_do o sc sc' addr debug) w calls = Ok (answers, w') <->
  length w' = length w /\ length answers = length calls /\ (forall c, In c calls -> exists r, goes c = Some r /\ r < length w) /\
  forall r t t', nth_error w r = Some t -> nth_error w' r = Some t' ->
    runs (alone o sc sc' addr debug) t (calls_to goes r calls) = Ok (answers_from goes r calls answers, t').
Proof. intros. rewrite (runs_ext _ _ (hcall_gstep o sc sc' addr debug)). apply gruns. Qed.

Lemma mixed_panics : forall (w : list (ptrk E)) a b, ph_at a <> ph_at b -> hp_add w a b = Panic /\ hp_sub w a b = Panic /\ hp_mul w a b = Panic.
Proof. intros w a b H. unfold hp_add, hp_sub, hp_mul, ph_same. rewrite (proj2 (Nat.eqb_neq _ _) H). repeat split. Qed.

Lemma copy_alone : forall (w : list (ptrk E)) r t, nth_error w r = Some t ->
  hp_copy w r = Ok (length w, w ++ [t]).
Proof. intros w r t H. unfold hp_copy, rnth. rewrite H. reflexivity. Qed.

Lemma foreign_claim : forall (w : list (ptrk E)) r t (h : phandle), nth_error w r = Some t ->
  exists w' t', hp_zero_claim w r (ph_id h) = Ok (tt, w') /\ nth_error w' r = Some t' /\ pt_zc t' = pt_zc t ++ [ph_id h] /\ pt_mat t' = pt_mat t /\ pt_virt t' = pt_virt t.
Proof.
  intros w r t h H. unfold hp_zero_claim, at_tracker, rnth. rewrite H. cbn [ounwrap bind]. eexists. eexists. split; [reflexivity|].
  split; [apply upd_same; apply nth_error_Some; congruence|]. repeat split.
Qed.
End P.

Section V.
Context {p : positive} {E : pairing p}.

Lemma shared_map : forall (w : list (nat * vtrk E)) r m v v', NoDup (map fst w) -> nth_error w r = Some (m, v) ->
  upd (map (fun e => if fst e =? m then (m, share v' (snd e)) else e) w) r (m, v') = upd w r (m, v').
Proof.
  intros w r m v v' HN Hr. apply nth_error_ext; [rewrite !upd_length, map_length; reflexivity|].
  assert (HL : r < length w) by (apply nth_error_Some; congruence).
  intros i a b. destruct (Nat.eq_dec r i) as [<-|Q].
  - rewrite !upd_same by (rewrite ?map_length; exact HL). congruence.
  - rewrite !upd_other by exact Q. rewrite nth_error_map. intros H1 H2. rewrite H2 in H1. cbn [option_map] in H1.
    destruct (fst b =? m) eqn:Qm; [|congruence]. exfalso. apply Nat.eqb_eq in Qm. apply Q.
    apply (proj1 (NoDup_nth_error (map fst w)) HN); [rewrite map_length; exact HL|]. rewrite !nth_error_map, Hr, H2. cbn. congruence.
Qed.

Definition vloc (o : oracle p (gcar (PG1 E))) debug (e : nat * vtrk E) (c : vhcall E) : res (answer E * (nat * vtrk E)) :=
  ' (x, v') <- valone o debug (snd e) c ;; Ok (x, (fst e, v')).

Lemma vhcall_gstep : forall (o : oracle p (gcar (PG1 E))) debug w c, NoDup (map fst w) -> vhcall_do o debug w c = gstep vgoes (vloc o debug) w c.
Proof.
  intros o debug w c HN. unfold gstep, vloc.
  destruct c; cbn [vgoes vhcall_do valone]; unfold hv_comm, hv_fun, hv_add, hv_sub, hv_mul, hv_add_scalar, hv_mul_scalar, hv_front, hv_back, hv_transfer, hv_transfer_evals,
    hv_eval, hv_challenge, hv_sum_claim, hv_zero_claim, hv_verify, at_verifier, vwrapped, vnamed, ans, vh_same.
  all: try (destruct (vh_at a =? vh_at b); cbn [rassert bind]; [|reflexivity]).
  all: match goal with |- context [rnth ?ww ?r] => destruct (rnth ww r) as [[m v]| |] eqn:Hr; cbn [bind]; [|reflexivity|reflexivity] end.
  all: cbn [fst snd]; apply rnth_inv in Hr.
  all: try (match goal with |- context [bind (match ?x with (_, _) => _ end) _] => destruct x as [? ?]; cbn [bind fst snd]; rewrite (shared_map _ _ _ _ _ HN Hr); reflexivity end; fail).
  all: try (cbn [bind]; rewrite (shared_map _ _ _ _ _ HN Hr); reflexivity).
  - destruct (transfer_prover_comm debug v id) as [[i v']| |]; cbn [bind fst snd]; [rewrite (shared_map _ _ _ _ _ HN Hr); reflexivity|reflexivity|reflexivity].
  - destruct (eval_virtual_comm v (vh_id a) x); cbn [bind]; [|reflexivity|reflexivity]. f_equal. f_equal.
    apply nth_error_ext; [rewrite upd_length; reflexivity|].
    intros i y z H1 H2. destruct (Nat.eq_dec (vh_at a) i) as [<-|Q].
    + rewrite upd_same in H2; [congruence|]. apply nth_error_Some. congruence.
    + rewrite upd_other in H2 by exact Q. congruence.
  - destruct (vt_challenge o l v) as [[i v']| |]; cbn [bind fst snd]; [rewrite (shared_map _ _ _ _ _ HN Hr); reflexivity|reflexivity|reflexivity].
  - destruct (verify_claims o v) as [v'| |]; cbn [bind fst snd]; [rewrite (shared_map _ _ _ _ _ HN Hr); reflexivity|reflexivity|reflexivity].
Qed.

Lemma gstep_maps : forall (o : oracle p (gcar (PG1 E))) debug w c x w', gstep vgoes (vloc o debug) w c = Ok (x, w') -> map fst w' = map fst w.
Proof.
  intros o debug w c x w'. unfold gstep, vloc. destruct (vgoes c) as [r|]; [|discriminate].
  destruct (rnth w r) as [[m v]| |] eqn:Hr; cbn [bind]; try discriminate. cbn [snd fst].
  destruct (valone o debug v c) as [[y v']| |]; cbn [bind]; try discriminate. intros H. inversion H; subst.
  apply rnth_inv in Hr. apply nth_error_ext; [rewrite !map_length, upd_length; reflexivity|].
  intros i a b. rewrite !nth_error_map. destruct (Nat.eq_dec r i) as [<-|Q].
  - rewrite upd_same by (apply nth_error_Some; congruence). rewrite Hr. cbn. congruence.
  - rewrite upd_other by exact Q. congruence.
Qed.

Lemma vruns_gruns : forall (o : oracle p (gcar (PG1 E))) debug calls w, NoDup (map fst w) ->
  runs (vhcall_do o debug) w calls = runs (gstep vgoes (vloc o debug)) w calls.
Proof.
  intros o debug. induction calls as [|c l IH]; intros w HN; cbn [runs]; [reflexivity|]. rewrite vhcall_gstep by exact HN.
  destruct (gstep vgoes (vloc o debug) w c) as [[x w1]| |] eqn:Q; cbn [bind]; [|reflexivity|reflexivity].
  rewrite IH; [reflexivity|]. rewrite (gstep_maps _ _ _ _ _ _ Q). exact HN.
Qed.

Lemma vloc_runs : forall (o : oracle p (gcar (PG1 E))) debug calls m v xs m' v',
  runs (vloc o debug) (m, v) calls = Ok (xs, (m', v')) <-> m' = m /\ runs (valone o debug) v calls = Ok (xs, v').
Proof.
  intros o debug. induction calls as [|c l IH]; intros m v xs m' v'; cbn [runs].
  - split; [intros H; inversion H; auto|intros [-> H]; inversion H; reflexivity].
  - unfold vloc at 1. cbn [snd fst]. destruct (valone o debug v c) as [[x v1]| |]; cbn [bind]; [|split; [discriminate|intros [_ H]; discriminate]..].
    destruct (runs (vloc o debug) (m, v1) l) as [[ys [m2 v2]]| |] eqn:Q; cbn [bind].
    + apply IH in Q. destruct Q as [-> Q]. rewrite Q. cbn [bind]. split; [intros H; inversion H; auto|intros [-> H]; inversion H; reflexivity].
    + split; [discriminate|]. intros [-> H]. destruct (runs (valone o debug) v1 l) as [[zs v3]| |] eqn:Q2; cbn [bind] in H; try discriminate.
      rewrite (proj2 (IH m v1 zs m v3)) in Q by (split; [reflexivity|exact Q2]). discriminate.
    + split; [discriminate|]. intros [-> H]. destruct (runs (valone o debug) v1 l) as [[zs v3]| |] eqn:Q2; cbn [bind] in H; try discriminate.
      rewrite (proj2 (IH m v1 zs m v3)) in Q by (split; [reflexivity|exact Q2]). discriminate.
Qed.

Lemma verifier_alone : forall (o : oracle p (gcar (PG1 E))) debug w calls answers w', NoDup (map fst w) ->
  runs (vhcall_do o debug) w calls = Ok (answers, w') <->
  length w' = length w /\ length answers = length calls /\ (forall c, In c calls -> exists r, vgoes c = Some r /\ r < length w) /\
  forall r m v m' v', nth_error w r = Some (m, v) -> nth_error w' r = Some (m', v') ->
    m' = m /\ runs (valone o debug) v (calls_to vgoes r calls) = Ok (answers_from vgoes r calls answers, v').
Proof.
  intros o debug w calls answers w' HN. rewrite vruns_gruns by exact HN. rewrite gruns. split.
  - intros [A [B [C D]]]. split; [exact A|]. split; [exact B|]. split; [exact C|]. intros r m v m' v' H1 H2. apply vloc_runs. exact (D r _ _ H1 H2).
  - intros [A [B [C D]]]. split; [exact A|]. split; [exact B|]. split; [exact C|]. intros r [m v] [m' v'] H1 H2. apply vloc_runs. exact (D r _ _ _ _ H1 H2).
Qed.

Lemma vmixed_panics : forall (w : list (nat * vtrk E)) a b, vh_at a <> vh_at b -> hv_add w a b = Panic /\ hv_sub w a b = Panic /\ hv_mul w a b = Panic.
Proof. intros w a b H. unfold hv_add, hv_sub, hv_mul, vh_same. rewrite (proj2 (Nat.eqb_neq _ _) H). repeat split. Qed.
End V.
