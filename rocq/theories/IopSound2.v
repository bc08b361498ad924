(** What the verifiers' claims force: bag equality, bag sum, inclusion, prescribed permutation. *)
From Coq Require Import String List Arith Lia Bool ZArith Znumtheory.
Import ListNotations.
From Verif Require Import Res ResLemmas Fp FSum SpecMle SpecPoly PolyLemmas SpecTracker SpecIop ModelMle MleLemmas MleProofs ModelTranscript Pairing ModelKzg ModelBatch
  ModelProver ModelVerifier ModelAdvice ModelIop ProverHist VerifierHist CompileHist IopHist TmapLemmas LogDeriv BagLemmas EqualizeProofs IopWorld IopBasic IopMulti IopSort IopVer IopSound InterpProofs MleExtra.
Local Open Scope string_scope.
Local Open Scope list_scope.
Local Open Scope nat_scope.
#[local] Opaque track_virtual v_add_scalar.

Section P.
Context {p : positive} {E : pairing p}.
Add Ring Fq : (@F_ring p).
Notation comm := (gcar (PG1 E)).
Implicit Types (v : vtrk E) (V : tmap (vexp p)) (A : reading (p:=p)).
Variable o : oracle p comm.
Hypothesis Hp : prime (Zpos p).
Hypothesis H2 : 2 < fsize p.

Lemma isl_one : forall A V N b id l sl, plist_bag A V N b l sl -> mget V id = Some (VFun one_fun) -> isl A V N (b, id) (l, sl, ones (length l)).
Proof.
  intros A V N b id l sl H Hm. split; [exact H|]. exists (fun _ => F1). split; [apply ps_one; exact Hm|]. cbn [fst snd]. rewrite (avgs_one Hp H2). f_equal. apply H.
Qed.
Lemma bag_nv_le : forall A V N b l sl, plist_bag A V N b l sl -> bc_nv b <= N. Proof. intros A V N b l sl H. apply H. Qed.

Lemma bag_eq_sound : forall debug v v' fx gx, vready v -> bag_eq_verify o debug v fx gx = Ok v' ->
  exists g, sound v v' [g] (fun A N V => forall l sl l' sl', plist_bag A V N fx l sl -> plist_bag A V N gx l' sl' ->
    ~ In g l /\ ~ In g l' /\ logd (wcol l sl (ones (length l))) g = logd (wcol l' sl' (ones (length l'))) g).
Proof.
  intros debug v v' fx gx R H. pose proof (vgo_refl v R) as G. unfold bag_eq_verify in H. vvirt G H.
  destruct (multitool_lists o Hp H2 _ _ _ _ _ _ _ (y_ready _ _ _ G) H) as [g [G1 HQ]]. fwd G1. vjoin G G1. exists g. split; [exact G|].
  intros A N V S C l sl l' sl' Hf Hg. lift S. unshelve epose proof (HQ A N V S C _ [(l, sl, ones (p:=p) (length l))] [(l', sl', ones (p:=p) (length l'))] _ _) as [Q1 Q2].
  - intros b [<-|[<-|[]]]; eapply bag_nv_le; eassumption.
  - repeat constructor; try apply Hf. apply isl_one; assumption.
  - repeat constructor; try apply Hg. apply isl_one; assumption.
  - cbn [app] in Q1. inversion Q1 as [|x1 r1 Y1 Y2]; subst. inversion Y2; subst. unfold wcols in Q2. cbn [flat_map fst snd] in Q2. rewrite !app_nil_r in Q2. auto.
Qed.
Lemma bag_sum_sound : forall debug v v' f0 f1 gx, vready v -> bag_sum_verify o debug v f0 f1 gx = Ok v' ->
  exists g, sound v v' [g] (fun A N V => forall l0 sl0 l1 sl1 l sl, plist_bag A V N f0 l0 sl0 -> plist_bag A V N f1 l1 sl1 -> plist_bag A V N gx l sl ->
    ~ In g l0 /\ ~ In g l1 /\ ~ In g l /\ logd (wcol l0 sl0 (ones (length l0)) ++ wcol l1 sl1 (ones (length l1))) g = logd (wcol l sl (ones (length l))) g).
Proof.
  intros debug v v' f0 f1 gx R H. pose proof (vgo_refl v R) as G. unfold bag_sum_verify in H. vvirt G H. vvirt G H. vvirt G H.
  destruct (multitool_lists o Hp H2 _ _ _ _ _ _ _ (y_ready _ _ _ G) H) as [g [G1 HQ]]. fwd G1. vjoin G G1. exists g. split; [exact G|].
  intros A N V S C l0 sl0 l1 sl1 l sl Ha Hb Hc. lift S. unshelve epose proof (HQ A N V S C _ [(l0, sl0, ones (p:=p) (length l0)); (l1, sl1, ones (p:=p) (length l1))] [(l, sl, ones (p:=p) (length l))] _ _) as [Q1 Q2].
  - intros b [<-|[<-|[<-|[]]]]; eapply bag_nv_le; eassumption.
  - constructor; [|constructor; [|constructor]]; apply isl_one; assumption.
  - constructor; [|constructor]; apply isl_one; assumption.
  - cbn [app] in Q1. inversion Q1 as [|x1 r1 Y1 Y2]; subst. inversion Y2 as [|x2 r2 Y3 Y4]; subst. inversion Y4; subst. unfold wcols in Q2. cbn [flat_map fst snd] in Q2. rewrite !app_nil_r in Q2. auto.
Qed.
(** Inclusion; the multiplicities are whatever the id [m] stands for. *)
Lemma inclusion_wa_sound : forall debug v v' fx gx m, vready v -> inclusion_verify_with_advice o debug v fx gx m = Ok v' ->
  exists g, sound v v' [g] (fun A N V => forall l sl l' sl' f, plist_bag A V N fx l sl -> plist_bag A V N gx l' sl' -> psem A V N m f ->
    ~ In g l /\ ~ In g l' /\ logd (wcol l sl (ones (length l))) g = logd (wcol l' sl' (avgs N (bc_nv gx) f)) g).
Proof.
  intros debug v v' fx gx m R H. pose proof (vgo_refl v R) as G. unfold inclusion_verify_with_advice in H. vvirt G H.
  destruct (multitool_lists o Hp H2 _ _ _ _ _ _ _ (y_ready _ _ _ G) H) as [g [G1 HQ]]. fwd G1. vjoin G G1. exists g. split; [exact G|].
  intros A N V S C l sl l' sl' f Hf Hg Hm. lift S. unshelve epose proof (HQ A N V S C _ [(l, sl, ones (p:=p) (length l))] [(l', sl', avgs N (bc_nv gx) f)] _ _) as [Q1 Q2].
  - intros b [<-|[<-|[]]]; eapply bag_nv_le; eassumption.
  - repeat constructor; try apply Hf. apply isl_one; assumption.
  - constructor; [|constructor]. split; [exact Hg|]. exists f. split; [exact Hm|reflexivity].
  - cbn [app] in Q1. inversion Q1 as [|x1 r1 Y1 Y2]; subst. inversion Y2; subst. unfold wcols in Q2. cbn [flat_map fst snd] in Q2. rewrite !app_nil_r in Q2. auto.
Qed.
Lemma inclusion_sound : forall debug v v' fx gx, vready v -> inclusion_verify o debug v fx gx = Ok v' ->
  exists g, mget (vt_virt v') (vt_next v) = Some (VQuery (vt_next v)) /\ sound v v' [g] (fun A N V => forall l sl l' sl', plist_bag A V N fx l sl -> plist_bag A V N gx l' sl' ->
    ~ In g l /\ ~ In g l' /\ logd (wcol l sl (ones (length l))) g = logd (wcol l' sl' (averaged A N (vt_next v) (bc_nv gx))) g).
Proof.
  intros debug v v' fx gx R H. pose proof (vgo_refl v R) as G. unfold inclusion_verify in H. vtrans G H.
  destruct (inclusion_wa_sound _ _ _ _ _ _ (y_ready _ _ _ G) H) as [g [G1 HQ]]. fwd G1. vjoin G G1. exists g. split; [rewrite <- Ii; exact Im|]. split; [exact G|].
  intros A N V S C l sl l' sl' Hf Hg. lift S. rewrite <- (avgs_leaf A N (vt_next v) (bc_nv gx)). rewrite <- Ii. apply (HQ A N V S C); try assumption. apply ps_query. exact Im.
Qed.

(** ** On functions: bags of one shape *)
Definition table_of (N : nat) (f : nat -> F p) : list (F p) := map f (seq 0 (2 ^ N)).
Lemma table_len : forall N f, length (table_of N f) = 2 ^ N. Proof. intros. unfold table_of. rewrite map_length, seq_length. reflexivity. Qed.
Lemma table_nth : forall N f j, j < 2 ^ N -> nth j (table_of N f) F0 = f j. Proof. intros N f j H. unfold table_of. apply (nth_map_seq f). exact H. Qed.
Lemma lsum_logd : forall N g f s, lsum N g (f, s, fun _ => F1) = logd (wcol (table_of N f) (table_of N s) (ones (2 ^ N))) g.
Proof.
  intros N g f s. rewrite (logd_wcol_nth H2) by (unfold ones; rewrite ?repeat_length, !table_len; reflexivity). unfold lsum. cbn [fst snd]. rewrite table_len. apply Fsum_map_ext. intros j Hj. apply in_seq in Hj.
  rewrite !table_nth by lia. unfold ones. rewrite nth_repeat_lt by lia. reflexivity.
Qed.
Lemma bag_eq_soundN : forall debug v v' fx gx, vready v -> bag_eq_verify o debug v fx gx = Ok v' -> bc_nv fx = bc_nv gx ->
  exists g, sound v v' [g] (fun A N V => forall f s f' s', psem A V N (bc_poly fx) f -> psem A V N (bc_sel fx) s -> psem A V N (bc_poly gx) f' -> psem A V N (bc_sel gx) s' ->
    ~ In g (table_of N f) /\ ~ In g (table_of N f') /\ logd (wcol (table_of N f) (table_of N s) (ones (2 ^ N))) g = logd (wcol (table_of N f') (table_of N s') (ones (2 ^ N))) g).
Proof.
  intros debug v v' fx gx R H Hn. pose proof (vgo_refl v R) as G. unfold bag_eq_verify in H. vvirt G H.
  destruct (multitool_sound o Hp _ _ _ _ _ _ _ (y_ready _ _ _ G) H) as [g [G1 HQ]]. fwd G1. vjoin G G1. exists g. split; [exact G|].
  intros A N V S C f s f' s' Hf Hs Hf' Hs'. lift S. destruct (HQ A N V S C [(f, s, fun _ => F1)] [(f', s', fun _ => F1)]) as [Q1 Q2].
  - constructor; [|constructor]. split; [exact Hf|]. split; [exact Hs|apply ps_one; exact Im].
  - constructor; [|constructor]. split; [exact Hf'|]. split; [exact Hs'|apply ps_one; exact Im].
  - cbn [app] in Q1. inversion Q1 as [|x1 r1 Y1 Y2]; subst. inversion Y2 as [|x2 r2 Y3 Y4]; subst.
    assert (K : forall h u, avoids N g (h, u, fun _ => F1) -> ~ In g (table_of N h)).
    { intros h u0 Ha Hin. unfold table_of in Hin. apply in_map_iff in Hin. destruct Hin as [j [Hj1 Hj2]]. apply in_seq in Hj2. apply (Ha j ltac:(lia)). exact Hj1. }
    split; [eapply K; exact Y1|]. split; [eapply K; exact Y3|]. rewrite <- !lsum_logd. unfold lside in Q2. cbn [combine map fst snd bagc_max fold_right] in Q2.
    rewrite Hn, Nat.max_0_r, Nat.max_id, Nat.sub_diag in Q2. rewrite !Fsum_cons, !Fsum_nil in Q2. unfold Fdiv in Q2. change (2 ^ 0) with 1 in Q2. assert (H1 : @ofN p 1 = F1) by (rewrite ofN_S, ofN_0; ring). rewrite H1 in Q2.
    assert (H3 : Finv (@F1 p) = F1) by (transitivity (Finv (@F1 p) * F1)%F; [ring|apply Finv_l; [exact Hp|apply (F1_neq_0 Hp)]]). rewrite H3 in Q2.
    transitivity (lsum N g (f, s, fun _ => F1) * F1 + F0)%F; [ring|]. rewrite Q2. ring.
Qed.

(** ** Prescribed permutation *)
Lemma ps_ordered : forall A V N id, mget V id = Some (VFun ordered_fun) -> psem A V N id (fun j => ofN (j mod 2 ^ fst (A id))).
Proof.
  intros A V N id H. eapply ps_fun; [exact H|]. intros j _ _ y Hy. rewrite ordered_bpoint in Hy. assert (Q := Okinj _ _ _ Hy). rewrite <- Q. f_equal. apply Nat.mod_mod. apply Nat.pow_nonzero. lia.
Qed.
Lemma ps_mle : forall A V N id n l, mget V id = Some (VFun (mle_fun (mkMle n l))) -> length l = 2 ^ n -> psem A V N id (per n l).
Proof.
  intros A V N id n l H Hl. eapply ps_fun; [exact H|]. intros j _ _ y Hy. unfold mle_fun in Hy. rewrite ark_evaluate_spec in Hy by exact Hl. rewrite bpoint_length in Hy. cbn [nv evs] in Hy.
  destruct (n =? fst (A id)) eqn:Q; cbn [bind ounwrap] in Hy; [|discriminate]. apply Nat.eqb_eq in Q. rewrite <- Q in Hy. apply Okinj in Hy. rewrite mle_ext_bpoint in Hy by (apply Nat.mod_upper_bound; apply Nat.pow_nonzero; lia). symmetry. exact Hy.
Qed.

Lemma presc_perm_soundN : forall debug v v' fx gx perm, vready v -> presc_perm_verify o debug v fx gx perm = Ok v' -> bc_nv fx = bc_nv gx ->
  exists g g', mget (vt_virt v') (S (vt_next v)) = Some (VFun ordered_fun) /\ sound v v' [g; g'] (fun A N V => forall f f' pm, psem A V N (bc_poly fx) f -> psem A V N (bc_poly gx) f' -> psem A V N perm pm ->
    let fh := table_of N (fun j => (ofN (j mod 2 ^ fst (A (S (vt_next v)))) + g * f j)%F) in let gh := table_of N (fun j => (pm j + g * f' j)%F) in
    ~ In g' fh /\ ~ In g' gh /\ logd (wcol fh (ones (2 ^ N)) (ones (2 ^ N))) g' = logd (wcol gh (ones (2 ^ N)) (ones (2 ^ N))) g').
Proof.
  intros debug v v' fx gx perm R H Hn. pose proof (vgo_refl v R) as G. unfold presc_perm_verify in H.
  vchal G H g. vvirt G H. vvirt G H. vtrans G H. vtrans G H. vvirt G H. vvirt G H. vvirt G H. vvirt G H. vvirt G H. vvirt G H.
  destruct (bag_eq_verify _ _ _ _ _) as [w| |] eqn:Eb in H; cbn [bind] in H; try discriminate. 
  destruct (bag_eq_soundN _ _ _ _ _ (y_ready _ _ _ G) Eb Hn) as [g' [G1 HQ]]. fwd G1. vjoin G G1.
  match type of H with context [v_add_zerocheck_claim (v_add_zerocheck_claim ?w ?a) ?c] =>
    pose proof (go_zero w a (y_ready _ _ _ G)) as Ig; fwd Ig; vjoin G Ig; pose proof (go_zero (v_add_zerocheck_claim w a) c (y_ready _ _ _ G)) as Ig; fwd Ig; vjoin G Ig;
    assert (Iza : In a (vt_zc (v_add_zerocheck_claim (v_add_zerocheck_claim w a) c))) by (cbn; apply in_or_app; left; apply in_or_app; right; left; reflexivity);
    assert (Izc : In c (vt_zc (v_add_zerocheck_claim (v_add_zerocheck_claim w a) c))) by (cbn; apply in_or_app; right; left; reflexivity)
  end.
  injection H as H. exists g, g'. assert (Hord : i0 = S (vt_next v)) by congruence. split; [rewrite <- Hord, <- H; exact Im0|]. split; [subst v'; exact G|]. intros A N V S C f f' pm Hf Hf' Hpm fh gh. 
  assert (C0 : chold A V N w). { destruct C as [C1 C2]. rewrite <- H in C1, C2. split; [intros id Hi; apply C1|intros id c Hi; apply C2]; cbn; [apply in_or_app; left; apply in_or_app; left; exact Hi|exact Hi]. }
  assert (S0 : sub_map (vt_virt w) V) by (rewrite <- H in S; exact S). rewrite H in *. clear H.
  lift S.
  pose proof (ps_query A _ N _ _ Im1) as Qf. pose proof (ps_query A _ N _ _ Im2) as Qg.
  pose proof (ps_sub _ _ _ _ _ _ _ _ Im5 (ps_add _ _ _ _ _ _ _ _ Im4 (ps_ordered _ _ N _ Im0) (ps_muls _ _ _ _ _ _ _ Im3 Hf)) Qf) as Pa.
  pose proof (ps_sub _ _ _ _ _ _ _ _ Im8 (ps_add _ _ _ _ _ _ _ _ Im7 Hpm (ps_muls _ _ _ _ _ _ _ Im6 Hf')) Qg) as Pc.
  pose proof (zclaim _ _ _ _ _ _ C Iza Pa) as Za. pose proof (zclaim _ _ _ _ _ _ C Izc Pc) as Zc. cbn beta in Za, Zc.
  assert (Tf : table_of N (leaf A i1) = fh).
  { unfold fh, table_of. apply map_ext_in. intros j Hj. apply in_seq in Hj. symmetry. apply sub_eq_0. rewrite <- Hord. apply Za. lia. }
  assert (Tg : table_of N (leaf A i2) = gh).
  { unfold gh, table_of. apply map_ext_in. intros j Hj. apply in_seq in Hj. symmetry. apply sub_eq_0. apply Zc. lia. }
  destruct (HQ A N V S0 C0 (leaf A i1) (fun _ => F1) (leaf A i2) (fun _ => F1) Qf (ps_one _ _ _ _ Im) Qg (ps_one _ _ _ _ Im)) as [X1 [X2 X3]].
  assert (To : table_of N (fun _ => F1) = ones (2 ^ N)).
  { apply nth_ext with (d := F0) (d' := F0); [rewrite table_len; unfold ones; rewrite repeat_length; reflexivity|]. rewrite table_len. intros j Hj. rewrite table_nth by exact Hj. unfold ones. rewrite nth_repeat_lt by exact Hj. reflexivity. }
  rewrite Tf, Tg, To in *. auto.
Qed.
End P.
