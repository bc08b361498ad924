(** The sum-check theorems for polynomials made by the builder calls. *)
From Coq Require Import String List Arith Lia Bool ZArith Znumtheory Field.
Import ListNotations.
From Verif Require Import Res ResLemmas Fp FSum SpecMle SpecVp SpecPoly SpecSumcheck MleLemmas PolyLemmas ModelMle ModelVp VpHist MleProofs MleExtra
  VpProofs VpExtra ModelTranscript ModelSumcheck InterpProofs SumcheckHist SumcheckProofs SumcheckVerify ZerocheckProofs TranscriptProofs.
Local Open Scope string_scope.
Local Open Scope list_scope.
Local Open Scope nat_scope.

Section S.
Context {p : positive} {C : Type}.
Hypothesis Hp : prime (Zpos p).
Add Ring Fr : (@F_ring p).
Add Field Ff : (F_field Hp).

Lemma built_vals : forall (v : vp p) e, built v e -> vp_inv v /\ forall x, length x = num_variables v -> vp_val v x = pden e x.
Proof. intros v e H. destruct (built_inv v e H) as [A [_ B]]. auto. Qed.

(** A polynomial with a product has degree at least one. *)
Lemma degree_pos : forall (v : vp p) e, built v e -> products v <> [] -> 1 <= max_degree v.
Proof.
  intros v e H Hne. destruct (built_vals v e H) as [Hi _]. destruct (products v) as [|[c idx] l] eqn:E; [congruence|].
  destruct (inv_prod v Hi c idx) as [A [B _]]; [rewrite E; left; reflexivity|]. destruct idx; [congruence|]. simpl in B. lia.
Qed.

Lemma sc_complete_built : forall (o : oracle p C) sc (v : vp p) e t, built v e -> max_degree v < fsize p ->
  0 < num_variables v -> products v <> [] ->
  exists pf t', sc_prove o sc v t = Ok (pf, t') /\ length (pf_point pf) = num_variables v /\
    extract_sum pf = Ok (cube_sum (num_variables v) (pden e)) /\
    ((forall c, In c (pf_point pf) -> nonnode (max_degree v + 1) c) ->
     sc_verify o (cube_sum (num_variables v) (pden e)) pf (max_degree v) (num_variables v) t =
       Ok (mkSub (pf_point pf) (pden e (pf_point pf)), t') /\
     vp_evaluate v (pf_point pf) = Ok (pden e (pf_point pf))).
Proof.
  intros o sc v e t Hb Hd Hn Hne. destruct (built_vals v e Hb) as [Hi He]. pose proof (degree_pos v e Hb Hne) as H1.
  destruct (sc_complete Hp o sc v t Hi Hd Hn H1) as [pf [t' [A [B [D E]]]]]. exists pf, t'.
  rewrite (cube_sum_ext _ (vp_val v) (pden e)) in D, E by exact He. rewrite He in E by exact B.
  split; [exact A|]. split; [exact B|]. split; [exact D|]. intros Hc. split; [apply E; exact Hc|]. apply built_evaluate; assumption.
Qed.

Lemma sc_messages : forall (o : oracle p C) sc (v : vp p) e t, built v e -> max_degree v < fsize p -> 0 < num_variables v ->
  exists cs t', sc_prove o sc v t = Ok (mkProof cs
    (map (fun j => round_msg (num_variables v) (max_degree v) (pden e) (firstn j cs)) (seq 0 (num_variables v))), t') /\
    length cs = num_variables v.
Proof.
  intros o sc v e t Hb Hd Hn. destruct (built_vals v e Hb) as [Hi He].
  destruct (sc_prove_spec Hp o sc v t Hi Hd Hn) as [cs [t' [A [B _]]]]. exists cs, t'. split; [|exact B]. rewrite A. do 3 f_equal.
  unfold honest. rewrite B. apply map_ext_in. intros j Hj. apply in_seq in Hj. cbn [app].
  unfold round_msg, round_poly, cube_sum. apply map_ext. intros x. apply sumN_ext. intros k _. apply He.
  rewrite app_length, firstn_length. cbn [length]. rewrite bpoint_length. lia.
Qed.

Lemma prove_loop_sched : forall (o : oracle p C) sc1 sc2 (v : vp p), vp_inv v -> S (max_degree v) <= fsize p ->
  forall k i st chal cs msgs t, at_round v st chal cs -> length cs + k = num_variables v ->
  prove_loop o sc1 k i st chal msgs t = prove_loop o sc2 k i st chal msgs t.
Proof.
  intros o sc1 sc2 v Hi Hd. induction k as [|k IH]; intros i st chal cs msgs t Hat Hl; [reflexivity|]. cbn [prove_loop].
  destruct (prove_round_spec Hp v (sc1 i) st chal cs Hi Hd Hat) as [st1 [E1 [R1 S1]]]; [lia|].
  assert (E : prove_round (sc1 i) st chal = prove_round (sc2 i) st chal).
  { clear IH. unfold prove_round. destruct (num_variables (ps_poly st) <=? ps_round st); [reflexivity|].
    unfold prove_round in E1. destruct (num_variables (ps_poly st) <=? ps_round st); [discriminate E1|].
    apply bind_ok_inv in E1. destruct E1 as [[chals fl] [Ea Eb]]. rewrite Ea. cbn [bind].
    destruct (prove_round_spec Hp v (sc2 i) st chal cs Hi Hd Hat) as [st2 [E2 _]]; [lia|].
    unfold prove_round in E2. destruct (num_variables (ps_poly st) <=? ps_round st); [discriminate E2|].
    rewrite Ea in E2. cbn [bind] in E2. apply bind_ok_inv in Eb. destruct Eb as [m1 [M1 X1]]. apply bind_ok_inv in E2. destruct E2 as [m2 [M2 X2]].
    inversion X1; inversion X2; subst m1 m2. rewrite M1, M2. reflexivity. }
  rewrite <- E, E1. cbn [bind]. rewrite drawT_ok by reflexivity. cbn [bind].
  eapply (IH _ _ _ (cs ++ [_])); [exists cs; auto|]. rewrite app_length. simpl. lia.
Qed.

Lemma sc_schedule_free : forall (o : oracle p C) sc1 sc2 (v : vp p) e t, built v e -> max_degree v < fsize p ->
  sc_prove o sc1 v t = sc_prove o sc2 v t.
Proof.
  intros o sc1 sc2 v e t Hb Hd. destruct (built_vals v e Hb) as [Hi _]. unfold sc_prove.
  destruct (Nat.eq_dec (num_variables v) 0) as [E|E]; [unfold prover_init; rewrite E; reflexivity|].
  destruct (prover_init_at v Hi ltac:(lia)) as [st [-> Hat]]. cbn [bind].
  rewrite (prove_loop_sched o sc1 sc2 v Hi Hd _ 0 st None [] [] _ Hat eq_refl). reflexivity.
Qed.

Lemma sc_sound_built : forall (o : oracle p C) claimed pf (v : vp p) e t s t', built v e -> max_degree v < fsize p -> products v <> [] ->
  sc_verify o claimed pf (max_degree v) (num_variables v) t = Ok (s, t') ->
  vp_evaluate v (sub_point s) = Ok (sub_eval s) ->
  claimed = cube_sum (num_variables v) (pden e) \/
  exists j, j < num_variables v /\
    lucky (num_variables v) (max_degree v) (pden e) (nth j (pf_msgs pf) []) (firstn j (sub_point s)) (nth j (sub_point s) F0).
Proof.
  intros o claimed pf v e t s t' Hb Hd Hne H He.
  assert (Hl : length (sub_point s) = num_variables v).
  { destruct (Nat.eq_dec (length (sub_point s)) (num_variables v)) as [E|E]; [exact E|].
    rewrite vp_evaluate_err in He by exact E. discriminate He. }
  rewrite (built_evaluate v e Hb) in He by exact Hl. inversion He as [He'].
  eapply (sc_sound Hp); eauto; [apply (pden_degree Hp); exact Hb|eapply degree_pos; eauto].
Qed.

Lemma sc_sound_count_built : forall (v : vp p) e claimed st pt (t : tr p C), built v e -> max_degree v < fsize p -> products v <> [] ->
  claimed <> cube_sum (num_variables v) (pden e) ->
  count (accepts_false (num_variables v) (max_degree v) (pden e) claimed st pt t) (allV p (num_variables v)) <=
  num_variables v * max_degree v * fsize p ^ (num_variables v - 1).
Proof.
  intros v e claimed st pt t Hb Hd Hne Hc. apply (sc_sound_count Hp); auto; [apply (pden_degree Hp); exact Hb|eapply degree_pos; eauto].
Qed.

Lemma zc_sound_built : forall (o : oracle p C) pf (v : vp p) e t z t', built v e -> max_degree v + 1 < fsize p ->
  zc_verify o pf (max_degree v) (num_variables v) t = Ok (z, t') ->
  vp_evaluate v (z_point z) = Ok (z_eval z) ->
  (forall k, k < 2 ^ num_variables v -> vp_evaluate v (bpoint (num_variables v) k) = Ok F0) \/
  unlucky_r (num_variables v) (pden e) (z_init z) \/
  exists j, j < num_variables v /\
    lucky (num_variables v) (max_degree v + 1) (fun x => pden e x * eqf x (z_init z))%F (nth j (pf_msgs pf) []) (firstn j (z_point z)) (nth j (z_point z) F0).
Proof.
  intros o pf v e t z t' Hb Hd H He.
  destruct (zc_verify_inv Hp o pf (max_degree v) (num_variables v) t z t' ltac:(lia) H) as [r [t1 [s [_ [_ [_ [_ [_ [Hpt [Hl _]]]]]]]]]].
  rewrite (built_evaluate v e Hb) in He by (rewrite Hpt; exact Hl). inversion He as [He'].
  destruct (zc_sound Hp o pf (num_variables v) (max_degree v) t z t' (pden e) (pden_degree Hp v e Hb) Hd H (eq_sym He')) as [A|B]; [left|right; exact B].
  intros k Hk. rewrite (built_evaluate v e Hb) by apply bpoint_length. rewrite A by exact Hk. reflexivity.
Qed.

Lemma zc_sound_count_built : forall (v : vp p) e st pt (t : tr p C), built v e -> max_degree v + 1 < fsize p ->
  (exists k, k < 2 ^ num_variables v /\ vp_evaluate v (bpoint (num_variables v) k) <> Ok F0) ->
  count (zc_accepts (num_variables v) (max_degree v) (pden e) st pt t) (allV p (num_variables v + num_variables v)) <=
  (num_variables v + num_variables v * (max_degree v + 1)) * fsize p ^ (2 * num_variables v - 1).
Proof.
  intros v e st pt t Hb Hd [k [Hk Hne]]. apply (zc_sound_count Hp); auto; [apply (pden_degree Hp); exact Hb|].
  exists k. split; [exact Hk|]. intros E. apply Hne. rewrite (built_evaluate v e Hb) by apply bpoint_length. rewrite E. reflexivity.
Qed.

(** The unique interpolating polynomial. *)
Lemma interpolate_is_polynomial : forall (ys : list (F p)) x, ys <> [] -> length ys <= fsize p -> nonnode (length ys) x ->
  exists y, interpolate_uni_poly ys x = Ok y /\
  forall f, polyfun (length ys - 1) f -> (forall i, i < length ys -> f (ofN i) = nth i ys F0) -> y = f x.
Proof.
  intros ys x Hne Hl Hx. exists (interp ys x). split; [apply (interpolate_spec Hp); assumption|].
  intros f Hf Hi. assert (0 < length ys) by (destruct ys; [congruence|simpl; lia]).
  apply (interp_unique Hp (length ys - 1)); auto; try lia. intros i Hi'. symmetry. apply Hi. lia.
Qed.

Lemma interpolant_exists : forall (ys : list (F p)), ys <> [] -> length ys <= fsize p ->
  exists f, polyfun (length ys - 1) f /\ (forall i, i < length ys -> f (ofN i) = nth i ys F0).
Proof.
  intros ys Hne Hl. assert (0 < length ys) by (destruct ys; [congruence|simpl; lia]).
  exists (interp ys). split; [apply (interp_polyfun Hp); lia|]. intros i Hi. apply (interp_node Hp); assumption.
Qed.
End S.
