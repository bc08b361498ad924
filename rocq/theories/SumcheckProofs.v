(** The sum-check prover: round messages. *)
From Coq Require Import String List Arith Lia Bool ZArith Znumtheory Field.
Import ListNotations.
From Verif Require Import Res ResLemmas Fp FSum SpecMle SpecPoly SpecSumcheck MleLemmas PolyLemmas ModelMle ModelVp MleProofs
  VpProofs ModelTranscript ModelSumcheck InterpProofs.
Local Open Scope string_scope.
Local Open Scope list_scope.
Local Open Scope nat_scope.

Section S.
Context {p : positive}.
Add Ring Fr : (@F_ring p).

Definition line (fl : list (mle p)) (b f : nat) (x : F p) : F p :=
  let t := tab (evs (nth f fl (mkMle 0 []))) in (t (2 * b)%nat + x * (t (2 * b + 1)%nat - t (2 * b)%nat))%F.

(** Tables that are large enough for the indices below [hi]. *)
Definition fits (fl : list (mle p)) (idx : list nat) (hi : nat) : Prop :=
  forall f, In f idx -> f < length fl /\ 2 * hi <= length (evs (nth f fl (mkMle 0 []))).

Lemma zip_add_map : forall {A} (f g : A -> F p) l, zip_add (map f l) (map g l) = map (fun a => (f a + g a)%F) l.
Proof. intros A f g l. induction l as [|a l IH]; [reflexivity|]. simpl. rewrite IH. reflexivity. Qed.

Lemma repeat_map : forall {A B} (b : B) (l : list A) n, length l = n -> repeat b n = map (fun _ => b) l.
Proof. intros A B b l n <-. induction l as [|a l IH]; [reflexivity|]. simpl. rewrite IH. reflexivity. Qed.

Lemma acc_steps_spec : forall {A} (e s : A -> F p) (l : list A) (g : nat -> F p) n k,
  acc_steps (map (fun f => ((e f + ofN k * s f)%F, s f)) l) (map g (seq (S k) n)) =
  map (fun t => (g t + Fprod (map (fun f => e f + ofN t * s f)%F l))%F) (seq (S k) n).
Proof.
  intros A e s l g. induction n as [|n IH]; intros k; [reflexivity|]. cbn [seq map acc_steps].
  assert (E : map (fun es : F p * F p => ((fst es + snd es)%F, snd es)) (map (fun f => ((e f + ofN k * s f)%F, s f)) l)
            = map (fun f => ((e f + ofN (S k) * s f)%F, s f)) l).
  { rewrite map_map. apply map_ext. intros f. cbn [fst snd]. f_equal. rewrite ofN_S. ring. }
  rewrite E. f_equal.
  - rewrite iprod_Fprod, map_map. reflexivity.
  - apply IH.
Qed.

Lemma round_buf_spec : forall fl idx b hi, fits fl idx hi -> b < hi ->
  round_buf fl idx b = Ok (map (fun f => (line fl b f F0, (line fl b f F1 - line fl b f F0)%F)) idx).
Proof.
  intros fl idx b hi Hf Hb. unfold round_buf. apply mapM_ok. intros f Hi. destruct (Hf f Hi) as [H1 H2].
  rewrite (rnth_ok fl f (mkMle 0 [])) by exact H1. cbn [bind].
  rewrite (rnth_ok _ (2 * b) F0) by lia. cbn [bind]. rewrite (rnth_ok _ (2 * b + 1) F0) by lia. cbn [bind].
  unfold line, tab. f_equal. f_equal; ring.
Qed.

Lemma line_affine : forall fl b f x, line fl b f x = (line fl b f F0 + x * (line fl b f F1 - line fl b f F0))%F.
Proof. intros. unfold line. ring. Qed.

Lemma round_step_spec : forall fl idx b hi g n, fits fl idx hi -> b < hi ->
  round_step fl idx (map g (seq 0 (S n))) b =
  Ok (map (fun t => (g t + Fprod (map (fun f => line fl b f (ofN t)) idx))%F) (seq 0 (S n))).
Proof.
  intros fl idx b hi g n Hf Hb. unfold round_step. rewrite (round_buf_spec fl idx b hi) by assumption. cbn [bind seq map].
  f_equal. f_equal.
  - rewrite iprod_Fprod, map_map. reflexivity.
  - pose proof (acc_steps_spec (fun f => line fl b f F0) (fun f => line fl b f F1 - line fl b f F0)%F idx g n 0) as E.
    cbn [seq] in E.
    replace (map (fun f => (line fl b f F0, (line fl b f F1 - line fl b f F0)%F)) idx)
      with (map (fun f : nat => ((line fl b f F0 + ofN 0 * (line fl b f F1 - line fl b f F0))%F,
              (line fl b f F1 - line fl b f F0)%F)) idx).
    + rewrite E. apply map_ext. intros t. f_equal. f_equal. apply map_ext. intros f. symmetry. apply line_affine.
    + apply map_ext. intros f. f_equal. rewrite ofN_0. ring.
Qed.

Lemma round_fold_spec : forall fl idx hi n l g, fits fl idx hi -> (forall b, In b l -> b < hi) ->
  foldM (round_step fl idx) (map g (seq 0 (S n))) l =
  Ok (map (fun t => (g t + Fsum (map (fun b => Fprod (map (fun f => line fl b f (ofN t)) idx)) l))%F) (seq 0 (S n))).
Proof.
  intros fl idx hi n l. induction l as [|b l IH]; intros g Hf Hb.
  - cbn [foldM]. f_equal. apply map_ext. intros t. cbn [map]. rewrite Fsum_nil. ring.
  - cbn [foldM]. rewrite (round_step_spec fl idx b hi) by (auto; apply Hb; left; reflexivity). cbn [bind].
    rewrite (IH (fun t => g t + Fprod (map (fun f => line fl b f (ofN t)) idx))%F);
      [|exact Hf|intros c Hc; apply Hb; right; exact Hc].
    f_equal. apply map_ext. intros t. cbn [map]. rewrite Fsum_cons. ring.
Qed.

(** Value at x of the unscaled round polynomial of one product over an index range. *)
Definition psum (fl : list (mle p)) (idx : list nat) (lo len : nat) (x : F p) : F p :=
  Fsum (map (fun b => Fprod (map (fun f => line fl b f x) idx)) (seq lo len)).

Lemma run_sched_spec : forall s fl idx lo len, fits fl idx (lo + len) ->
  run_sched s fl idx lo len = Ok (map (fun t => psum fl idx lo len (ofN t)) (seq 0 (length idx + 1))).
Proof.
  induction s as [|m l IHl r IHr]; intros fl idx lo len Hf; cbn [run_sched].
  - rewrite (repeat_map F0 (seq 0 (length idx + 1))) by apply seq_length.
    replace (length idx + 1) with (S (length idx)) by lia.
    rewrite (round_fold_spec fl idx (lo + len)); [|exact Hf|intros b Hb; apply in_seq in Hb; lia].
    cbn [bind]. rewrite zip_add_map. f_equal. apply map_ext. intros t. unfold psum. ring.
  - rewrite IHl, IHr.
    + cbn [bind]. rewrite zip_add_map. f_equal. apply map_ext. intros t. unfold psum.
      rewrite <- Fsum_app, <- map_app, <- seq_app. do 3 f_equal. lia.
    + intros f Hi. destruct (Hf f Hi). split; [assumption|]. lia.
    + intros f Hi. destruct (Hf f Hi). split; [assumption|]. lia.
Qed.

Lemma polyfun_line : forall fl b f, polyfun 1 (line fl b f).
Proof. intros. unfold line. apply polyfun_linear. Qed.

Lemma psum_polyfun : forall fl idx lo len, polyfun (length idx) (psum fl idx lo len).
Proof.
  intros fl idx lo len. unfold psum.
  apply (polyfun_Fsum (length idx) (fun b x => Fprod (map (fun f => line fl b f x) idx))). intros b _.
  apply (polyfun_Fprod (fun f x => line fl b f x)). intros f _. apply polyfun_line.
Qed.

Section Prime.
Hypothesis Hp : prime (Zpos p).
Add Field Ff : (F_field Hp).

Lemma aux_nth : forall d k, k < d - 1 ->
  rnth (@extrapolation_aux p d) k = Ok (map ofN (seq 0 (S (S k))), barycentric_weights (map ofN (seq 0 (S (S k))))).
Proof.
  intros d k Hk. unfold extrapolation_aux.
  set (g := fun degree => let points := map (@ofN p) (seq 0 (1 + degree)) in (points, barycentric_weights points)).
  rewrite (rnth_ok _ k (g 0)) by (rewrite map_length, seq_length; exact Hk).
  rewrite (map_nth g), seq_nth by exact Hk. reflexivity.
Qed.

Lemma round_product_spec : forall s fl len d g c idx, fits fl idx len -> idx <> [] -> length idx <= d -> S d <= fsize p ->
  round_product s (extrapolation_aux d) fl len d (map g (seq 0 (d + 1))) (c, idx) =
  Ok (map (fun t => (g t + c * psum fl idx 0 len (ofN t))%F) (seq 0 (d + 1))).
Proof.
  intros s fl len d g c idx Hf Hne Hd Hp'. unfold round_product. cbn [fst snd].
  rewrite run_sched_spec by exact Hf. cbn [bind]. unfold usub at 1.
  replace (length idx <=? d) with true by (symmetry; apply Nat.leb_le; exact Hd). cbn [bind].
  rewrite map_map.
  set (h := fun x : F p => (psum fl idx 0 len x * c)%F).
  assert (Hh : polyfun (length idx) h).
  { apply (polyfun_ext _ (fun x => c * psum fl idx 0 len x)%F); [intros x; unfold h; ring|].
    apply polyfun_scale. apply psum_polyfun. }
  assert (Hl : 0 < length idx) by (destruct idx; [congruence|simpl; lia]).
  rewrite (mapM_ok _ (fun i => h (ofN (length idx + 1 + i)))).
  - cbn [bind]. f_equal.
    replace (map (fun t => (psum fl idx 0 len (ofN t) * c)%F) (seq 0 (length idx + 1)) ++
             map (fun i => h (ofN (length idx + 1 + i))) (seq 0 (d - length idx)))
      with (map (fun t => h (ofN t)) (seq 0 (d + 1))).
    + rewrite zip_add_map. apply map_ext. intros t. unfold h. ring.
    + replace (d + 1) with (length idx + 1 + (d - length idx)) by lia. rewrite seq_app, map_app. f_equal. simpl.
      rewrite <- (Nat.add_0_r (length idx + 1)) at 1.
      generalize (length idx + 1). intros a. generalize 0 as z. generalize (d - length idx) as n. clear.
      induction n as [|n IH]; intros z; [reflexivity|]. cbn [seq map]. f_equal.
      replace (S (a + z)) with (a + S z) by lia. apply IH.
  - intros i Hi. apply in_seq in Hi. unfold usub.
    replace (1 <=? length idx) with true by (symmetry; apply Nat.leb_le; lia). cbn [bind].
    rewrite aux_nth by lia. cbn [bind]. f_equal.
    replace (S (S (length idx - 1))) with (length idx + 1) by lia.
    rewrite (extrapolate_spec Hp); [|lia|lia|rewrite map_length, seq_length; reflexivity|].
    + apply (interp_unique Hp (length idx)); [exact Hh|rewrite map_length, seq_length; lia|lia|].
      intros j Hj. rewrite (nth_map_seq (fun t => psum fl idx 0 len (ofN t) * c)%F) by lia. reflexivity.
    + intros j Hj E. apply (@ofN_inj' p (length idx + 1 + i) j (S d)) in E; lia.
Qed.

Lemma round_products_spec : forall sc fl len d l k g, S d <= fsize p ->
  (forall c idx, In (c, idx) l -> fits fl idx len /\ idx <> [] /\ length idx <= d) ->
  round_products sc (extrapolation_aux d) fl len d (map g (seq 0 (d + 1))) k l =
  Ok (map (fun t => (g t + Fsum (map (fun cp => fst cp * psum fl (snd cp) 0 len (ofN t)) l))%F) (seq 0 (d + 1))).
Proof.
  intros sc fl len d. induction l as [|[c idx] l IH]; intros k g Hd Hl; cbn [round_products].
  - f_equal. apply map_ext. intros t. cbn [map]. rewrite Fsum_nil. ring.
  - destruct (Hl c idx (or_introl eq_refl)) as [H1 [H2 H3]]. rewrite round_product_spec by assumption. cbn [bind].
    rewrite (IH (S k) (fun t => g t + c * psum fl idx 0 len (ofN t))%F); [|exact Hd|intros c' i' Hi; apply (Hl c'); right; exact Hi].
    f_equal. apply map_ext. intros t. cbn [map fst snd]. rewrite Fsum_cons. ring.
Qed.

(** ** Prover state *)
Record st_inv (v : vp p) (st : pstate p) (cs : list (F p)) : Prop := {
  si_aux : ps_aux st = extrapolation_aux (max_degree v);
  si_chals : ps_chals st = cs;
  si_deg : max_degree (ps_poly st) = max_degree v;
  si_nv : num_variables (ps_poly st) = num_variables v;
  si_prods : products (ps_poly st) = products v;
  si_len : length (flat (ps_poly st)) = length (flat v);
  si_flat : forall i, i < length (flat v) ->
    let q := snd (nth i (flat (ps_poly st)) dummy) in
    wf_mle q /\ nv q = num_variables v - length cs /\
    forall x, mle_ext (nv q) (tab (evs q)) x = mle_ext (num_variables v) (tab (evs (snd (nth i (flat v) dummy)))) (cs ++ x)
}.

Lemma line_mle : forall (q : mle p) m b x, wf_mle q -> nv q = S m -> b < 2 ^ m ->
  (tab (evs q) (2 * b)%nat + x * (tab (evs q) (2 * b + 1)%nat - tab (evs q) (2 * b)%nat))%F =
  mle_ext (nv q) (tab (evs q)) (x :: bpoint m b).
Proof.
  intros q m b x Hw Hn Hb. rewrite Hn, mle_ext_cons'. rewrite !mle_ext_bpoint by exact Hb. ring.
Qed.

(** The message computed from tables that represent the polynomial at [cs]. *)
Lemma message_val : forall v (fl : list (mle p)) cs x, vp_inv v ->
  length cs < num_variables v -> length fl = length (flat v) ->
  (forall i, i < length (flat v) -> let q := nth i fl (mkMle 0 []) in
     wf_mle q /\ nv q = num_variables v - length cs /\
     forall y, mle_ext (nv q) (tab (evs q)) y = mle_ext (num_variables v) (tab (evs (snd (nth i (flat v) dummy)))) (cs ++ y)) ->
  Fsum (map (fun cp : F p * list nat => (fst cp * psum fl (snd cp) 0 (2 ^ (num_variables v - length cs - 1)) x)%F) (products v)) =
  round_poly (num_variables v) (vp_val v) cs x.
Proof.
  intros v fl cs x Hi Hlt Hl Hfl. unfold round_poly, cube_sum, vp_val, sumN.
  rewrite <- (Fsum_swap (fun cp b => prod_val v (cs ++ x :: bpoint (num_variables v - length cs - 1) b) cp)).
  apply Fsum_map_ext. intros [c idx] Hc. cbn [fst snd]. unfold psum. rewrite <- Fsum_map_mul_l.
  apply Fsum_map_ext. intros b Hb. apply in_seq in Hb. unfold prod_val. cbn [fst snd]. f_equal. f_equal.
  apply map_ext_in. intros f Hf. destruct (inv_prod v Hi c idx Hc) as [_ [_ Hr]].
  destruct (Hfl f (Hr f Hf)) as [Hw [Hn Hx]]. unfold line, flat_val.
  rewrite (line_mle _ (num_variables v - length cs - 1)); [|exact Hw|lia|lia]. apply Hx.
Qed.

(** Position of the prover between rounds: [cs] are the challenges drawn so far. *)
Definition at_round (v : vp p) (st : pstate p) (chal : option (F p)) (cs : list (F p)) : Prop :=
  match chal with
  | None => cs = [] /\ ps_round st = 0 /\ st_inv v st []
  | Some c => exists cs', cs = cs' ++ [c] /\ ps_round st = S (length cs') /\ st_inv v st cs'
  end.

Lemma nth_map_snd : forall (l : list (arc p)) i, nth i (map (@snd nat (mle p)) l) (mkMle 0 []) = snd (nth i l dummy).
Proof. intros l i. change (mkMle 0 []) with (snd (@dummy p)). apply map_nth. Qed.

Lemma nth_combine_snd : forall (l : list nat) (m : list (mle p)) i, length l = length m -> i < length m ->
  snd (nth i (combine l m) dummy) = nth i m (mkMle 0 []).
Proof.
  intros l m i Hl Hi. unfold dummy. rewrite combine_nth by exact Hl. reflexivity.
Qed.

Lemma mapM_fix : forall n (l : list (arc p)) (c : F p), 0 < n -> (forall m, In m l -> wf_mle (snd m) /\ nv (snd m) = n) ->
  exists fl, mapM (fun m : arc p => fix_variables (snd m) [c]) l = Ok fl /\ length fl = length l /\
  forall i, i < length l -> wf_mle (nth i fl (mkMle 0 [])) /\ nv (nth i fl (mkMle 0 [])) = n - 1 /\
    forall x, mle_ext (n - 1) (tab (evs (nth i fl (mkMle 0 [])))) x = mle_ext n (tab (evs (snd (nth i l dummy)))) (c :: x).
Proof.
  intros n l c Hn. induction l as [|m l IH]; intros H.
  - exists []. repeat split; intros; simpl in *; lia.
  - destruct IH as [fl [E [Hl Hfl]]]; [intros m' Hm'; apply H; right; exact Hm'|].
    destruct (H m (or_introl eq_refl)) as [Hw Hv].
    destruct (fix_variables_spec (snd m) [c] Hw) as [q [H1 [H2 [H3 H4]]]]; [simpl; lia|].
    exists (q :: fl). cbn [mapM]. rewrite H1. cbn [bind]. rewrite E. cbn [bind]. split; [reflexivity|].
    split; [simpl; lia|]. intros [|i] Hi.
    + cbn [nth]. simpl length in H3. split; [exact H2|]. split; [lia|]. intros x. rewrite <- Hv, <- H3. apply H4.
    + cbn [nth]. apply Hfl. simpl in Hi. lia.
Qed.

Lemma prove_round_spec : forall v sc st chal cs, vp_inv v -> S (max_degree v) <= fsize p ->
  at_round v st chal cs -> length cs < num_variables v ->
  exists st', prove_round sc st chal = Ok (st', round_msg (num_variables v) (max_degree v) (vp_val v) cs) /\
    ps_round st' = S (length cs) /\ st_inv v st' cs.
Proof.
  intros v sc st chal cs Hi Hd Hat Hlt.
  assert (Hin : forall i, i < length (flat v) -> wf_mle (snd (nth i (flat v) dummy)) /\ nv (snd (nth i (flat v) dummy)) = num_variables v).
  { intros i Hi'. apply (inv_flat v Hi). apply nth_In. exact Hi'. }
  (* the tables after the update *)
  assert (Hup : exists fl, length fl = length (flat v) /\
    (forall i, i < length (flat v) -> let q := nth i fl (mkMle 0 []) in
     wf_mle q /\ nv q = num_variables v - length cs /\
     forall y, mle_ext (nv q) (tab (evs q)) y = mle_ext (num_variables v) (tab (evs (snd (nth i (flat v) dummy)))) (cs ++ y)) /\
    ps_aux st = extrapolation_aux (max_degree v) /\ max_degree (ps_poly st) = max_degree v /\
    num_variables (ps_poly st) = num_variables v /\ products (ps_poly st) = products v /\
    length (flat (ps_poly st)) = length (flat v) /\ ps_round st = length cs /\
    match chal with
      | Some c =>
          if ps_round st =? 0 then Err IOPInvalidProver
          else
            let chals := ps_chals st ++ [c] in
            r <- rnth chals (ps_round st - 1) ;;
            fl <- mapM (fun m : arc p => fix_variables (snd m) [r]) (flat (ps_poly st)) ;;
            Ok (chals, fl)
      | None =>
          if negb (ps_round st =? 0) then Err IOPInvalidProver
          else Ok (ps_chals st, map snd (flat (ps_poly st)))
      end = Ok (cs, fl)).
  { destruct chal as [c|].
    - destruct Hat as [cs' [-> [Hr Hs]]]. destruct Hs as [s1 s2 s3 s4 s5 s6 s7].
      rewrite app_length in Hlt. simpl in Hlt.
      destruct (mapM_fix (num_variables v - length cs') (flat (ps_poly st)) c) as [fl [E [Hl Hfl]]].
      + lia.
      + intros m Hm. destruct (In_nth _ _ dummy Hm) as [i [Hi1 <-]]. rewrite s6 in Hi1.
        destruct (s7 i Hi1) as [Ha [Hb _]]. split; assumption.
      + exists fl. rewrite s6 in Hl. split; [exact Hl|]. split; [|repeat split; auto].
        * intros i Hi1 q. rewrite <- s6 in Hi1. destruct (Hfl i Hi1) as [Ha [Hb Hc]]. rewrite s6 in Hi1.
          destruct (s7 i Hi1) as [_ [Hd2 He]]. rewrite app_length. simpl length.
          split; [exact Ha|]. split; [unfold q; lia|]. intros y. unfold q. rewrite Hb, Hc, <- Hd2, He.
          rewrite <- app_assoc. reflexivity.
        * rewrite Hr, app_length. simpl. lia.
        * rewrite Hr. cbn [Nat.eqb]. rewrite s2. cbn [bind].
          rewrite (rnth_ok _ _ F0) by (rewrite app_length; simpl; lia). cbn [bind].
          replace (S (length cs') - 1) with (length cs') by lia. rewrite nth_middle, E. reflexivity.
    - destruct Hat as [-> [Hr Hs]]. destruct Hs as [s1 s2 s3 s4 s5 s6 s7].
      exists (map snd (flat (ps_poly st))). split; [rewrite map_length; exact s6|]. split; [|repeat split; auto].
      + intros i Hi1. cbn zeta. rewrite nth_map_snd. destruct (s7 i Hi1) as [Ha [Hb Hc]]. auto.
      + rewrite Hr, s2. reflexivity. }
  destruct Hup as [fl [Hl [Hfl [s1 [s3 [s4 [s5 [s6 [Hr E]]]]]]]]].
  unfold prove_round. cbn zeta in E |- *. rewrite E. cbn [bind]. rewrite s1, s3, s4, s5, Hr.
  replace (num_variables v <=? length cs) with false by (symmetry; apply Nat.leb_gt; exact Hlt).
  replace (num_variables v - (length cs + 1)) with (num_variables v - length cs - 1) by lia.
  rewrite (repeat_map F0 (seq 0 (max_degree v + 1))) by apply seq_length.
  rewrite round_products_spec.
  - cbn [bind]. eexists. split; [|split].
    + do 2 f_equal. unfold round_msg. apply map_ext. intros t. rewrite (message_val v fl cs) by assumption. ring.
    + simpl. lia.
    + constructor; cbn [ps_aux ps_chals ps_poly max_degree num_variables products flat]; try reflexivity.
      * etransitivity; [apply combine_length|]. rewrite map_length, Hl. etransitivity; [apply (f_equal (fun a => Nat.min a _)); exact s6|apply Nat.min_id].
      * intros i Hi1. rewrite nth_combine_snd; [|rewrite map_length, Hl; exact s6|rewrite Hl; exact Hi1]. apply Hfl. exact Hi1.
  - exact Hd.
  - intros c idx Hc. destruct (inv_prod v Hi c idx Hc) as [Ha [Hb Hx]]. split; [|split; assumption].
    intros f Hf. split; [rewrite Hl; apply Hx; exact Hf|]. destruct (Hfl f (Hx f Hf)) as [Hw [Hn _]].
    unfold wf_mle in Hw. rewrite Hw, Hn. rewrite <- pow2_S. apply Nat.pow_le_mono_r; lia.
Qed.
End Prime.
End S.
