(** Soundness of the verifier with the comparison it lacks. *)
From Coq Require Import String List Arith Lia Bool ZArith Znumtheory Ring Field.
Import ListNotations.
From Verif Require Import Res ResLemmas Fp FSum SpecMle SpecPoly SpecSumcheck SpecTracker SpecIop ModelMle MleLemmas MleProofs MleExtra ModelVp VpExtra ModelTranscript ModelSumcheck SumcheckHist PolyLemmas InterpProofs SumcheckProofs SumcheckVerify ZerocheckProofs TranscriptProofs
  Pairing ModelKzg ModelBatch ModelProver ModelVerifier ProverHist VerifierHist CompileHist TmapLemmas CompileProofs CompileExtra CompileSound IopVer SessHist SessProofs CheckHist.
Local Open Scope string_scope.
Local Open Scope list_scope.
Local Open Scope nat_scope.

Section P.
Context {p : positive} {E : pairing p}.
Hypothesis Hp : prime (Zpos p).
Add Field Fk : (F_field Hp).
Notation comm := (gcar (PG1 E)).
Implicit Types (v : vtrk E) (A : reading (p:=p)) (m : tmap (vexp p)).

(** ** Degrees *)
Lemma deg_mono : forall n d e (f : list (F p) -> F p), d <= e -> ind_degree n d f -> ind_degree n e f.
Proof. intros n d e f H Hf pre post Hl. exact (polyfun_mono d e _ H (Hf pre post Hl)). Qed.
Lemma deg_ext : forall n d (f g : list (F p) -> F p), (forall x, length x = n -> f x = g x) -> ind_degree n d f -> ind_degree n d g.
Proof. intros n d f g H Hf pre post Hl. apply (polyfun_ext d (fun x => f (pre ++ x :: post))); [|exact (Hf pre post Hl)]. intros x. apply H. rewrite app_length. cbn. lia. Qed.
Lemma deg_add : forall n d (f g : list (F p) -> F p), ind_degree n d f -> ind_degree n d g -> ind_degree n d (fun x => f x + g x)%F.
Proof. intros n d f g Hf Hg pre post Hl. apply (polyfun_add d (fun x => f (pre ++ x :: post)) (fun x => g (pre ++ x :: post))); auto. Qed.
Lemma deg_sub : forall n d (f g : list (F p) -> F p), ind_degree n d f -> ind_degree n d g -> ind_degree n d (fun x => f x - g x)%F.
Proof. intros n d f g Hf Hg pre post Hl. apply (polyfun_sub d (fun x => f (pre ++ x :: post)) (fun x => g (pre ++ x :: post))); auto. Qed.
Lemma deg_mul : forall n d e (f g : list (F p) -> F p), ind_degree n d f -> ind_degree n e g -> ind_degree n (d + e) (fun x => f x * g x)%F.
Proof. intros n d e f g Hf Hg pre post Hl. apply (polyfun_mul d e (fun x => f (pre ++ x :: post)) (fun x => g (pre ++ x :: post))); auto. Qed.
Lemma deg_const : forall n d c, ind_degree n d (fun _ : list (F p) => c).
Proof. intros n d c pre post _. apply polyfun_const. Qed.
Lemma deg_skip : forall n k d (f : list (F p) -> F p), k <= n -> ind_degree (n - k) d f -> ind_degree n d (fun x => f (skipn k x)).
Proof.
  intros n k d f Hk Hf pre post Hl. destruct (Nat.le_gt_cases k (length pre)) as [H|H].
  - apply (polyfun_ext d (fun x => f (skipn k pre ++ x :: post))); [|apply Hf; rewrite skipn_length; lia]. intros x. rewrite skipn_app. replace (k - length pre) with 0 by lia. reflexivity.
  - apply (polyfun_ext d (fun _ => f (skipn (k - length pre - 1) post))); [|apply polyfun_const]. intros x. rewrite skipn_app, (skipn_all2 pre) by lia. replace (k - length pre) with (S (k - length pre - 1)) at 2 by lia. reflexivity.
Qed.
Lemma deg_first : forall n k d (f : list (F p) -> F p), k <= n -> ind_degree k d f -> ind_degree n d (fun x => f (firstn k x)).
Proof.
  intros n k d f Hk Hf pre post Hl. destruct (Nat.le_gt_cases k (length pre)) as [H|H].
  - apply (polyfun_ext d (fun _ => f (firstn k pre))); [|apply polyfun_const]. intros x. rewrite firstn_app. replace (k - length pre) with 0 by lia. cbn [firstn]. rewrite app_nil_r. reflexivity.
  - apply (polyfun_ext d (fun x => f (pre ++ x :: firstn (k - length pre - 1) post))); [|apply Hf; rewrite firstn_length; lia]. intros x. rewrite firstn_app, (firstn_all2 pre) by lia. replace (k - length pre) with (S (k - length pre - 1)) at 2 by lia. reflexivity.
Qed.
Lemma deg_mle : forall n f, ind_degree n 1 (mle_ext (p:=p) n f).
Proof. intros n f pre post Hl. destruct (mle_coord Hp n f pre post Hl) as [a [b H]]. apply (polyfun_ext 1 (fun x => a + x * b)%F); [intros x; symmetry; apply H|apply polyfun_linear]. Qed.
Lemma deg_extension : forall A i n, fst (A i) <= n -> ind_degree n 1 (extension A i).
Proof. intros A i n H. unfold extension. apply (deg_first n (fst (A i)) 1 (mle_ext (fst (A i)) (snd (A i)))); [exact H|apply deg_mle]. Qed.
Lemma extension_corner : forall A i n j, fst (A i) <= n -> extension A i (bpoint n j) = snd (A i) (j mod 2 ^ fst (A i)).
Proof.
  intros A i n j H. unfold extension. replace n with (fst (A i) + (n - fst (A i))) at 1 by lia. rewrite bpoint_firstn. apply mle_ext_bpoint. apply Nat.mod_upper_bound. apply Nat.pow_nonzero. lia.
Qed.
Lemma deg_weighted : forall {X} n d (g : X -> list (F p) -> F p) l cs, (forall a, In a l -> ind_degree n d (g a)) -> ind_degree n d (fun x => weighted cs (map (fun a => g a x) l)).
Proof.
  intros X n d g. induction l as [|a l IH]; intros [|c cs] H; try (apply (deg_ext n d (fun _ => F0)); [reflexivity|apply deg_const]).
  apply (deg_ext n d (fun x => c * g a x + weighted cs (map (fun a => g a x) l))%F); [intros x _; cbn [map]; rewrite weighted_cons; reflexivity|].
  apply deg_add; [apply (deg_mul n 0 d (fun _ => c)); [apply deg_const|apply H; left; reflexivity]|apply IH; intros b Hb; apply H; right; exact Hb].
Qed.

(** ** The polynomial of a claim *)
Definition is (m2 : tmap (vexp p)) (q : list ((nat * list (F p)) * F p)) (n id : nat) (g : list (F p) -> F p) : Prop :=
  forall fuel x z, length x = n -> eval_loop fuel m2 q id x = Ok z -> z = g x.
Definition corner_is (A : reading (p:=p)) m (M id : nat) (g : list (F p) -> F p) : Prop := forall k y, k < 2 ^ M -> means A m id M k y -> y = g (bpoint M k).
Ltac same m He := repeat match type of He with mget _ ?i = Some _ => match goal with H1 : mget m i = Some _ |- _ => tryif constr_eq H1 He then fail else (rewrite He in H1; first [discriminate H1|injection H1; clear H1; intros <- <-|injection H1; clear H1; intros <-]) end end.

Lemma poly_of : forall A m id M j y, means A m id M j y -> forall D, degree_le m id D ->
  exists g, ind_degree M D g /\ corner_is A m M id g /\ forall x, length x = M -> value_at A m id x (g x).
Proof.
  intros A m id M j y H. induction H as [id i M j He Hn|id f M j He Hn Hf|id a b M j x y He Ha IHa Hb IHb|id a b M j x y He Ha IHa Hb IHb|id a b M j x y He Ha IHa Hb IHb
    |id a c M j x He Ha IHa|id a c M j x He Ha IHa|id a k M j x He Hk Ha IHa|id a k M j x He Hk Ha IHa]; intros D HD; inversion HD; subst; same m He.
  - exists (extension A i). split; [apply (deg_mono _ 1); [assumption|apply deg_extension; exact Hn]|]. split.
    + intros k y Hk Hm. inversion Hm; subst; same m He. symmetry. apply extension_corner. exact Hn.
    + intros x Hx. apply va_query; [exact He|lia].
  - exists (extension A id). split; [apply (deg_mono _ 1); [assumption|apply deg_extension; exact Hn]|]. split.
    + intros k y Hk Hm. inversion Hm; subst; same m He. symmetry. apply extension_corner. exact Hn.
    + intros x Hx. apply (va_fun A m id f); [exact He|lia].
  - match goal with H1 : degree_le m a D, H2 : degree_le m b D |- _ => destruct (IHa D H1) as [f [A1 [A2 A3]]]; destruct (IHb D H2) as [g [B1 [B2 B3]]] end.
    exists (fun x => f x + g x)%F. split; [apply deg_add; assumption|]. split; [|intros x' Hx; apply (va_add A m id a b); auto].
    intros k w Hk Hm. inversion Hm; subst; same m He. rewrite <- (A2 k x0), <- (B2 k y0) by assumption. reflexivity.
  - match goal with H1 : degree_le m a D, H2 : degree_le m b D |- _ => destruct (IHa D H1) as [f [A1 [A2 A3]]]; destruct (IHb D H2) as [g [B1 [B2 B3]]] end.
    exists (fun x => f x - g x)%F. split; [apply deg_sub; assumption|]. split; [|intros x' Hx; apply (va_sub A m id a b); auto].
    intros k w Hk Hm. inversion Hm; subst; same m He. rewrite <- (A2 k x0), <- (B2 k y0) by assumption. reflexivity.
  - match goal with H1 : degree_le m a ?da, H2 : degree_le m b ?db |- _ => destruct (IHa da H1) as [f [A1 [A2 A3]]]; destruct (IHb db H2) as [g [B1 [B2 B3]]] end.
    exists (fun x => f x * g x)%F. split; [eapply deg_mono; [eassumption|apply deg_mul; assumption]|]. split; [|intros x' Hx; apply (va_mul A m id a b); auto].
    intros k w Hk Hm. inversion Hm; subst; same m He. rewrite <- (A2 k x0), <- (B2 k y0) by assumption. reflexivity.
  - match goal with H1 : degree_le m a D |- _ => destruct (IHa D H1) as [f [A1 [A2 A3]]] end.
    exists (fun x => f x + c)%F. split; [apply (deg_add _ _ f (fun _ => c)); [assumption|apply deg_const]|]. split; [|intros x' Hx; apply (va_adds A m id a); auto].
    intros k w Hk Hm. inversion Hm; subst; same m He. rewrite <- (A2 k x0) by assumption. reflexivity.
  - match goal with H1 : degree_le m a D |- _ => destruct (IHa D H1) as [f [A1 [A2 A3]]] end.
    exists (fun x => c * f x)%F. split; [apply (deg_mul _ 0 D (fun _ => c) f); [apply deg_const|assumption]|]. split; [|intros x' Hx; apply (va_muls A m id a); auto].
    intros k w Hk Hm. inversion Hm; subst; same m He. rewrite <- (A2 k x0) by assumption. reflexivity.
  - match goal with H1 : degree_le m a D |- _ => destruct (IHa D H1) as [f [A1 [A2 A3]]] end.
    exists (fun x => f (skipn k x)). split; [apply deg_skip; assumption|]. split.
    + intros i w Hi Hm. inversion Hm; subst; same m He. replace (bpoint M i) with (bpoint (p:=p) ((M - k) + k) i) by (f_equal; lia). rewrite bpoint_skipn. apply A2; [|assumption]. apply Nat.div_lt_upper_bound; [apply Nat.pow_nonzero; lia|]. rewrite <- Nat.pow_add_r. replace (k + (M - k)) with M by lia. exact Hi.
    + intros x' Hx. apply (va_front A m id a k); [exact He|lia|]. apply A3. rewrite skipn_length. lia.
  - match goal with H1 : degree_le m a D |- _ => destruct (IHa D H1) as [f [A1 [A2 A3]]] end.
    exists (fun x => f (firstn k x)). split; [apply deg_first; assumption|]. split.
    + intros i w Hi Hm. inversion Hm; subst; same m He. replace (bpoint M i) with (bpoint (p:=p) (k + (M - k)) i) by (f_equal; lia). rewrite bpoint_firstn. apply A2; [|assumption]. apply Nat.mod_upper_bound. apply Nat.pow_nonzero. lia.
    + intros x' Hx. apply (va_back A m id a k); [exact He|lia|]. apply A3. rewrite firstn_length. lia.
Qed.

Lemma eval_value : forall A N m m2 q, sub_map m m2 ->
  (forall id i x y, mget m id = Some (VQuery i) -> qget q (i, x) = Some y -> fst (A i) <= length x -> y = extension A i x) ->
  (forall id f x y, mget m id = Some (VFun f) -> f x = Ok y -> fst (A id) <= length x <= N -> y = extension A id x) ->
  forall id x y, value_at A m id x y -> forall fuel z, length x <= N -> eval_loop fuel m2 q id x = Ok z -> z = y.
Proof.
  intros A N m m2 q Hs Hq Hc id x y H. induction H as [id i x He Hn|id f x He Hn|id a b x y z He Ha IHa Hb IHb|id a b x y z He Ha IHa Hb IHb|id a b x y z He Ha IHa Hb IHb
    |id a c x y He Ha IHa|id a c x y He Ha IHa|id a k x y He Hk Ha IHa|id a k x y He Hk Ha IHa]; intros [|fuel] w Hx Hw; try discriminate Hw; cbn [eval_loop] in Hw; rewrite (Hs _ _ He) in Hw; cbn [ounwrap bind run_vexp] in Hw.
  - destruct (qget q (i, x)) as [u|] eqn:Eq; [|discriminate Hw]. injection Hw as <-. exact (Hq id i x u He Eq Hn).
  - exact (Hc id f x w He Hw (conj Hn Hx)).
  - apply bind_ok_inv in Hw. destruct Hw as [y1 [H1 Hw]]. apply bind_ok_inv in Hw. destruct Hw as [y2 [H2 Hw]]. injection Hw as <-. rewrite (IHa _ _ Hx H1), (IHb _ _ Hx H2). reflexivity.
  - apply bind_ok_inv in Hw. destruct Hw as [y1 [H1 Hw]]. apply bind_ok_inv in Hw. destruct Hw as [y2 [H2 Hw]]. injection Hw as <-. rewrite (IHa _ _ Hx H1), (IHb _ _ Hx H2). reflexivity.
  - apply bind_ok_inv in Hw. destruct Hw as [y1 [H1 Hw]]. apply bind_ok_inv in Hw. destruct Hw as [y2 [H2 Hw]]. injection Hw as <-. rewrite (IHa _ _ Hx H1), (IHb _ _ Hx H2). reflexivity.
  - apply bind_ok_inv in Hw. destruct Hw as [y1 [H1 Hw]]. injection Hw as <-. rewrite (IHa _ _ Hx H1). reflexivity.
  - apply bind_ok_inv in Hw. destruct Hw as [y1 [H1 Hw]]. injection Hw as <-. rewrite (IHa _ _ Hx H1). reflexivity.
  - unfold slice_from in Hw. destruct (k <=? length x); [|discriminate Hw]. cbn [bind] in Hw. refine (IHa _ _ _ Hw). rewrite skipn_length. lia.
  - unfold slice_to in Hw. destruct (k <=? length x); [|discriminate Hw]. cbn [bind] in Hw. refine (IHa _ _ _ Hw). rewrite firstn_length. lia.
Qed.

(** ** What the aggregated commitment evaluates to *)
Section I.
Variables (m2 : tmap (vexp p)) (q : list ((nat * list (F p)) * F p)).
Lemma is_get : forall n id e g, mget m2 id = Some e -> (forall fuel x z, length x = n -> run_vexp q (eval_loop fuel m2 q) e x = Ok z -> z = g x) -> is m2 q n id g.
Proof. intros n id e g He H [|fuel] x z Hx Hi; [discriminate Hi|]. cbn [eval_loop] in Hi. rewrite He in Hi. cbn [ounwrap bind] in Hi. exact (H fuel x z Hx Hi). Qed.
Lemma is_add : forall n id a b f g, mget m2 id = Some (VAdd a b) -> is m2 q n a f -> is m2 q n b g -> is m2 q n id (fun x => f x + g x)%F.
Proof.
  intros n id a b f g He Ha Hb. apply (is_get n id _ _ He). intros fuel x z Hx H. cbn [run_vexp] in H. apply bind_ok_inv in H. destruct H as [y1 [H1 H]]. apply bind_ok_inv in H. destruct H as [y2 [H2 H]]. injection H as <-.
  rewrite (Ha _ _ _ Hx H1), (Hb _ _ _ Hx H2). reflexivity.
Qed.
Lemma is_mul : forall n id a b f g, mget m2 id = Some (VMul a b) -> is m2 q n a f -> is m2 q n b g -> is m2 q n id (fun x => f x * g x)%F.
Proof.
  intros n id a b f g He Ha Hb. apply (is_get n id _ _ He). intros fuel x z Hx H. cbn [run_vexp] in H. apply bind_ok_inv in H. destruct H as [y1 [H1 H]]. apply bind_ok_inv in H. destruct H as [y2 [H2 H]]. injection H as <-.
  rewrite (Ha _ _ _ Hx H1), (Hb _ _ _ Hx H2). reflexivity.
Qed.
Lemma is_muls : forall n id a c f, mget m2 id = Some (VMulS a c) -> is m2 q n a f -> is m2 q n id (fun x => c * f x)%F.
Proof.
  intros n id a c f He Ha. apply (is_get n id _ _ He). intros fuel x z Hx H. cbn [run_vexp] in H. apply bind_ok_inv in H. destruct H as [y1 [H1 H]]. injection H as <-. rewrite (Ha _ _ _ Hx H1). reflexivity.
Qed.
Lemma is_fun : forall n id f g, mget m2 id = Some (VFun f) -> (forall x z, length x = n -> f x = Ok z -> z = g x) -> is m2 q n id g.
Proof. intros n id f g He H. apply (is_get n id _ _ He). intros fuel x z Hx Hi. cbn [run_vexp] in Hi. exact (H x z Hx Hi). Qed.
Lemma is_ext : forall n id f g, (forall x, length x = n -> f x = g x) -> is m2 q n id f -> is m2 q n id g.
Proof. intros n id f g H Hf fuel x z Hx Hi. rewrite <- (H x Hx). exact (Hf fuel x z Hx Hi). Qed.
End I.

(** What the loops leave unchanged. *)
Record ckeep v v' : Prop := {
  k_vk : vt_vk v' = vt_vk v; k_mat : vt_mat v' = vt_mat v; k_q : vt_query v' = vt_query v; k_zc : vt_zc v' = vt_zc v; k_proof : vt_proof v' = vt_proof v;
  k_ready : vready v'; k_sub : sub_map (vt_virt v) (vt_virt v') }.
Lemma ckeep_refl : forall v, vready v -> ckeep v v.
Proof. intros v R. constructor; auto. apply sub_refl. Qed.
Lemma ckeep_trans : forall a b c, ckeep a b -> ckeep b c -> ckeep a c.
Proof. intros a b c [A1 A2 A3 A4 A5 A6 A7] [B1 B2 B3 B4 B5 B6 B7]. constructor; [congruence..|exact B6|eapply sub_trans; eassumption]. Qed.
Lemma ckeep_virtual : forall v e, vready v -> ckeep v (snd (track_virtual v e)) /\ mget (vt_virt (snd (track_virtual v e))) (fst (track_virtual v e)) = Some e /\
  vt_tr (snd (track_virtual v e)) = vt_tr v /\ vt_sc (snd (track_virtual v e)) = vt_sc v.
Proof.
  intros v e R. destruct (track_virtual v e) as [id v'] eqn:T. destruct (go_virtual v e id v' R T) as [_ [_ [H1 H2]]]. cbn [fst snd]. split; [|split; [exact H1|]].
  - unfold track_virtual, v_gen_id, put_virt in T. injection T as T1 T2. constructor; [subst v'; reflexivity..|exact (y_ready _ _ _ H2)|exact (y_sub _ _ _ H2)].
  - unfold track_virtual, v_gen_id, put_virt in T. injection T as T1 T2. subst v'. split; reflexivity.
Qed.
Lemma ckeep_tr : forall v t, vready v -> ckeep v (set_vtr v t).
Proof. intros v t R. constructor; try reflexivity; [exact R|apply sub_refl]. Qed.

Lemma conv_loop : forall (o : oracle p comm) ids v agg, is_empty (vt_tr v) = false -> vready v ->
  exists agg' v', foldM (fun (acc : nat * vtrk E) (cl : nat) =>
        ' (c, v') <- unwrap (vt_challenge o "zerocheck challenge" (snd acc)) ;;
        let '(id, v'') := v_mul_scalar v' cl c in
        Ok (add_comms v'' (fst acc) id)) (agg, v) ids = Ok (agg', v') /\
    ckeep v v' /\ vt_sc v' = vt_sc v /\ vt_tr v' = snd (run_draws o "zerocheck challenge" (length ids) (vt_tr v)) /\
    forall m2 q n f g, sub_map (vt_virt v') m2 -> is m2 q n agg f -> (forall id, In id ids -> is m2 q n id (g id)) ->
      is m2 q n agg' (fun x => f x + weighted (fst (run_draws o "zerocheck challenge" (length ids) (vt_tr v))) (map (fun id => g id x) ids))%F.
Proof.
  intros o ids. induction ids as [|id ids IH]; intros v agg He R.
  - exists agg, v. split; [reflexivity|]. split; [apply ckeep_refl; exact R|]. split; [reflexivity|]. split; [reflexivity|].
    intros m2 q n f g Hs Hf _. apply (is_ext m2 q n agg f); [|exact Hf]. intros x _. cbn [length run_draws fst map]. unfold weighted. cbn [combine map]. rewrite Fsum_nil. ring.
  - cbn [foldM]. unfold vt_challenge at 1. cbn [snd fst]. rewrite drawT_ok by exact He. cbn [bind unwrap].
    set (c := o (hist (vt_tr v)) "zerocheck challenge"). set (v1 := set_vtr v (tdraw "zerocheck challenge" c (vt_tr v))).
    assert (K1 : ckeep v v1) by (apply ckeep_tr; exact R).
    unfold v_mul_scalar, add_comms.
    destruct (ckeep_virtual v1 (VMulS id c) (k_ready _ _ K1)) as [K2 [G2 [T2 S2]]]. destruct (track_virtual v1 (VMulS id c)) as [i2 v2]. cbn [fst snd] in K2, G2, T2, S2.
    cbn [bind].
    destruct (ckeep_virtual v2 (VAdd agg i2) (k_ready _ _ K2)) as [K3 [G3 [T3 S3]]]. destruct (track_virtual v2 (VAdd agg i2)) as [i3 v3]. cbn [fst snd] in K3, G3, T3, S3.
    assert (T : vt_tr v3 = tdraw "zerocheck challenge" c (vt_tr v)) by (rewrite T3, T2; reflexivity).
    destruct (IH v3 i3) as [agg' [v' [I1 [I2 [I3 [I4 I5]]]]]]; [rewrite T; reflexivity|exact (k_ready _ _ K3)|].
    exists agg', v'. split; [exact I1|]. split; [exact (ckeep_trans _ _ _ K1 (ckeep_trans _ _ _ K2 (ckeep_trans _ _ _ K3 I2)))|].
    split; [rewrite I3, S3, S2; reflexivity|]. rewrite T in I4, I5. cbn [length run_draws]. fold c.
    destruct (run_draws o "zerocheck challenge" (length ids) (tdraw "zerocheck challenge" c (vt_tr v))) as [cs t']. cbn [fst snd] in *. split; [exact I4|].
    intros m2 q n f g Hs Hf Hg.
    assert (Ha : is m2 q n i3 (fun x => f x + c * g id x)%F).
    { apply (is_add m2 q n i3 agg i2 f (fun x => c * g id x)%F); [apply Hs; apply (k_sub _ _ I2); exact G3|exact Hf|].
      apply (is_muls m2 q n i2 id c (g id)); [apply Hs; apply (k_sub _ _ I2); apply (k_sub _ _ K3); exact G2|apply Hg; left; reflexivity]. }
    apply (is_ext m2 q n agg' (fun x => (f x + c * g id x) + weighted cs (map (fun id => g id x) ids))%F); [intros x _; cbn [map]; rewrite weighted_cons; ring|].
    apply (I5 m2 q n (fun x => f x + c * g id x)%F g); [exact Hs|exact Ha|]. intros i Hi. apply Hg. right. exact Hi.
Qed.
Lemma agg_loop : forall (o : oracle p comm) cls v agg sum, is_empty (vt_tr v) = false -> vready v ->
  exists agg' v', foldM (fun (acc : nat * F p * vtrk E) (cl : nat * F p) =>
        let '(agg, sum, v) := acc in
        ' (c, v') <- unwrap (vt_challenge o "sumcheck challenge" v) ;;
        let '(id, v'') := v_mul_scalar v' (fst cl) c in
        let '(agg', v3') := add_comms v'' agg id in
        Ok (agg', (sum + snd cl * c)%F, v3')) (agg, sum, v) cls =
      Ok (agg', (sum + weighted (fst (run_draws o "sumcheck challenge" (length cls) (vt_tr v))) (map snd cls))%F, v') /\
    ckeep v v' /\ vt_sc v' = vt_sc v /\ vt_tr v' = snd (run_draws o "sumcheck challenge" (length cls) (vt_tr v)) /\
    forall m2 q n f gs, sub_map (vt_virt v') m2 -> is m2 q n agg f -> Forall2 (fun cl g => is m2 q n (fst cl) g) cls gs ->
      is m2 q n agg' (fun x => f x + weighted (fst (run_draws o "sumcheck challenge" (length cls) (vt_tr v))) (map (fun g => g x) gs))%F.
Proof.
  intros o cls. induction cls as [|cl cls IH]; intros v agg sum He R.
  - exists agg, v. cbn [foldM length run_draws fst snd map]. split; [do 3 f_equal; unfold weighted; cbn [combine map]; rewrite Fsum_nil; ring|]. split; [apply ckeep_refl; exact R|]. split; [reflexivity|]. split; [reflexivity|].
    intros m2 q n f gs Hs Hf Hg. inversion Hg; subst. apply (is_ext m2 q n agg f); [|exact Hf]. intros x _. unfold weighted. cbn [combine map]. rewrite Fsum_nil. ring.
  - cbn [foldM]. unfold vt_challenge at 1. cbn [snd fst]. rewrite drawT_ok by exact He. cbn [bind unwrap].
    set (c := o (hist (vt_tr v)) "sumcheck challenge"). set (v1 := set_vtr v (tdraw "sumcheck challenge" c (vt_tr v))).
    assert (K1 : ckeep v v1) by (apply ckeep_tr; exact R).
    unfold v_mul_scalar at 1, add_comms at 1.
    destruct (ckeep_virtual v1 (VMulS (fst cl) c) (k_ready _ _ K1)) as [K2 [G2 [T2 S2]]]. destruct (track_virtual v1 (VMulS (fst cl) c)) as [i2 v2]. cbn [fst snd] in K2, G2, T2, S2.
    cbn [bind].
    destruct (ckeep_virtual v2 (VAdd agg i2) (k_ready _ _ K2)) as [K3 [G3 [T3 S3]]]. destruct (track_virtual v2 (VAdd agg i2)) as [i3 v3]. cbn [fst snd] in K3, G3, T3, S3.
    cbn [bind].
    assert (T : vt_tr v3 = tdraw "sumcheck challenge" c (vt_tr v)) by (rewrite T3, T2; reflexivity).
    destruct (IH v3 i3 (sum + snd cl * c)%F) as [agg' [v' [I1 [I2 [I3 [I4 I5]]]]]]; [rewrite T; reflexivity|exact (k_ready _ _ K3)|].
    exists agg', v'. rewrite T in I1, I4, I5. cbn [length run_draws]. fold c.
    destruct (run_draws o "sumcheck challenge" (length cls) (tdraw "sumcheck challenge" c (vt_tr v))) as [cs t']. cbn [fst snd] in *.
    split; [etransitivity; [exact I1|]; cbn [map]; rewrite weighted_cons; do 3 f_equal; ring|].
    split; [exact (ckeep_trans _ _ _ K1 (ckeep_trans _ _ _ K2 (ckeep_trans _ _ _ K3 I2)))|].
    split; [rewrite I3, S3, S2; reflexivity|]. split; [exact I4|].
    intros m2 q n f gs0 Hs Hf Hg. inversion Hg as [|? g ? gs Hg1 Hg2]; subst.
    assert (Ha : is m2 q n i3 (fun x => f x + c * g x)%F).
    { apply (is_add m2 q n i3 agg i2 f (fun x => c * g x)%F); [apply Hs; apply (k_sub _ _ I2); exact G3|exact Hf|].
      apply (is_muls m2 q n i2 (fst cl) c g); [apply Hs; apply (k_sub _ _ I2); apply (k_sub _ _ K3); exact G2|exact Hg1]. }
    apply (is_ext m2 q n agg' (fun x => (f x + c * g x) + weighted cs (map (fun g => g x) gs))%F); [intros x _; cbn [map]; rewrite weighted_cons; ring|].
    apply (I5 m2 q n (fun x => f x + c * g x)%F gs); [exact Hs|exact Ha|exact Hg2].
Qed.

Lemma check_run : forall (o : oracle p comm) v, is_empty (vt_tr v) = false -> vready v ->
  forall zs t1 r t2 cs t3,
    run_draws o "zerocheck challenge" (length (vt_zc v)) (vt_tr v) = (zs, t1) -> run_draws o "0check r" (cp_nv (vt_proof v)) t1 = (r, t2) ->
    run_draws o "sumcheck challenge" (length (vt_sc v) + 1) t2 = (cs, t3) ->
  exists agg v2, ckeep v v2 /\ last_check o v =
    (let cp := vt_proof v in
     ' (sub, _) <- map_err (sc_verify o (weighted cs (map snd (vt_sc v) ++ [F0])) (cp_sc cp) (cp_deg cp) (cp_nv cp) t3) IOPInvalidVerifier ;;
     y <- eval_virtual_comm v2 agg (sub_point sub) ;;
     Ok (Feqb y (sub_eval sub))) /\
    forall P, (forall id, In id (claimed_ids v) -> is (vt_virt v2) (vt_query v) (cp_nv (vt_proof v)) id (P id)) ->
      is (vt_virt v2) (vt_query v) (cp_nv (vt_proof v)) agg (aggregate v P zs r cs).
Proof.
  intros o v He R zs t1 r t2 cs t3 R1 R2 R3. unfold last_check, v_convert_zerocheck_claims.
  assert (He1 : is_empty t1 = false).
  { pose proof (proj1 (run_draws_nonempty o "zerocheck challenge" (length (vt_zc v)) (vt_tr v) He)) as X. rewrite R1 in X. exact X. }
  assert (He2 : is_empty t2 = false).
  { pose proof (proj1 (run_draws_nonempty o "0check r" (cp_nv (vt_proof v)) t1 He1)) as X. rewrite R2 in X. exact X. }
  unfold track_virtual_comm.
  destruct (ckeep_virtual v (VFun (fun _ => Ok F0)) R) as [K0 [G0 [T0 S0]]]. destruct (track_virtual v (VFun (fun _ => Ok F0))) as [i0 v0]. cbn [fst snd] in K0, G0, T0, S0.
  destruct (conv_loop o (vt_zc v0) v0 i0) as [agg [v1 [A1 [A2 [A3 [A4 A5]]]]]]; [rewrite T0; exact He|exact (k_ready _ _ K0)|].
  rewrite A1. cbn [bind]. rewrite T0, (k_zc _ _ K0), R1 in A4, A5. cbn [fst snd] in A4, A5. rewrite A4, draw_vecT_ok by exact He1. rewrite R2. cbn [unwrap bind].
  assert (Kr : ckeep v1 (set_vtr v1 t2)) by (apply ckeep_tr; exact (k_ready _ _ A2)).
  destruct (ckeep_virtual (set_vtr v1 t2) (VFun (fun pt => eq_eval pt r)) (k_ready _ _ Kr)) as [K3 [G3 [T3 S3]]]. destruct (track_virtual (set_vtr v1 t2) _) as [i3 v3]. cbn [fst snd] in K3, G3, T3, S3.
  unfold mul_comms. destruct (ckeep_virtual v3 (VMul agg i3) (k_ready _ _ K3)) as [K4 [G4 [T4 S4]]]. destruct (track_virtual v3 (VMul agg i3)) as [i4 v4]. cbn [fst snd] in K4, G4, T4, S4.
  set (v5 := v_add_sumcheck_claim v4 i4 F0).
  assert (K5 : ckeep v4 v5) by (constructor; try reflexivity; [exact (k_ready _ _ K4)|apply sub_refl]).
  unfold v_aggregate_sumcheck_claims, track_virtual_comm. cbn [bind].
  destruct (ckeep_virtual v5 (VFun (fun _ => Ok F0)) (k_ready _ _ K5)) as [K6 [G6 [T6 S6]]]. destruct (track_virtual v5 (VFun (fun _ => Ok F0))) as [i6 v6]. cbn [fst snd] in K6, G6, T6, S6.
  assert (T : vt_tr v6 = t2) by (rewrite T6; unfold v5, v_add_sumcheck_claim; cbn [vt_tr]; rewrite T4, T3; reflexivity).
  assert (S : vt_sc v6 = vt_sc v ++ [(i4, F0)]).
  { rewrite S6. unfold v5, v_add_sumcheck_claim. cbn [vt_sc]. rewrite S4, S3. cbn [set_vtr vt_sc]. rewrite A3, S0. reflexivity. }
  rewrite S. destruct (agg_loop o (vt_sc v ++ [(i4, F0)]) v6 i6 F0) as [agg' [v7 [B1 [B2 [B3 [B4 B5]]]]]]; [rewrite T; exact He2|exact (k_ready _ _ K6)|].
  rewrite B1. cbn [bind]. rewrite T, app_length in B4, B5. cbn [length] in B4, B5. rewrite T, app_length. cbn [length]. rewrite R3 in B4, B5 |- *. cbn [fst snd] in B4, B5 |- *.
  exists agg', v7.
  assert (K : ckeep v v7) by (repeat (eapply ckeep_trans; [eassumption|]); apply ckeep_refl; exact (k_ready _ _ B2)).
  split; [exact K|]. rewrite B4, map_app. cbn [map snd]. split.
  - replace (F0 + weighted cs (map snd (vt_sc v) ++ [F0]))%F with (weighted cs (map snd (vt_sc v) ++ [F0])) by ring. reflexivity.
  - intros P HP. set (n := cp_nv (vt_proof v)) in *. set (m2 := vt_virt v7) in *. set (q := vt_query v) in *.
    assert (Lr : length r = n) by (pose proof (run_draws_length o "0check r" n t1) as L; rewrite R2 in L; exact L).
    assert (X6 : sub_map (vt_virt v6) m2) by exact (k_sub _ _ B2).
    assert (X5 : sub_map (vt_virt v5) m2) by (eapply sub_trans; [exact (k_sub _ _ K6)|exact X6]).
    assert (X4 : sub_map (vt_virt v4) m2) by (eapply sub_trans; [exact (k_sub _ _ K5)|exact X5]).
    assert (X3 : sub_map (vt_virt v3) m2) by (eapply sub_trans; [exact (k_sub _ _ K4)|exact X4]).
    assert (X1 : sub_map (vt_virt v1) m2) by (eapply sub_trans; [exact (k_sub _ _ K3)|exact X3]).
    assert (X0 : sub_map (vt_virt v0) m2) by (eapply sub_trans; [exact (k_sub _ _ A2)|exact X1]).
    set (h := fun x => weighted zs (map (fun id => P id x) (vt_zc v))).
    assert (Hz : is m2 q n agg h).
    { apply (is_ext m2 q n agg (fun x => F0 + h x)%F); [intros; ring|]. unfold h. apply (A5 m2 q n (fun _ => F0) P); [exact X1| |].
      - apply (is_fun m2 q n i0 (fun _ => Ok F0) _ (X0 _ _ G0)). intros x z _ H. injection H as <-. reflexivity.
      - intros id Hid. apply HP. apply in_or_app. left. exact Hid. }
    assert (H4 : is m2 q n i4 (fun x => h x * eqf x r)%F).
    { apply (is_mul m2 q n i4 agg i3 h (fun x => eqf x r) (X4 _ _ G4) Hz). apply (is_fun m2 q n i3 _ _ (X3 _ _ G3)). intros x z Hx H. rewrite eq_eval_spec in H by congruence. injection H as <-. reflexivity. }
    apply (is_ext m2 q n agg' (fun x => F0 + weighted cs (map (fun g => g x) (map (fun cl => P (fst cl)) (vt_sc v) ++ [fun x => h x * eqf x r])))%F).
    { intros x _. unfold aggregate. fold (h x). rewrite map_app, map_map. cbn [map]. ring. }
    apply (B5 m2 q n (fun _ => F0)); [apply sub_refl| |].
    + apply (is_fun m2 q n i6 (fun _ => Ok F0) _ (X6 _ _ G6)). intros x z _ H. injection H as <-. reflexivity.
    + apply Forall2_app; [|constructor; [exact H4|constructor]]. assert (HI : forall cl, In cl (vt_sc v) -> is m2 q n (fst cl) (P (fst cl))).
      { intros cl Hcl. apply HP. apply in_or_app. right. apply in_map. exact Hcl. }
      clear - HI. induction (vt_sc v) as [|cl l IH]; cbn [map]; constructor; [apply HI; left; reflexivity|apply IH; intros c Hc; apply HI; right; exact Hc].
Qed.

(** ** The combination of all claims *)
Lemma all_polys : forall A N v f D, valued A N v f -> (forall id, In id (claimed_ids v) -> degree_le (vt_virt v) id D) ->
  exists P, polynomials A N v P /\ (forall id, In id (claimed_ids v) -> ind_degree N D (P id)) /\
    (forall id j, In id (claimed_ids v) -> j < 2 ^ N -> f id j = P id (bpoint N j)).
Proof.
  intros A N v f D Hv Hd. unfold polynomials, valued in *. revert Hv Hd. generalize (claimed_ids v) as ids. induction ids as [|i ids IH]; intros Hv Hd.
  - exists (fun _ _ => F0). repeat split; intros; contradiction.
  - destruct IH as [P [P1 [P2 P3]]]; [intros id j Hi; apply Hv; right; exact Hi|intros id Hi; apply Hd; right; exact Hi|].
    assert (H0 : 0 < 2 ^ N) by (pose proof (Nat.pow_nonzero 2 N); lia).
    destruct (poly_of A (vt_virt v) i N 0 (f i 0) (Hv i 0 (or_introl eq_refl) H0) D (Hd i (or_introl eq_refl))) as [g [G1 [G2 G3]]].
    exists (fun id => if id =? i then g else P id). split; [|split].
    + intros id x Hi Hx. destruct (Nat.eqb_spec id i) as [->|Hn]; [apply G3; exact Hx|]. destruct Hi as [Hi|Hi]; [congruence|]. apply P1; assumption.
    + intros id Hi. destruct (Nat.eqb_spec id i) as [->|Hn]; [exact G1|]. destruct Hi as [Hi|Hi]; [congruence|]. apply P2; assumption.
    + intros id j Hi Hj. destruct (Nat.eqb_spec id i) as [->|Hn]; [apply (G2 j _ Hj); apply Hv; [left; reflexivity|exact Hj]|]. destruct Hi as [Hi|Hi]; [congruence|]. apply P3; assumption.
Qed.
Lemma polys_is : forall A N v P m2 q, polynomials A N v P -> sub_map (vt_virt v) m2 ->
  (forall id i x y, mget (vt_virt v) id = Some (VQuery i) -> qget q (i, x) = Some y -> fst (A i) <= length x -> y = extension A i x) -> closures_true A N v ->
  forall id, In id (claimed_ids v) -> is m2 q N id (P id).
Proof. intros A N v P m2 q HP Hs Hq Hc id Hi fuel x z Hx H. refine (eval_value A N (vt_virt v) m2 q Hs Hq Hc id x (P id x) (HP id x Hi Hx) fuel z _ H); lia. Qed.

Definition parts v (P : nat -> list (F p) -> F p) (zs r : list (F p)) : list (list (F p) -> F p) :=
  map (fun cl => P (fst cl)) (vt_sc v) ++ [fun x => weighted zs (map (fun id => P id x) (vt_zc v)) * eqf x r]%F.
Lemma aggregate_parts : forall v P zs r cs x, aggregate v P zs r cs x = weighted cs (map (fun g => g x) (parts v P zs r)).
Proof. intros v P zs r cs x. unfold aggregate, parts. rewrite map_app, map_map. reflexivity. Qed.
Lemma agg_degree : forall N D v P zs r cs, length r = N -> (forall id, In id (claimed_ids v) -> ind_degree N D (P id)) -> ind_degree N (D + 1) (aggregate v P zs r cs).
Proof.
  intros N D v P zs r cs Hr HP. apply (deg_ext N (D + 1) (fun x => weighted cs (map (fun g => g x) (parts v P zs r)))); [intros x _; symmetry; apply aggregate_parts|].
  apply (deg_weighted N (D + 1) (fun g => g)). intros g Hg. unfold parts in Hg. apply in_app_or in Hg. destruct Hg as [Hg|[<-|[]]].
  - apply in_map_iff in Hg. destruct Hg as [cl [<- Hcl]]. apply (deg_mono N D); [lia|]. apply HP. apply in_or_app. right. apply in_map. exact Hcl.
  - apply (hat_degree Hp N D (fun x => weighted zs (map (fun id => P id x) (vt_zc v))) r Hr). apply (deg_weighted N D P). intros id Hid. apply HP. apply in_or_app. left. exact Hid.
Qed.
Lemma mle_ext_table : forall n (f g : nat -> F p) r, (forall k, k < 2 ^ n -> f k = g k) -> mle_ext n f r = mle_ext n g r.
Proof. intros n f g r H. rewrite !mle_ext_as_sum. apply sumN_ext. intros k Hk. rewrite (H k Hk). reflexivity. Qed.
Lemma agg_sum : forall A N v f P zs r cs, length r = N -> valued A N v f -> (forall id j, In id (claimed_ids v) -> j < 2 ^ N -> f id j = P id (bpoint N j)) ->
  cube_sum N (aggregate v P zs r cs) = weighted cs (true_sums N v f ++ [mle_ext N (fun j => weighted zs (zeros_at v f j)) r]).
Proof.
  intros A N v f P zs r cs Hr _ HP. rewrite (cube_sum_ext' N _ (fun x => weighted cs (map (fun g => g x) (parts v P zs r)))) by (intros; apply aggregate_parts).
  rewrite (cube_sum_weighted N (fun g => g)). f_equal. unfold parts, true_sums. rewrite map_app, map_map. cbn [map]. f_equal; [|f_equal].
  - apply map_ext_in. intros cl Hcl. unfold cube_sum. apply sumN_ext. intros k Hk. symmetry. apply HP; [|exact Hk]. apply in_or_app. right. apply in_map. exact Hcl.
  - rewrite (fhat_sum N (fun x => weighted zs (map (fun id => P id x) (vt_zc v))) r Hr). apply mle_ext_table. intros k Hk. unfold zeros_at. f_equal. apply map_ext_in. intros id Hid. symmetry. apply HP; [|exact Hk]. apply in_or_app. left. exact Hid.
Qed.

(** ** The sum check with messages of degree [dm] about a polynomial of degree [df] *)
Lemma final_sound2 : forall n dm df (f : list (F p) -> F p), ind_degree n df f -> dm + 1 <= fsize p -> 1 <= dm ->
  forall ms cs pre claim, length pre + length cs = n -> final dm ms cs claim = Some (f (pre ++ cs)) ->
  claim = cube_sum (n - length pre) (fun b => f (pre ++ b)) \/
  exists j, j < length cs /\ lucky n (Nat.max dm df) f (nth j ms []) (pre ++ firstn j cs) (nth j cs F0).
Proof.
  intros n dm df f Hf Hd H1. induction ms as [|m ms IH]; intros [|c cs] pre claim Hl H; try discriminate H.
  - left. inversion H. simpl in Hl. replace (n - length pre) with 0 by lia.
    unfold cube_sum, sumN. cbn. rewrite app_nil_r. ring.
  - cbn [final] in H. destruct (Nat.eqb_spec (length m) (dm + 1)) as [Hm|]; [|discriminate].
    destruct (Feqb (nth 0 m F0 + nth 1 m F0)%F claim) eqn:Ec; [|discriminate]. apply Feqb_eq in Ec.
    destruct (existsb _ _) eqn:Ex; [discriminate|]. cbn [andb negb] in H.
    replace (pre ++ c :: cs) with ((pre ++ [c]) ++ cs) in H by (rewrite <- app_assoc; reflexivity).
    simpl in Hl. destruct (IH cs (pre ++ [c]) (interp m c)) as [E1|[j [Hj L]]]; [rewrite app_length; simpl; lia|exact H| |].
    + rewrite <- round_poly_next in E1 by lia.
      destruct (F_eq_dec claim (cube_sum (n - length pre) (fun b => f (pre ++ b)))) as [Y|N]; [left; exact Y|].
      right. exists 0. split; [simpl; lia|]. cbn [nth firstn]. rewrite app_nil_r.
      assert (Hx : exists x, interp m x <> round_poly n f pre x).
      { rewrite <- cube_sum_step in N by lia. rewrite <- Ec in N.
        rewrite <- (interp_node Hp m 0), <- (interp_node Hp m 1) in N by lia.
        change (@ofN p 0) with (@F0 p) in N. change (@ofN p 1) with (@F1 p) in N.
        destruct (F_eq_dec (interp m F0) (round_poly n f pre F0)) as [E0|N0]; [|exists F0; exact N0].
        exists F1. intros E2. apply N. rewrite E0, E2. reflexivity. }
      split; [exact Hx|]. split; [exact E1|]. apply (polyfun_agree_count Hp); [|apply (polyfun_mono df); [lia|]; apply round_poly_polyfun; auto; lia|exact Hx].
      apply (polyfun_mono dm); [lia|]. apply (interp_polyfun Hp). lia.
    + right. exists (S j). split; [simpl; lia|]. cbn [nth firstn]. rewrite <- app_assoc in L. exact L.
Qed.
Lemma final_count2 : forall n dm df (f : list (F p) -> F p), ind_degree n df f -> dm + 1 <= fsize p -> 1 <= dm ->
  forall k pre st claim, length pre + k = n -> claim <> cube_sum k (fun b => f (pre ++ b)) ->
  count (fun ch => opt_is (final dm (play st ch) ch claim) (f (pre ++ ch))) (allV p k) <= k * Nat.max dm df * fsize p ^ (k - 1).
Proof.
  intros n dm df f Hf Hd H1. set (d := Nat.max dm df). induction k as [|k IH]; intros pre st claim Hl Hne.
  - rewrite count_false; [lia|]. intros ch Hch. apply allV_in_length in Hch. destruct ch; [|discriminate].
    cbn. apply Feqb_neq. intros H. apply Hne. rewrite H. unfold cube_sum, sumN. cbn. ring.
  - set (m := st []).
    destruct ((length m =? dm + 1) && Feqb (nth 0 m F0 + nth 1 m F0)%F claim) eqn:Eg.
    2:{ rewrite count_false; [lia|]. intros ch Hch. apply allV_in_length in Hch. destruct ch as [|c ch]; [discriminate|].
        rewrite play_cons. cbn [final]. fold m. rewrite Eg. reflexivity. }
    apply andb_true_iff in Eg. destruct Eg as [Em Ec]. apply Nat.eqb_eq in Em. apply Feqb_eq in Ec.
    assert (Hx : exists x, interp m x <> round_poly n f pre x).
    { replace (S k) with (n - length pre) in Hne by lia. rewrite <- cube_sum_step in Hne by lia. rewrite <- Ec in Hne.
      rewrite <- (interp_node Hp m 0), <- (interp_node Hp m 1) in Hne by lia.
      change (@ofN p 0) with (@F0 p) in Hne. change (@ofN p 1) with (@F1 p) in Hne.
      destruct (F_eq_dec (interp m F0) (round_poly n f pre F0)) as [E0|N0]; [|exists F0; exact N0].
      exists F1. intros E1. apply Hne. rewrite E0, E1. reflexivity. }
    replace (S k - 1) with k by lia.
    eapply Nat.le_trans; [|apply bound_step].
    apply (count_step k d (k * d * fsize p ^ (k - 1)) (fun c => Feqb (interp m c) (round_poly n f pre c))).
    + apply (polyfun_agree_count Hp); [apply (polyfun_mono dm); [lia|]; apply (interp_polyfun Hp); lia|apply (polyfun_mono df); [lia|]; apply round_poly_polyfun; auto; lia|exact Hx].
    + intros c Hbad. apply Feqb_neq in Hbad.
      eapply Nat.le_trans; [|apply (IH (pre ++ [c]) (fun q => st (c :: q)) (interp m c))].
      * apply count_le. intros ch Hch. rewrite play_cons. cbn [final]. fold m.
        destruct (_ && _); [|discriminate]. rewrite <- app_assoc. cbn [app]. auto.
      * rewrite app_length. simpl. lia.
      * intros H. apply Hbad. rewrite H, round_poly_next by lia. f_equal. rewrite app_length. simpl. lia.
Qed.

(** ** False claims *)
Lemma claims_bad : forall A N v f, valued A N v f ->
  claims_hold A N v \/ (~ claims_hold A N v /\ (map snd (vt_sc v) <> true_sums N v f \/ exists k d, k < 2 ^ N /\ In d (zeros_at v f k) /\ d <> F0)).
Proof.
  intros A N v f Hv.
  assert (Hz : (forall id, In id (vt_zc v) -> forall j, j < 2 ^ N -> f id j = F0) \/ exists k d, k < 2 ^ N /\ In d (zeros_at v f k) /\ d <> F0).
  { destruct (Forall_Exists_dec (fun k => Forall (fun d : F p => d = F0) (zeros_at v f k)) (fun k => Forall_dec _ (fun d => F_eq_dec d F0) _) (seq 0 (2 ^ N))) as [H|H].
    - left. intros id Hid j Hj. rewrite Forall_forall in H. specialize (H j ltac:(apply in_seq; lia)). rewrite Forall_forall in H. apply H. unfold zeros_at. apply in_map_iff. exists id. auto.
    - right. apply Exists_exists in H. destruct H as [k [Hk H]]. apply in_seq in Hk. destruct (Forall_Exists_dec (fun d : F p => d = F0) (fun d => F_eq_dec d F0) (zeros_at v f k)) as [H2|H2]; [contradiction|].
      apply Exists_exists in H2. destruct H2 as [d [H3 H4]]. exists k, d. split; [lia|auto]. }
  destruct (list_eq_dec F_eq_dec (map snd (vt_sc v)) (true_sums N v f)) as [Hs|Hs]; [destruct Hz as [Hz|Hz]|].
  - left. split.
    + intros id Hid j Hj. rewrite <- (Hz id Hid j Hj). apply Hv; [apply in_or_app; left; exact Hid|exact Hj].
    + intros id c Hc. exists (f id). split; [intros j Hj; apply Hv; [apply in_or_app; right; apply (in_map fst) in Hc; exact Hc|exact Hj]|].
      unfold true_sums in Hs. clear - Hs Hc. induction (vt_sc v) as [|cl l IH]; [contradiction|]. cbn [map] in Hs. injection Hs as H1 H2. destruct Hc as [->|Hc]; [exact H1|exact (IH H2 Hc)].
  - right. split; [|right; exact Hz]. intros [C1 _]. destruct Hz as [k [d [Hk [Hd Hn]]]]. apply Hn. unfold zeros_at in Hd. apply in_map_iff in Hd. destruct Hd as [id [<- Hid]].
    eapply means_fun; [apply Hv; [apply in_or_app; left; exact Hid|exact Hk]|apply C1; assumption].
  - right. split; [|left; exact Hs]. intros [_ C2]. apply Hs. unfold true_sums. apply map_ext_in. intros [id c] Hcl. destruct (C2 id c Hcl) as [g [G1 G2]]. cbn [fst snd]. rewrite G2. f_equal. apply map_ext_in. intros j Hj. apply in_seq in Hj.
    eapply means_fun; [apply G1; lia|apply Hv; [|lia]]. apply in_or_app. right. apply (in_map fst) in Hcl. exact Hcl.
Qed.

(** ** Challenges on the transcript *)
Implicit Types (o : oracle p comm) (t : tr p comm).
Definition grows t t' (cs : list (F p)) : Prop := exists h, hist t' = hist t ++ h /\ challenges h = cs.
Lemma grows_refl : forall t, grows t t []. Proof. intros t. exists []. rewrite app_nil_r. auto. Qed.
Lemma grows_trans : forall a b c xs ys, grows a b xs -> grows b c ys -> grows a c (xs ++ ys).
Proof. intros a b c xs ys [h [H1 H2]] [k [K1 K2]]. exists (h ++ k). split; [rewrite K1, H1, app_assoc; reflexivity|]. unfold challenges in *. rewrite flat_map_app, H2, K2. reflexivity. Qed.
Lemma grows_draw : forall l c t, grows t (tdraw l c t) [c].
Proof. intros l c t. exists [EChal l; EMsg l (PF c)]. split; [unfold tdraw, append; cbn [hist]; rewrite <- app_assoc; reflexivity|reflexivity]. Qed.
Lemma grows_draws : forall o l n t, grows t (snd (run_draws o l n t)) (fst (run_draws o l n t)).
Proof.
  intros o l n. induction n as [|n IH]; intros t; [apply grows_refl|]. cbn [run_draws]. set (c := o (hist t) l). specialize (IH (tdraw l c t)).
  destruct (run_draws o l n (tdraw l c t)) as [cs t']. cbn [fst snd] in *. exact (grows_trans _ _ _ [c] cs (grows_draw l c t) IH).
Qed.
Lemma grows_msg : forall l (x : payload p comm) t, (forall c, x <> PF c) -> grows t (append l x t) [].
Proof. intros l x t H. exists [EMsg l x]. split; [reflexivity|]. unfold challenges. cbn. destruct x; try reflexivity. elim (H x). reflexivity. Qed.
Lemma grows_msgs : forall o ms t, grows t (snd (run_msgs o ms t)) (fst (run_msgs o ms t)).
Proof.
  intros o ms. induction ms as [|m ms IH]; intros t; [apply grows_refl|]. cbn [run_msgs]. set (t1 := append "prover msg" (PMsg m) t). set (c := o (hist t1) "Internal round"). specialize (IH (tdraw "Internal round" c t1)).
  destruct (run_msgs o ms (tdraw "Internal round" c t1)) as [cs t']. cbn [fst snd] in *. apply (grows_trans _ t1 _ []); [apply grows_msg; discriminate|].
  exact (grows_trans _ _ _ [c] cs (grows_draw _ c t1) IH).
Qed.
Lemma grows_loop : forall o msgs k i st t st' t', verify_loop o msgs k i st t = Ok (st', t') -> exists cs, grows t t' cs.
Proof.
  intros o msgs k. induction k as [|k IH]; intros i st t st' t' H; cbn [verify_loop] in H.
  - injection H as _ <-. exists []. apply grows_refl.
  - apply bind_ok_inv in H. destruct H as [m [_ H]]. apply bind_ok_inv in H. destruct H as [[[c st1] t1] [H1 H]]. destruct (IH _ _ _ _ _ H) as [cs G].
    unfold verify_round in H1. destruct (vs_finished st); [discriminate H1|]. unfold drawT, draw in H1. cbn [is_empty append] in H1. cbn [threaded bind] in H1. injection H1 as _ _ H1. exists (([] ++ [o (hist (append "prover msg" (PMsg m) t)) "Internal round"]) ++ cs).
    eapply grows_trans; [|exact G]. eapply grows_trans; [apply (grows_msg "prover msg" (PMsg m)); discriminate|]. rewrite <- H1. apply grows_draw.
Qed.
Lemma grows_verify : forall o sum pf d n t s t', sc_verify o sum pf d n t = Ok (s, t') -> exists cs, grows t t' cs.
Proof.
  intros o sum pf d n t s t' H. unfold sc_verify in H. apply bind_ok_inv in H. destruct H as [[st t2] [H1 H]]. apply bind_ok_inv in H. destruct H as [s' [_ H]]. injection H as _ <-.
  destruct (grows_loop _ _ _ _ _ _ _ _ H1) as [cs G]. exists ([] ++ cs). eapply grows_trans; [apply grows_msg|exact G]. discriminate.
Qed.
Lemma grows_batch : forall o vk comms points bp t b t', batch_verify (E:=E) o vk comms points bp t = Ok (b, t') -> exists cs, grows t t' cs.
Proof.
  intros o vk comms points bp t b t' H. unfold batch_verify in H. apply bind_ok_inv in H. destruct H as [[ts t1] [H1 H]].
  apply bind_ok_inv in H. destruct H as [e [_ H]]. apply bind_ok_inv in H. destruct H as [e2 [_ H]]. apply bind_ok_inv in H. destruct H as [e3 [_ H]]. apply bind_ok_inv in H. destruct H as [[sub t2] [H2 H]].
  apply bind_ok_inv in H. destruct H as [b' [_ H]]. injection H as _ <-.
  destruct (sc_verify o e3 (bp_sc bp) 2 (length (pf_point (bp_sc bp))) t1) as [[s' t2']| |] eqn:Hs; try discriminate H2. cbn [map_err] in H2. injection H2 as _ <-.
  destruct (grows_verify _ _ _ _ _ _ _ _ Hs) as [cs G]. destruct (is_empty t) eqn:Et; [rewrite draw_vecT_empty in H1 by exact Et; discriminate H1|]. rewrite draw_vecT_ok in H1 by exact Et. injection H1 as H1.
  exists (ts ++ cs). eapply grows_trans; [|exact G]. pose proof (grows_draws o "t" (Nat.log2_up (length comms)) t) as G1. rewrite H1 in G1. exact G1.
Qed.
Lemma grows_drawn : forall t t' cs, grows t t' cs -> SpecIop.drawn t t' = cs.
Proof. intros t t' cs [h [H1 H2]]. unfold SpecIop.drawn. rewrite H1, skipn_app, skipn_all, Nat.sub_diag. exact H2. Qed.

(** ** Soundness of the check *)
Lemma check_nonempty : forall o v b, last_check o v = Ok b -> is_empty (vt_tr v) = false.
Proof.
  intros o v b H. destruct (is_empty (vt_tr v)) eqn:He; [|reflexivity]. exfalso. unfold last_check, v_convert_zerocheck_claims in H. unfold track_virtual_comm, track_virtual, v_gen_id, put_virt in H. cbn [vt_zc] in H.
  destruct (vt_zc v) as [|id ids].
  - cbn [foldM bind vt_tr] in H. rewrite draw_vecT_empty in H by exact He. discriminate H.
  - cbn [foldM snd] in H. unfold vt_challenge at 1 in H. cbn [vt_tr] in H. unfold drawT, draw in H. rewrite He in H. discriminate H.
Qed.
Lemma nth_first : forall {X} n j (l : list X) d, j < n -> nth j (firstn n l) d = nth j l d.
Proof. intros X n j l d. revert j l. induction n as [|n IH]; intros j l H; [lia|]. destruct l as [|a l]; [reflexivity|]. destruct j as [|j]; [reflexivity|]. cbn. apply IH. lia. Qed.

(** One run of the check, in terms of the sum check. *)
Lemma check_inv : forall A N o v D P, vready v -> cp_nv (vt_proof v) = N -> 1 <= cp_deg (vt_proof v) -> cp_deg (vt_proof v) < fsize p ->
  queries_true A v -> closures_true A N v -> polynomials A N v P -> (forall id, In id (claimed_ids v) -> ind_degree N D (P id)) -> last_check o v = Ok true ->
  exists zs r cs s t3 t4, length zs = length (vt_zc v) /\ length r = N /\ length cs = length (vt_sc v) + 1 /\ length s = N /\ 0 < N /\ N <= length (pf_msgs (cp_sc (vt_proof v))) /\
    (exists t1 t2, run_draws o "zerocheck challenge" (length (vt_zc v)) (vt_tr v) = (zs, t1) /\ run_draws o "0check r" N t1 = (r, t2) /\ run_draws o "sumcheck challenge" (length (vt_sc v) + 1) t2 = (cs, t3)) /\
    (exists e, sc_verify o (weighted cs (map snd (vt_sc v) ++ [F0])) (cp_sc (vt_proof v)) (cp_deg (vt_proof v)) N t3 = Ok (mkSub s e, t4)) /\
    run_msgs o (firstn N (pf_msgs (cp_sc (vt_proof v)))) (append "aux info" (PAux (cp_deg (vt_proof v)) N) t3) = (s, t4) /\
    final (cp_deg (vt_proof v)) (firstn N (pf_msgs (cp_sc (vt_proof v)))) s (weighted cs (map snd (vt_sc v) ++ [F0])) = Some (aggregate v P zs r cs s).
Proof.
  intros A N o v D P R HN H1 H2 Hq Hc HP Hd H. pose proof (check_nonempty o v true H) as He.
  destruct (run_draws o "zerocheck challenge" (length (vt_zc v)) (vt_tr v)) as [zs t1] eqn:R1. destruct (run_draws o "0check r" (cp_nv (vt_proof v)) t1) as [r t2] eqn:R2. destruct (run_draws o "sumcheck challenge" (length (vt_sc v) + 1) t2) as [cs t3] eqn:R3.
  destruct (check_run o v He R zs t1 r t2 cs t3 R1 R2 R3) as [agg [v2 [K [L I]]]]. rewrite L in H. cbn zeta in H.
  destruct (sc_verify o _ _ _ _ t3) as [[s t4]| |] eqn:V; try discriminate H. cbn [map_err bind] in H. apply bind_ok_inv in H. destruct H as [y [Hy H]]. injection H as H. apply Feqb_eq in H.
  pose proof V as V'. apply (sc_verify_ok Hp) in V; [|lia|exact H1]. destruct V as [Hn [Hl [Rm Hf]]]. rewrite HN in *.
  assert (Hs : length (sub_point s) = N).
  { pose proof (run_msgs_length o (firstn N (pf_msgs (cp_sc (vt_proof v)))) (append "aux info" (PAux (cp_deg (vt_proof v)) N) t3)) as X. rewrite Rm in X. cbn [fst] in X. rewrite X, firstn_length. lia. }
  assert (Hy2 : y = aggregate v P zs r cs (sub_point s)).
  { unfold eval_virtual_comm in Hy. rewrite (k_q _ _ K) in Hy. refine (I P _ _ _ _ Hs Hy). intros id Hid. exact (polys_is A N v P (vt_virt v2) (vt_query v) HP (k_sub _ _ K) Hq Hc id Hid). }
  exists zs, r, cs, (sub_point s), t3, t4. pose proof (run_draws_length o "zerocheck challenge" (length (vt_zc v)) (vt_tr v)) as L1. rewrite R1 in L1. pose proof (run_draws_length o "0check r" N t1) as L2. rewrite R2 in L2.
  pose proof (run_draws_length o "sumcheck challenge" (length (vt_sc v) + 1) t2) as L3. rewrite R3 in L3. cbn [fst] in L1, L2, L3.
  split; [exact L1|]. split; [exact L2|]. split; [exact L3|]. split; [exact Hs|]. split; [exact Hn|]. split; [exact Hl|]. split; [exists t1, t2; auto|]. split; [exists (sub_eval s); destruct s; exact V'|]. split; [exact Rm|].
  rewrite Hf. f_equal. congruence.
Qed.

Lemma check_sound : forall A N o v v' f D, 2 < fsize p -> in_session o v -> cp_nv (vt_proof v) = N -> 1 <= cp_deg (vt_proof v) -> cp_deg (vt_proof v) < fsize p ->
  valued A N v f -> (forall id, In id (claimed_ids v) -> degree_le (vt_virt v) id D) -> queries_true A v -> closures_true A N v -> verify_claims_checked o v = Ok v' ->
  exists P zs r cs s rest, polynomials A N v P /\ length zs = length (vt_zc v) /\ length r = N /\ length cs = length (vt_sc v) + 1 /\ length s = N /\
    SpecIop.drawn (vt_tr v) (vt_tr v') = zs ++ r ++ cs ++ s ++ rest /\
    (claims_hold A N v \/ (~ claims_hold A N v /\ combined N v f zs r cs) \/
     exists j, j < N /\ lucky N (Nat.max (cp_deg (vt_proof v)) (D + 1)) (aggregate v P zs r cs) (nth j (pf_msgs (cp_sc (vt_proof v))) []) (firstn j s) (nth j s F0)).
Proof.
  intros A N o v v' f D H22 Hin HN H1 H2 Hv Hd Hq Hc H. pose proof (session_ready o Hp H22 v Hin) as R. unfold verify_claims_checked in H. apply bind_ok_inv in H. destruct H as [w [Hw H]]. apply bind_ok_inv in H. destruct H as [b [Hb H]].
  destruct b; [|discriminate H]. cbn [ensure bind] in H. injection H as <-.
  destruct (all_polys A N v f D Hv Hd) as [P [P1 [P2 P3]]]. pose proof (check_nonempty o v true Hb) as He.
  destruct (check_inv A N o v D P R HN H1 H2 Hq Hc P1 P2 Hb) as [zs [r [cs [s [t3 [t4 [L1 [L2 [L3 [L4 [Hn [Hl [[t1 [t2 [R1 [R2 R3]]]] [[e V] [Rm Hf]]]]]]]]]]]]]]].
  assert (Hr : exists rest, SpecIop.drawn (vt_tr v) (vt_tr w) = zs ++ r ++ cs ++ s ++ rest).
  { rewrite <- HN in R2. destruct (verify_run o v He zs t1 r t2 cs t3 R1 R2 R3) as [v2 [_ Ew]]. rewrite Ew in Hw. cbn zeta in Hw. rewrite HN in R2, Hw. rewrite V in Hw. cbn [map_err bind] in Hw.
    apply bind_ok_inv in Hw. destruct Hw as [co [_ Hw]]. apply bind_ok_inv in Hw. destruct Hw as [bp [_ Hw]]. apply bind_ok_inv in Hw. destruct Hw as [[b t5] [Hbv Hw]]. injection Hw as <-.
    destruct (grows_batch _ _ _ _ _ _ _ _ Hbv) as [rest G5]. exists rest. cbn [set_vtr vt_tr]. apply grows_drawn.
    pose proof (grows_draws o "zerocheck challenge" (length (vt_zc v)) (vt_tr v)) as G1. rewrite R1 in G1. pose proof (grows_draws o "0check r" N t1) as G2. rewrite R2 in G2. pose proof (grows_draws o "sumcheck challenge" (length (vt_sc v) + 1) t2) as G3. rewrite R3 in G3.
    pose proof (grows_msgs o (firstn N (pf_msgs (cp_sc (vt_proof v)))) (append "aux info" (PAux (cp_deg (vt_proof v)) N) t3)) as G4. rewrite Rm in G4. cbn [fst snd] in *.
    eapply grows_trans; [exact G1|]. eapply grows_trans; [exact G2|]. eapply grows_trans; [exact G3|]. eapply grows_trans; [|exact G5]. apply (grows_trans t3 (append "aux info" (PAux (cp_deg (vt_proof v)) N) t3) t4 [] s); [apply grows_msg; discriminate|exact G4]. }
  destruct Hr as [rest Hr]. exists P, zs, r, cs, s, rest. repeat (split; [assumption|]).
  destruct (claims_bad A N v f Hv) as [Hh|[Hnh _]]; [left; exact Hh|]. right.
  destruct (final_sound2 N (cp_deg (vt_proof v)) (D + 1) (aggregate v P zs r cs) (agg_degree N D v P zs r cs L2 P2) ltac:(lia) H1 _ s [] _ L4 Hf) as [Ec|[j [Hj Lk]]].
  - left. split; [exact Hnh|]. unfold combined. rewrite Ec. cbn [length app]. rewrite Nat.sub_0_r. apply (agg_sum A N v f P zs r cs L2 Hv P3).
  - right. exists j. rewrite L4 in Hj. split; [exact Hj|]. rewrite nth_first in Lk by exact Hj. exact Lk.
Qed.

Lemma play_facing : forall st (N m : nat) (x y : list (F p)), length x = m -> length y = N ->
  map (fun j => st (firstn (m + j) (x ++ y))) (seq 0 N) = play (fun pre => st (x ++ pre)) y.
Proof.
  intros st N m x y Hx Hy. unfold play. rewrite Hy. apply map_ext. intros j. rewrite firstn_app, Hx. rewrite (firstn_all2 x) by lia. do 2 f_equal. f_equal. lia.
Qed.

Lemma check_count : forall A N o v f D st q, 2 < fsize p -> in_session o v -> cp_nv (vt_proof v) = N -> 1 <= cp_deg (vt_proof v) -> cp_deg (vt_proof v) < fsize p ->
  valued A N v f -> (forall id, In id (claimed_ids v) -> degree_le (vt_virt v) id D) -> closures_true A N v -> (forall ch, queries_true A (facing st q v ch)) -> ~ claims_hold A N v ->
  count (passes st q v) (allV p (drawn_before N v + N)) <= (N + 2 + N * Nat.max (cp_deg (vt_proof v)) (D + 1)) * fsize p ^ (drawn_before N v + N - 1).
Proof.
  intros A N o v f D st q H22 Hin HN H1 H2 Hv Hd Hc Hq Hnh. pose proof (session_ready o Hp H22 v Hin) as R.
  destruct (all_polys A N v f D Hv Hd) as [P [P1 [P2 P3]]]. set (dd := Nat.max (cp_deg (vt_proof v)) (D + 1)). set (mm := drawn_before N v).
  set (Z := length (vt_zc v)). set (ms := length (vt_sc v)). assert (Hmm : mm = Z + N + ms + 1) by reflexivity.
  assert (Inv : forall x y, length x = mm -> length y = N -> passes st q v (x ++ y) = true ->
    0 < N /\ opt_is (final (cp_deg (vt_proof v)) (play (fun pre => st (x ++ pre)) y) y (weighted (firstn (ms + 1) (skipn (Z + N) x)) (map snd (vt_sc v) ++ [F0])))
      (aggregate v P (firstn Z x) (firstn N (skipn Z x)) (firstn (ms + 1) (skipn (Z + N) x)) y) = true).
  { intros x y Hx Hy Hpass. unfold passes in Hpass. set (w := facing st q v (x ++ y)) in *. set (oo := script (nchal (hist (vt_tr v))) (x ++ y)) in *.
    destruct (last_check oo w) as [b| |] eqn:Hl; try discriminate Hpass. subst b.
    destruct (check_inv A N oo w D P R HN H1 H2 (Hq (x ++ y)) Hc P1 P2 Hl) as [zs [r [cs [s [t3 [t4 [L1 [L2 [L3 [L4 [Hn [Hl2 [[t1 [t2 [R1 [R2 R3]]]] [_ [Rm Hf]]]]]]]]]]]]]]].
    split; [exact Hn|]. change (vt_zc w) with (vt_zc v) in *. change (vt_sc w) with (vt_sc v) in *. change (vt_tr w) with (vt_tr v) in *. change (cp_deg (vt_proof w)) with (cp_deg (vt_proof v)) in *.
    assert (Hms : pf_msgs (cp_sc (vt_proof w)) = play (fun pre => st (x ++ pre)) y).
    { unfold w, facing. cbn [vt_proof cp_sc pf_msgs]. rewrite HN. apply play_facing; assumption. }
    rewrite Hms in *. rewrite firstn_all2 in Rm, Hf by (rewrite play_length; lia).
    destruct (script_rounds (nchal (hist (vt_tr v))) (x ++ y) Z N ms N (vt_tr v) zs t1 r t2 cs t3 eq_refl ltac:(rewrite app_length; lia) R1 R2 R3) as [Ez [Er Ec]].
    assert (E1 : zs = firstn Z x) by (rewrite Ez, firstn_app; replace (Z - length x) with 0 by lia; cbn [firstn]; apply app_nil_r).
    assert (E2 : r = firstn N (skipn Z x)).
    { rewrite Er, skipn_app. replace (Z - length x) with 0 by lia. cbn [skipn]. rewrite firstn_app, skipn_length. replace (N - (length x - Z)) with 0 by lia. cbn [firstn]. apply app_nil_r. }
    assert (E3 : cs = firstn (ms + 1) (skipn (Z + N) x)).
    { rewrite Ec, skipn_app. replace (Z + N - length x) with 0 by lia. cbn [skipn]. rewrite firstn_app, skipn_length. replace (ms + 1 - (length x - (Z + N))) with 0 by lia. cbn [firstn]. apply app_nil_r. }
    assert (E4 : s = y).
    { pose proof (run_msgs_script (C:=comm) (play (fun pre => st (x ++ pre)) y) (x ++ y) (nchal (hist (vt_tr v))) (append "aux info" (PAux (cp_deg (vt_proof v)) N) t3) mm) as X.
      fold oo in X. rewrite Rm in X. cbn [fst] in X. rewrite X; [| |rewrite play_length, app_length; lia].
      - rewrite play_length, skipn_app, <- Hx, skipn_all, Nat.sub_diag. cbn [skipn app]. apply firstn_all.
      - unfold append. cbn [hist]. rewrite nchal_app. unfold nchal at 2. cbn [filter length].
        destruct (run_draws_script (C:=comm) (x ++ y) "zerocheck challenge" (nchal (hist (vt_tr v))) Z (vt_tr v) 0 ltac:(lia) ltac:(rewrite app_length; lia)) as [_ N1]. fold oo Z in N1, R1. rewrite R1 in N1. cbn [snd] in N1.
        destruct (run_draws_script (C:=comm) (x ++ y) "0check r" (nchal (hist (vt_tr v))) N t1 Z ltac:(lia) ltac:(rewrite app_length; lia)) as [_ N2]. fold oo in N2. rewrite R2 in N2. cbn [snd] in N2.
        destruct (run_draws_script (C:=comm) (x ++ y) "sumcheck challenge" (nchal (hist (vt_tr v))) (ms + 1) t2 (Z + N) ltac:(lia) ltac:(rewrite app_length; lia)) as [_ N3]. fold oo ms in N3, R3. rewrite R3 in N3. cbn [snd] in N3.
        rewrite N3, Hmm. lia. }
    rewrite <- E1, <- E2, <- E3. rewrite E4 in Hf. rewrite Hf. cbn [opt_is]. apply Feqb_eq. reflexivity. }
  destruct (Nat.eq_dec N 0) as [H0|H0].
  { rewrite count_false; [lia|]. intros ch Hch. apply allV_in_length in Hch. destruct (passes st q v ch) eqn:Hpass; [|reflexivity].
    rewrite <- (firstn_skipn mm ch) in Hpass. apply Inv in Hpass; [lia|rewrite firstn_length; lia|rewrite skipn_length; lia]. }
  set (bad := fun x : list (F p) => Feqb (weighted (firstn (ms + 1) (skipn (Z + N) x)) (map snd (vt_sc v) ++ [F0]))
    (weighted (firstn (ms + 1) (skipn (Z + N) x)) (true_sums N v f ++ [mle_ext N (fun k => weighted (firstn Z x) (zeros_at v f k)) (firstn N (skipn Z x))]))).
  assert (Lt : length (true_sums N v f) = ms) by apply map_length.
  assert (HK : count bad (allV p mm) <= (N + 2) * fsize p ^ (mm - 1)).
  { pose proof (count_claims Hp Z N 0 (zeros_at v f) (map snd (vt_sc v)) (true_sums N v f) bad) as X. rewrite Lt, Nat.add_0_r in X. fold ms in X. rewrite Hmm. apply X.
    - intros k. apply map_length.
    - apply map_length.
    - lia.
    - destruct (claims_bad A N v f Hv) as [Hh|[_ Hb]]; [contradiction|exact Hb].
    - intros ch _ Hb. apply Feqb_eq in Hb. exact Hb. }
  eapply Nat.le_trans; [apply (count_two_phase mm N (N * dd * fsize p ^ (N - 1)) ((N + 2) * fsize p ^ (mm - 1)) bad (passes st q v) HK)|].
  - intros x Hx Hb. apply allV_in_length in Hx. apply Feqb_neq in Hb.
    assert (Lr : length (firstn N (skipn Z x)) = N) by (rewrite firstn_length, skipn_length; lia).
    eapply Nat.le_trans; [|apply (final_count2 N (cp_deg (vt_proof v)) (D + 1) (aggregate v P (firstn Z x) (firstn N (skipn Z x)) (firstn (ms + 1) (skipn (Z + N) x))) (agg_degree N D v P _ _ _ Lr P2) ltac:(lia) H1 N []
      (fun pre => st (x ++ pre)) (weighted (firstn (ms + 1) (skipn (Z + N) x)) (map snd (vt_sc v) ++ [F0])) eq_refl)].
    + apply count_le. intros y Hy Hpass. apply allV_in_length in Hy. apply (Inv x y Hx Hy Hpass).
    + cbn [app]. intros Ec. apply Hb. rewrite Ec. exact (agg_sum A N v f P _ _ _ Lr Hv P3).
  - destruct N as [|N']; [lia|]. replace (S N' - 1) with N' by lia.
    assert (X1 : fsize p ^ mm = fsize p * fsize p ^ (mm - 1)) by (rewrite <- Nat.pow_succ_r'; f_equal; lia).
    assert (X2 : fsize p ^ (mm + S N' - 1) = fsize p ^ (mm - 1) * (fsize p * fsize p ^ N')) by (rewrite <- Nat.pow_succ_r', <- Nat.pow_add_r; f_equal; lia).
    rewrite X1, X2, Nat.pow_succ_r'. nia.
Qed.
End P.

Lemma feql_same : forall {p} (a b : list (F p)), feql a b = true -> a = b.
Proof. intros p. induction a as [|x a IH]; intros [|y b] H; try discriminate H; [reflexivity|]. cbn in H. apply andb_true_iff in H. destruct H as [H1 H2]. apply Feqb_eq in H1. rewrite H1, (IH b H2). reflexivity. Qed.
Lemma qget_in : forall {p} (l : list ((nat * list (F p)) * F p)) k z, qget l k = Some z -> In (k, z) l.
Proof.
  intros p. induction l as [|[j w] l IH]; intros k z H; [discriminate H|]. cbn [qget] in H. destruct (qkey j k) eqn:Ek.
  - injection H as <-. left. unfold qkey in Ek. apply andb_true_iff in Ek. destruct Ek as [E1 E2]. apply Nat.eqb_eq in E1. apply feql_same in E2. destruct j, k. cbn in *. subst. reflexivity.
  - right. exact (IH k z H).
Qed.
