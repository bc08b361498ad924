(** C08-C12: virtual polynomials, batching of zero checks, random generators. *)
From Coq Require Import List Arith ZArith Znumtheory Bool Permutation.
Import ListNotations.
From Verif Require Import Res Fp FSum SpecMle SpecVp SpecPoly ModelMle ModelVp VpHist MleLemmas PolyLemmas VpProofs VpExtra VpGrow VpDegree.
Local Open Scope nat_scope.

(** Two tables over F_13 at addresses 7 and 8, and a history that shares the first. *)
Definition exm1 : arc 13 := (7, mkMle 2 (map ofN [3; 1; 4; 1])).
Definition exm2 : arc 13 := (8, mkMle 2 (map ofN [2; 7; 1; 8])).
Definition exm3 : arc 13 := (9, mkMle 1 (map ofN [5; 6])).
Definition exv1 : vp 13 := fst (add_mle_list (vp_new 2) [exm1; exm1; exm2] (ofN 3)).
Definition exe1 : pexpr 13 :=
  PAdd PZero (PScale (ofN 3) (PProd (map (fun m => (nv (snd m), evs (snd m))) [exm1; exm1; exm2]))).

Lemma exv1_built : built exv1 exe1.
Proof.
  apply (B_add (vp_new 2) PZero [exm1; exm1; exm2] (ofN 3)).
  - apply B_new.
  - intros m [<-|[<-|[<-|[]]]]; reflexivity.
  - intros m1 m2 H1 H2. cbn in H1, H2.
    destruct H1 as [<-|[<-|[<-|[]]]]; destruct H2 as [<-|[<-|[<-|[]]]]; intros E; try reflexivity; discriminate E.
  - vm_compute. reflexivity.
Qed.

(** C08 *)
Theorem C08_evaluate : forall (p : positive) (v : vp p) (e : pexpr p), built v e ->
  forall x, length x = num_variables v -> vp_evaluate v x = Ok (pden e x).
Proof. exact @built_evaluate. Qed.
Print Assumptions C08_evaluate.

Theorem C08_materialize : forall (p : positive) (v : vp p) (e : pexpr p), built v e ->
  vp_materialize v = Ok (mkMle (num_variables v)
    (map (fun k => pden e (bpoint (num_variables v) k)) (seq 0 (2 ^ num_variables v)))).
Proof. exact @built_materialize. Qed.
Print Assumptions C08_materialize.

Theorem C08_wrong_length : forall (p : positive) (v : vp p) x,
  length x <> num_variables v -> vp_evaluate v x = Err ArithInvalidParameters.
Proof. exact @vp_evaluate_err. Qed.
Print Assumptions C08_wrong_length.

(** The builder calls succeed exactly on well-sized arguments and then describe the expected expression. *)
Theorem C08_add_mle_list : forall (p : positive) (v : vp p) e l c, built v e -> wf_arcs l -> coherent (flat v ++ l) ->
  exists v', num_variables v' = num_variables v /\
  if negb (match l with [] => true | _ => false end) && forallb (fun m => nv (snd m) =? num_variables v) l
  then add_mle_list v l c = (v', Ok tt) /\
    built v' (PAdd e (PScale c (PProd (map (fun m => (nv (snd m), evs (snd m))) l))))
  else add_mle_list v l c = (v', Err ArithInvalidParameters) /\ built v' e.
Proof. exact @built_add_list_total. Qed.
Print Assumptions C08_add_mle_list.

Theorem C08_mul_by_mle : forall (p : positive) (v : vp p) e m c, built v e -> wf_mle (snd m) -> coherent (flat v ++ [m]) ->
  if nv (snd m) =? num_variables v
  then exists u, mul_by_mle v m c = Ok u /\ num_variables u = num_variables v /\ max_degree u = max_degree v + 1
     /\ built u (PScale c (PMul e (aexpr m)))
  else mul_by_mle v m c = Err ArithInvalidParameters.
Proof. exact @built_mul_total. Qed.
Print Assumptions C08_mul_by_mle.

Theorem C08_plus : forall (p : positive) (v w : vp p) e e', built v e -> built w e' -> coherent (flat v ++ flat w) ->
  if (num_variables v =? num_variables w) || match products w with [] => true | _ => false end
  then exists u, vp_add v w = Ok u /\ num_variables u = num_variables v /\ built u (PAdd e e')
  else vp_add v w = Panic.
Proof. exact @built_add_total. Qed.
Print Assumptions C08_plus.

Example C08_ex : built exv1 exe1 /\ length (flat exv1) = 2 /\
  vp_evaluate exv1 (map ofN [2; 5]) = Ok (pden exe1 (map ofN [2; 5])) /\
  exists w u, mul_by_mle exv1 exm1 (ofN 2) = Ok w /\ vp_add exv1 w = Ok u /\ vp_evaluate u (map ofN [2; 5]) = Ok (ofN 8).
Proof.
  split; [exact exv1_built|]. split; [reflexivity|]. split; [vm_compute; reflexivity|].
  eexists; eexists. split; [vm_compute; reflexivity|]. split; vm_compute; reflexivity.
Qed.

(** C09 *)
Theorem C09_rejected_keeps_value : forall (p : positive) (v v' : vp p) e l c er,
  built v e -> wf_arcs l -> coherent (flat v ++ l) -> add_mle_list v l c = (v', Err er) ->
  num_variables v' = num_variables v /\ (forall x, vp_evaluate v' x = vp_evaluate v x) /\
  vp_materialize v' = vp_materialize v.
Proof. exact @rejected_keeps_value. Qed.
Print Assumptions C09_rejected_keeps_value.

(** The struct itself is changed by a rejected call: the degree and the stored extensions grow. *)
Theorem C09_rejected_keeps_struct_refuted : exists (v v' : vp 13) e l c er,
  built v e /\ wf_arcs l /\ coherent (flat v ++ l) /\ add_mle_list v l c = (v', Err er) /\
  max_degree v' <> max_degree v /\ length (flat v') <> length (flat v).
Proof.
  exists (vp_new 2), (fst (add_mle_list (vp_new 2) [exm1; exm3] F1)), PZero, [exm1; exm3], F1, ArithInvalidParameters.
  split; [apply B_new|]. split; [intros m [<-|[<-|[]]]; reflexivity|].
  split; [intros m1 m2 H1 H2; cbn in H1, H2; destruct H1 as [<-|[<-|[]]]; destruct H2 as [<-|[<-|[]]];
          intros E; try reflexivity; discriminate E|].
  split; [reflexivity|]. split; vm_compute; discriminate.
Qed.
Print Assumptions C09_rejected_keeps_struct_refuted.

(** C10 *)
Theorem C10_invariants : forall (p : positive) (v : vp p) e, built v e ->
  (forall c idx, In (c, idx) (products v) ->
     idx <> [] /\ length idx <= max_degree v /\ forall i, In i idx -> i < length (flat v)) /\
  (forall m, In m (flat v) -> wf_mle (snd m) /\ nv (snd m) = num_variables v) /\
  (forall a i, ptr_get (lookup v) a = Some i -> exists m, nth_error (flat v) i = Some (a, m)).
Proof.
  intros p v e H. destruct (built_inv v e H) as [Hi _].
  exact (conj (inv_prod v Hi) (conj (inv_flat v Hi) (inv_look v Hi))).
Qed.
Print Assumptions C10_invariants.

(** When every call succeeded, the recorded degree is exactly the number of factors of the longest term. (C09 shows that a
    rejected call may raise it; and multiplying a polynomial without terms raises it too.) *)
Theorem C10_degree : forall (p : positive) (v : vp p), grown v -> max_degree v = longest v.
Proof. exact @grown_longest. Qed.
Print Assumptions C10_degree.
Theorem C10_degree_refuted : exists (u : vp 13), mul_by_mle (vp_new 2) exm1 F1 = Ok u /\ max_degree u <> longest u.
Proof. eexists. split; [reflexivity|]. discriminate. Qed.
Print Assumptions C10_degree_refuted.
Example C10_ex_degree : grown exv1 /\ longest exv1 = 3 /\ longest (vp_new (p:=13) 2) = 0.
Proof. split; [apply (G_add (vp_new 2) [exm1; exm1; exm2] (ofN 3)); [apply G_new|vm_compute; reflexivity]|]. split; reflexivity. Qed.

Example C10_ex : built exv1 exe1 /\ max_degree exv1 = 3 /\ products exv1 = [(ofN 3, [0; 0; 1])].
Proof. split; [exact exv1_built|]. split; vm_compute; reflexivity. Qed.

(** C11 *)
Theorem C11_build_f_hat : forall (p : positive) (v : vp p) e r a, built v e ->
  (forall m, In m (flat v) -> fst m <> a) -> length r = num_variables v -> r <> [] ->
  exists u, build_f_hat v r a = Ok u /\ num_variables u = num_variables v /\ max_degree u = max_degree v + 1 /\
    built u (PMul e (eq_expr r)) /\
    (forall x, length x = num_variables v -> vp_evaluate u x = Ok (pden e x * eqf x r)%F) /\
    exists T, vp_materialize u = Ok T /\
      Fsum (evs T) = mle_ext (num_variables v) (fun k => pden e (bpoint (num_variables v) k)) r.
Proof. exact @built_fhat. Qed.
Print Assumptions C11_build_f_hat.

Theorem C11_build_f_hat_errors : forall (p : positive) (v : vp p) r a,
  (length r <> num_variables v \/ r = []) -> build_f_hat v r a = Err ArithInvalidParameters.
Proof. exact @built_fhat_err. Qed.
Print Assumptions C11_build_f_hat_errors.

Theorem C11_zero_stays_zero : forall (p : positive) n (f : nat -> F p) r,
  (forall k, k < 2 ^ n -> f k = F0) -> mle_ext n f r = F0.
Proof. exact @mle_ext_zero. Qed.
Print Assumptions C11_zero_stays_zero.

Theorem C11_nonzero_rarely_zero : forall p : positive, prime (Zpos p) -> forall n (f : nat -> F p),
  (exists k, k < 2 ^ n /\ f k <> F0) ->
  count (fun r => Feqb (mle_ext n f r) F0) (allV p n) <= n * fsize p ^ (n - 1).
Proof. exact @mle_zero_count. Qed.
Print Assumptions C11_nonzero_rarely_zero.

(** [allV p n] lists every vector of length n exactly once. *)
Theorem C11_allV : forall (p : positive) n, NoDup (allV p n) /\ length (allV p n) = fsize p ^ n /\
  forall x : list (F p), In x (allV p n) <-> length x = n.
Proof.
  intros p n. exact (conj (allV_NoDup n) (conj (allV_length n)
    (fun x => conj (allV_in_length n x) (allV_complete n x)))).
Qed.
Print Assumptions C11_allV.

Example C11_ex : exists u, build_f_hat exv1 (map ofN [4; 6]) 20 = Ok u /\ max_degree u = 4 /\
  count (fun r => Feqb (mle_ext 2 (fun k => pden exe1 (bpoint 2 k)) r) F0) (allV 13 2) = 12.
Proof. eexists. split; [vm_compute; reflexivity|]. split; vm_compute; reflexivity. Qed.

(** C12: [used] tracks the addresses handed out so far; the rng streams are arbitrary. *)
Theorem C12_random_mle_list : forall (p : positive) (R : Type) (g : rng p R) n d s, exists l sum s',
  random_mle_list g n d s = Ok (l, sum, s') /\ length l = d /\
  (forall m, In m l -> wf_mle (snd m) /\ nv (snd m) = n) /\
  sum = sumN (2 ^ n) (fun k => Fprod (map (fun m => tab (evs (snd m)) k) l)).
Proof.
  intros p R g n d s. destruct (random_mle_list_spec g (fun _ => []) n d s) as [l [sum [s' [A [B [C [D _]]]]]]].
  exists l, sum, s'. exact (conj A (conj B (conj C D))).
Qed.
Print Assumptions C12_random_mle_list.

Theorem C12_random_zero_mle_list : forall (p : positive) (R : Type) (g : rng p R) n d s, 1 <= d -> exists l s',
  random_zero_mle_list g n d s = Ok (l, s') /\ length l = d /\
  (forall m, In m l -> wf_mle (snd m) /\ nv (snd m) = n) /\
  (forall k, k < 2 ^ n -> Fprod (map (fun m => tab (evs (snd m)) k) l) = F0).
Proof.
  intros p R g n d s Hd. destruct (random_zero_mle_list_spec g (fun _ => []) n d s Hd) as [l [s' [A [B [C [D _]]]]]].
  exists l, s'. exact (conj A (conj B (conj C (fun k _ => D k)))).
Qed.
Print Assumptions C12_random_zero_mle_list.

Theorem C12_random_zero_degree_0 : forall (p : positive) (R : Type) (g : rng p R) n s,
  random_zero_mle_list g n 0 s = Panic.
Proof. exact @random_zero_mle_list_0. Qed.
Print Assumptions C12_random_zero_degree_0.

Theorem C12_rand : forall (p : positive) (R : Type) (g : rng p R) (used : R -> list nat),
  fresh_alloc g used -> in_range g -> forall n lo hi k s, 1 <= lo -> lo < hi ->
  exists v sum s' T, vp_rand g n lo hi k s = Ok (v, sum, s') /\ num_variables v = n /\ length (products v) = k /\
    vp_materialize v = Ok T /\ nv T = n /\ Fsum (evs T) = sum.
Proof. exact @vp_rand_spec. Qed.
Print Assumptions C12_rand.

Theorem C12_rand_zero : forall (p : positive) (R : Type) (g : rng p R) (used : R -> list nat),
  fresh_alloc g used -> in_range g -> forall n lo hi k s, 1 <= lo -> lo < hi ->
  exists v s' T, vp_rand_zero g n lo hi k s = Ok (v, s') /\ num_variables v = n /\ length (products v) = k /\
    vp_materialize v = Ok T /\ nv T = n /\ evs T = repeat F0 (2 ^ n).
Proof. exact @vp_rand_zero_spec. Qed.
Print Assumptions C12_rand_zero.

Theorem C12_random_permutation : forall (p : positive) (R : Type) (g : rng p R) n c s, exists l s',
  random_permutation g n c s = Ok (l, s') /\ Permutation (map ofN (seq 0 (c * 2 ^ n))) l.
Proof. exact @random_permutation_spec. Qed.
Print Assumptions C12_random_permutation.

Theorem C12_random_permutation_mles : forall (p : positive) (R : Type) (g : rng p R) n c s, exists ms s',
  random_permutation_mles g n c s = Ok (ms, s') /\ length ms = c /\ (forall m, In m ms -> wf_mle m /\ nv m = n) /\
  Permutation (map ofN (seq 0 (c * 2 ^ n))) (concat (map evs ms)).
Proof. exact @random_permutation_mles_spec. Qed.
Print Assumptions C12_random_permutation_mles.

Theorem C12_identity_permutation_mles : forall (p : positive) n c, exists ms,
  identity_permutation_mles (p:=p) n c = Ok ms /\ length ms = c /\
  forall i k, i < c -> k < 2 ^ n -> exists m, nth_error ms i = Some m /\ wf_mle m /\ nv m = n /\
     tab (evs m) k = ofN (i * 2 ^ n + k).
Proof. exact @identity_permutation_mles_spec. Qed.
Print Assumptions C12_identity_permutation_mles.

(** A generator whose state is the number of draws and the next free address. *)
Definition ex_rng : rng 13 (nat * nat) :=
  mkRng 13 (nat * nat) (fun s => (ofN (7 * fst s + 3), (S (fst s), snd s))) (fun s => (5 * fst s + 1, (S (fst s), snd s)))
    (fun lo hi s => (lo + fst s mod (hi - lo), (S (fst s), snd s))) (fun s => (snd s, (fst s, S (snd s)))).
Definition ex_used (s : nat * nat) : list nat := rev (seq 0 (snd s)).

Example C12_ex : fresh_alloc ex_rng ex_used /\ in_range ex_rng /\
  match vp_rand ex_rng 2 1 4 3 (0, 0) with Ok (v, s, _) => length (flat v) = 3 /\ s = ofN 12 | _ => False end /\
  match random_permutation ex_rng 2 1 (0, 0) with Ok (l, _) => l = map ofN [1; 0; 3; 2] | _ => False end.
Proof.
  split; [|split; [|split; vm_compute; [split|]; reflexivity]].
  - split; [|repeat split]. intros [a b]. unfold ex_used. cbn [alloc ex_rng snd fst]. split.
    + rewrite <- in_rev, in_seq. intros [_ H]. revert H. apply Nat.lt_irrefl.
    + rewrite seq_S, rev_app_distr. reflexivity.
  - intros lo hi [a b] H. simpl. split; [apply Nat.le_add_r|].
    pose proof (Nat.mod_upper_bound a (hi - lo)). Lia.lia.
Qed.
