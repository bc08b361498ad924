(** C60: what verify_claims would establish with the comparison it lacks (C34). *)
From Coq Require Import String List Arith Bool ZArith Znumtheory.
Import ListNotations.
From Verif Require Import Res Fp FSum SpecMle SpecKzg SpecPoly SpecSumcheck SpecBatch SpecTracker SpecIop ModelMle ModelTranscript ModelSumcheck SumcheckHist Pairing ModelKzg ModelBatch ModelProver ModelVerifier
  ProverHist VerifierHist SessHist CheckHist CheckProofs.
Local Open Scope string_scope.
Local Open Scope list_scope.
Local Open Scope nat_scope.

(** ** C60: one comparison makes the verifier sound *)

(** If the verifier also compares the value of the combined claims at the last sum-check point, and the query results are true,
    then acceptance means that all claims hold, or that the challenges make the combination of false claims true, or that one of
    the sum-check challenges is among the at most [max (cp_deg) (D + 1)] values at which a wrong message agrees with the right one. *)
Theorem C60_sound : forall (p : positive) (E : pairing p), prime (Zpos p) -> forall (A : reading) N (o : oracle p (gcar (PG1 E))) (v v' : vtrk E) f D,
  2 < fsize p -> in_session o v -> cp_nv (vt_proof v) = N -> 1 <= cp_deg (vt_proof v) -> cp_deg (vt_proof v) < fsize p ->
  valued A N v f -> (forall id, In id (claimed_ids v) -> degree_le (vt_virt v) id D) -> queries_true A v -> closures_true A N v ->
  verify_claims_checked o v = Ok v' ->
  exists P zs r cs s rest, polynomials A N v P /\ length zs = length (vt_zc v) /\ length r = N /\ length cs = length (vt_sc v) + 1 /\ length s = N /\
    drawn (vt_tr v) (vt_tr v') = zs ++ r ++ cs ++ s ++ rest /\
    (claims_hold A N v \/ (~ claims_hold A N v /\ combined N v f zs r cs) \/
     exists j, j < N /\ lucky N (Nat.max (cp_deg (vt_proof v)) (D + 1)) (aggregate v P zs r cs) (nth j (pf_msgs (cp_sc (vt_proof v))) []) (firstn j s) (nth j s F0)).
Proof. intros p E Hp. exact (check_sound Hp). Qed.
Print Assumptions C60_sound.

(** Whatever strategy computes the messages and the (true) query results from the challenges seen so far: if a claim is false, the
    comparison succeeds for at most a fraction of (N + 2 + N * max (cp_deg) (D + 1)) / p of the challenge vectors. *)
Theorem C60_count : forall (p : positive) (E : pairing p), prime (Zpos p) -> forall (A : reading) N (o : oracle p (gcar (PG1 E))) (v : vtrk E) f D st q,
  2 < fsize p -> in_session o v -> cp_nv (vt_proof v) = N -> 1 <= cp_deg (vt_proof v) -> cp_deg (vt_proof v) < fsize p ->
  valued A N v f -> (forall id, In id (claimed_ids v) -> degree_le (vt_virt v) id D) -> closures_true A N v -> (forall ch, queries_true A (facing st q v ch)) ->
  ~ claims_hold A N v ->
  count (passes st q v) (allV p (drawn_before N v + N)) <= (N + 2 + N * Nat.max (cp_deg (vt_proof v)) (D + 1)) * fsize p ^ (drawn_before N v + N - 1).
Proof. intros p E Hp. exact (check_count Hp). Qed.
Print Assumptions C60_count.

(** A history over F 101: f = (1,x,1,1) and g in two variables, h in one; f*f - f is claimed to vanish and the sum of h to be [c]. *)
Local Notation "'i101' n" := (@ofZ 101 n%Z) (at level 9).
Definition kx_o : oracle 101 (gcar (PG1 (exp_pairing 101))) := fun h _ => ofN (5 + length h).
Definition kx_tab (x : Z) (i : nat) : list (F 101) := match i with 0 => [i101 1; i101 x; i101 1; i101 1] | 1 => [i101 3; i101 5; i101 0; i101 7] | _ => [i101 2; i101 9] end.
Definition kx_A (x : Z) : reading (p:=101) := fun i => (match i with 0 | 1 => 2 | _ => 1 end, fun j => nth j (kx_tab x i) F0).
Definition kx_ops (x : Z) : list (pop 101) := [OCommit 2 (kx_tab x 0); OCommit 2 (kx_tab x 1); OCommit 1 (kx_tab x 2); OMul 0 0; OSub 3 0; OZero 4; OSum 2 (i101 0)].
Definition kx_vops (c : Z) : list (vop (exp_pairing 101)) := [VONext; VONext; VONext; VOMul 0 0; VOSub 3 0; VOZero 4; VOSum 2 (i101 c); VOTransferEvals].
Definition kx_sc : nat -> nat -> sched := fun _ _ => SSplit 1 SLeaf SLeaf.
(** The honest proof, and the verifier that is given that proof with its messages and query results replaced. *)
Definition kx_from (setup : res (srs (exp_pairing 101))) (x c : Z) (msgs : cproof (exp_pairing 101) -> list (list (F 101))) (qs : list (F 101) -> nat -> F 101) : option (vtrk (exp_pairing 101)) :=
  match setup with
  | Ok s => match kzg_trim s None (Some 2) with
            | Ok (ck, vk) => match prun kx_o ck (kx_ops x) with
                             | Ok (s, hs) => match compile_proof kx_o kx_sc kx_sc (fun i => i) false s with
                                             | Ok (cp, _) =>
                                                 let pt := pf_point (cp_sc cp) in
                                                 let cp' := mkCproof (cp_comms cp) (cp_sums cp) (mkProof pt (msgs cp)) (cp_deg cp) (cp_nv cp) (map (fun i => ((i, pt), qs pt i)) [0; 1; 2]) (cp_pcs cp) in
                                                 match vrun kx_o true vk cp' (kx_vops c) with Ok (v, _) => Some v | _ => None end
                                             | _ => None
                                             end
                             | _ => None
                             end
            | _ => None
            end
  | _ => None
  end.
Local Notation kx_setup := (kx_from (gen_srs (exp_pairing 101) (i101 2) (i101 7) (fun i => ofN (i + 3)) 3)).
Definition kx_verdicts (v : option (vtrk (exp_pairing 101))) : option (bool * bool) :=
  match v with
  | Some v => Some (match verify_claims kx_o v with Ok _ => true | _ => false end, match verify_claims_checked kx_o v with Ok _ => true | _ => false end)
  | None => None
  end.
Definition kx_true (x : Z) (pt : list (F 101)) (i : nat) : F 101 := extension (kx_A x) i pt.
(** Messages for any claims: in each round, the sum that is due at 0 and zeros elsewhere. With these histories, the sum due in
    the first round is 27 and the first challenge is 21. *)
Definition kx_forged : list (list (F 101)) := let m := [i101 27; F0; F0; F0] in [m; [interp m (i101 21); F0; F0; F0]].
Definition kx_honest (cp : cproof (exp_pairing 101)) : list (list (F 101)) := pf_msgs (cp_sc cp).

(** An honest proof passes if its query results are replaced by the true values, and not with the zeros that the code puts there
    (C37). The forged messages make verify_claims accept a false zero claim; the comparison rejects them. *)
Example C60_ex : kx_verdicts (kx_setup 0 22 kx_honest (kx_true 0)) = Some (true, true) /\ kx_verdicts (kx_setup 0 22 kx_honest (fun _ _ => F0)) = Some (true, false) /\
  kx_verdicts (kx_setup 0 23 kx_honest (kx_true 0)) = Some (false, false) /\ kx_verdicts (kx_setup 5 22 (fun _ => kx_forged) (kx_true 5)) = Some (true, false).
Proof. vm_compute. repeat split; reflexivity. Qed.
Print Assumptions C60_ex.

(** The verifiers meet the hypotheses of the theorems; the claims of the second are false. *)
Definition kx_f (x : Z) (id j : nat) : F 101 := let a := nth (j mod 4) (kx_tab x 0) F0 in if id =? 4 then (a * a - a)%F else nth (j mod 2) (kx_tab x 2) F0.
Definition kx_virt : tmap (vexp 101) := Eval vm_compute in match kx_setup 0 22 kx_honest (kx_true 0) with Some v => vt_virt v | None => [] end.
(** A verifier as above whose data have been computed. *)
Definition kx_at (x c : Z) (msgs : cproof (exp_pairing 101) -> list (list (F 101))) (v : vtrk (exp_pairing 101)) : Prop :=
  kx_setup x c msgs (kx_true x) = Some v /\ in_session kx_o v /\ cp_nv (vt_proof v) = 2 /\ cp_deg (vt_proof v) = 3 /\ valued (kx_A x) 2 v (kx_f x) /\
  (forall id, In id (claimed_ids v) -> degree_le (vt_virt v) id 2) /\ queries_true (kx_A x) v /\ closures_true (kx_A x) 2 v.
Lemma kx_session : forall srs x c msgs qs v, kx_from srs x c msgs qs = Some v -> in_session kx_o v.
Proof.
  intros srs x c msgs qs v H. unfold kx_from in H. destruct srs as [s| |]; try discriminate H. destruct (kzg_trim s None (Some 2)) as [[ck vk]| |]; try discriminate H. destruct (prun kx_o ck (kx_ops x)) as [[s1 hs]| |]; try discriminate H.
  destruct (compile_proof _ _ _ _ _ s1) as [[cp s2]| |]; try discriminate H. cbn zeta in H. destruct (vrun kx_o true vk _ (kx_vops c)) as [[v1 ids]| |] eqn:R; try discriminate H. injection H as <-. exact (SessProofs.run_session kx_o _ _ _ _ _ _ R).
Qed.
Lemma kx_means : forall x id j, In id [4; 2] -> means (kx_A x) kx_virt id 2 j (kx_f x id j).
Proof.
  intros x id j Hid. unfold kx_f.
  assert (M0 : means (kx_A x) kx_virt 0 2 j (nth (j mod 4) (kx_tab x 0) F0)) by (apply (me_query (kx_A x) kx_virt 0 0); [reflexivity|cbn; auto]).
  destruct Hid as [<-|[<-|[]]]; cbn [Nat.eqb].
  - apply (me_sub _ _ 4 3 0); [reflexivity| |exact M0]. apply (me_mul _ _ 3 0 0); [reflexivity| |]; exact M0.
  - apply (me_query (kx_A x) kx_virt 2 2); [reflexivity|cbn; auto].
Qed.
Lemma kx_degree : forall id, In id [4; 2] -> degree_le kx_virt id 2.
Proof.
  assert (D0 : degree_le kx_virt 0 1) by (apply (dl_query _ 0 0); [reflexivity|constructor]).
  intros id Hid. destruct Hid as [<-|[<-|[]]].
  - apply (dl_sub _ 4 3 0); [reflexivity|apply (dl_mul _ 3 0 0 1 1); [reflexivity|exact D0|exact D0|constructor]|apply (dl_query _ 0 0); [reflexivity|repeat constructor]].
  - apply (dl_query _ 2 2); [reflexivity|repeat constructor].
Qed.
Lemma kx_meets : forall x c msgs v, kx_setup x c msgs (kx_true x) = Some v -> vt_virt v = kx_virt -> (vt_zc v, map fst (vt_sc v), cp_nv (vt_proof v), cp_deg (vt_proof v)) = ([4], [2], 2, 3) ->
  forallb (fun e => Feqb (snd e) (extension (kx_A x) (fst (fst e)) (snd (fst e)))) (vt_query v) = true -> kx_at x c msgs v.
Proof.
  intros x c msgs v H V C Q. injection C as C1 C2 C3 C4. split; [exact H|]. split; [exact (kx_session _ _ _ _ _ _ H)|split; [exact C3|split; [exact C4|]]].
  unfold valued, claimed_ids, queries_true, closures_true. rewrite V, C1, C2. split; [|split; [exact kx_degree|split]].
  - intros id j Hid _. exact (kx_means x id j Hid).
  - intros id i y z _ Hq _. rewrite forallb_forall in Q. apply Feqb_eq. exact (Q _ (qget_in _ _ _ Hq)).
  - intros id g y z Hg. exfalso. do 5 (destruct id as [|id]; [discriminate Hg|]). discriminate Hg.
Qed.
Definition kx_ready (x : Z) (v : option (vtrk (exp_pairing 101))) : bool :=
  match v with Some v => forallb (fun e => Feqb (snd e) (extension (kx_A x) (fst (fst e)) (snd (fst e)))) (vt_query v) && (3 =? length (vt_query v)) | None => false end.
Example C60_ex_hyps : exists v w, kx_at 0 22 kx_honest v /\ kx_at 5 22 (fun _ => kx_forged) w /\ ~ claims_hold (kx_A 5) 2 w.
Proof.
  destruct (kx_setup 0 22 kx_honest (kx_true 0)) as [v|] eqn:Ev; [|exfalso; assert (X : kx_ready 0 (kx_setup 0 22 kx_honest (kx_true 0)) = true) by (vm_compute; reflexivity); rewrite Ev in X; discriminate X].
  destruct (kx_setup 5 22 (fun _ => kx_forged) (kx_true 5)) as [w|] eqn:Ew; [|exfalso; assert (X : kx_ready 5 (kx_setup 5 22 (fun _ => kx_forged) (kx_true 5)) = true) by (vm_compute; reflexivity); rewrite Ew in X; discriminate X].
  exists v, w.
  assert (Vv : option_map (@vt_virt 101 (exp_pairing 101)) (kx_setup 0 22 kx_honest (kx_true 0)) = Some kx_virt) by (vm_compute; reflexivity).
  assert (Vw : option_map (@vt_virt 101 (exp_pairing 101)) (kx_setup 5 22 (fun _ => kx_forged) (kx_true 5)) = Some kx_virt) by (vm_compute; reflexivity).
  assert (Cv : option_map (fun v : vtrk (exp_pairing 101) => (vt_zc v, map fst (vt_sc v), cp_nv (vt_proof v), cp_deg (vt_proof v))) (kx_setup 0 22 kx_honest (kx_true 0)) = Some ([4], [2], 2, 3)) by (vm_compute; reflexivity).
  assert (Cw : option_map (fun v : vtrk (exp_pairing 101) => (vt_zc v, map fst (vt_sc v), cp_nv (vt_proof v), cp_deg (vt_proof v))) (kx_setup 5 22 (fun _ => kx_forged) (kx_true 5)) = Some ([4], [2], 2, 3)) by (vm_compute; reflexivity).
  assert (Qv : kx_ready 0 (kx_setup 0 22 kx_honest (kx_true 0)) = true) by (vm_compute; reflexivity).
  assert (Qw : kx_ready 5 (kx_setup 5 22 (fun _ => kx_forged) (kx_true 5)) = true) by (vm_compute; reflexivity).
  rewrite Ev in Vv, Cv, Qv. rewrite Ew in Vw, Cw, Qw. cbn [option_map kx_ready] in Vv, Vw, Cv, Cw, Qv, Qw. injection Vv as Vv. injection Vw as Vw.
  apply andb_true_iff in Qv. destruct Qv as [Qv _]. apply andb_true_iff in Qw. destruct Qw as [Qw _].
  assert (K : kx_at 5 22 (fun _ => kx_forged) w) by (apply kx_meets; [exact Ew|exact Vw|congruence|exact Qw]).
  split; [apply kx_meets; [exact Ev|exact Vv|congruence|exact Qv]|]. split; [exact K|]. destruct K as [_ [_ [_ [_ [K _]]]]]. intros [C1 _].
  injection Cw as Z4 _ _ _. assert (I4 : In 4 (vt_zc w)) by (rewrite Z4; left; reflexivity).
  assert (X : kx_f 5 4 1 = F0) by (eapply IopVer.means_fun; [apply K; [apply in_or_app; left; exact I4|repeat constructor]|apply C1; [exact I4|repeat constructor]]).
  apply (f_equal val) in X. vm_compute in X. discriminate X.
Qed.
Print Assumptions C60_ex_hyps.
