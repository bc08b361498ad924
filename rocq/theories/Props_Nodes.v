(** C14, C20, C25, C32: honest proofs at the interpolation nodes, where the verifiers panic, and how few challenges lead there. *)
From Coq Require Import String List Arith Bool ZArith Znumtheory.
Import ListNotations.
From Verif Require Import Res Fp FSum SpecMle SpecVp SpecKzg SpecPoly SpecSumcheck SpecBatch SpecTracker ModelMle ModelVp VpHist ModelTranscript ModelSumcheck SumcheckHist InterpProofs
  Pairing ModelKzg ModelBatch BatchHist BatchExtra BatchForge ModelProver ModelVerifier ProverHist VerifierHist CompileHist NodeHist NodeProofs NodeExtra Props_Vp Props_Sumcheck Props_Batch Props_Compile.
Local Open Scope string_scope.
Local Open Scope list_scope.
Local Open Scope nat_scope.
Local Notation "'i13' n" := (@ofZ 13 n%Z) (at level 9).

(** ** C14: the sum check *)

(** C14_complete asks for challenges outside 0..deg. One challenge in that range is enough for a panic, whatever sum is claimed. *)
Theorem C14_nodes_refuted : forall (p : positive) (C : Type), prime (Zpos p) ->
  forall (o : oracle p C) sc (v : vp p) e t pf t', built v e -> max_degree v < fsize p -> 0 < num_variables v ->
  sc_prove o sc v t = Ok (pf, t') -> (exists x i, In x (pf_point pf) /\ i < max_degree v + 1 /\ x = ofN i) ->
  forall c, sc_verify o c pf (max_degree v) (num_variables v) t = Panic.
Proof. intros p C Hp. exact (sc_built_node Hp). Qed.
Print Assumptions C14_nodes_refuted.

(** With n rounds of degree d, at most n (d + 1) / p of the challenge vectors make the verifier not accept the honest proof. *)
Theorem C14_error : forall (p : positive) (C : Type), prime (Zpos p) ->
  forall sc (v : vp p) e (t : tr p C), built v e -> max_degree v < fsize p -> 0 < num_variables v -> products v <> [] ->
  count (sc_fails sc v (cube_sum (num_variables v) (pden e)) t) (allV p (num_variables v)) <= num_variables v * (max_degree v + 1) * fsize p ^ (num_variables v - 1).
Proof. intros p C Hp. exact (@sc_error p Hp C). Qed.
Print Assumptions C14_error.

(** 3 m1^2 m2 over F_101 has degree 3: challenges 3 and 0 are lost, 4 and -1 are not. *)
Example C14_ex_nodes : map (fun ch => sc_fails exsc eyv (ofN 46) ext (map ofZ ch)) [[60; 3]; [0; 60]; [4; 100]; [60; 70]]%Z = [true; true; false; false] /\
  num_variables eyv * (max_degree eyv + 1) = 8.
Proof. split; vm_compute; reflexivity. Qed.

(** ** C20: the zero check *)

Theorem C20_nodes_refuted : forall (p : positive) (C : Type), prime (Zpos p) ->
  forall (o : oracle p C) sc (v : vp p) e a t pf t', built v e -> (forall m, In m (flat v) -> fst m <> a) ->
  max_degree v + 1 < fsize p -> 0 < num_variables v -> is_empty t = false ->
  (forall k, k < 2 ^ num_variables v -> pden e (bpoint (num_variables v) k) = F0) ->
  zc_prove o sc v a t = Ok (pf, t') -> (exists x i, In x (pf_point pf) /\ i < max_degree v + 2 /\ x = ofN i) ->
  zc_verify o pf (max_degree v) (num_variables v) t = Panic.
Proof. intros p C Hp. exact (@zc_node p Hp C). Qed.
Print Assumptions C20_nodes_refuted.

(** The vectors counted hold the n challenges for eq and the n of the rounds. The zeros of eq are included. *)
Theorem C20_error : forall (p : positive) (C : Type), prime (Zpos p) ->
  forall sc (v : vp p) e a (t : tr p C), built v e -> (forall m, In m (flat v) -> fst m <> a) ->
  max_degree v + 1 < fsize p -> 0 < num_variables v -> is_empty t = false ->
  (forall k, k < 2 ^ num_variables v -> pden e (bpoint (num_variables v) k) = F0) ->
  count (zc_fails sc v a t) (allV p (num_variables v + num_variables v)) <=
    num_variables v * (max_degree v + 3) * fsize p ^ (num_variables v + num_variables v - 1).
Proof. intros p C Hp. exact (@zc_error p Hp C). Qed.
Print Assumptions C20_error.

(** The product has degree 2, so 3 is still a node. A zero of eq is lost too: 2 r x - r - x + 1 = 0 for r = 5 and x = 4/9 = 79. *)
Example C20_ex_nodes : map (fun ch => zc_fails exsc ewv 99 ext (map ofZ ch)) [[5; 60; 3; 70]; [5; 60; 4; 70]; [5; 60; 79; 70]]%Z = [true; false; true].
Proof. vm_compute. reflexivity. Qed.

(** ** C25: the opening of several polynomials *)

(** Any commitments, any values and any verifier key. *)
Theorem C25_nodes_refuted : forall (p : positive) (C : Type) (E : pairing p), pairing_laws E -> prime (Zpos p) ->
  forall (o : oracle p C) sc addr (g : gcar (PG1 E)) (h : gcar (PG2 E)) rnd N n m polys points vs (t : tr p C) s ck vk0 vk comms bp t',
  1 <= N -> n <= N -> distinct_addresses addr -> 0 < m -> m <= n -> 2 <= length polys -> batch_wf m polys points -> is_empty t = false -> 2 < fsize p ->
  gen_srs E g h rnd N = Ok s -> kzg_trim s None (Some n) = Ok (ck, vk0) ->
  multi_open o sc addr ck polys points vs t = Ok (bp, t') -> length vs = length polys -> length comms = length polys ->
  (exists x i, In x (pf_point (bp_sc bp)) /\ i < 3 /\ x = ofN i) -> batch_verify o vk comms points bp t = Panic.
Proof. intros p C E HE Hp. exact (@batch_node_srs p Hp E HE C). Qed.
Print Assumptions C25_nodes_refuted.

Theorem C25_error : forall (p : positive) (C : Type) (E : pairing p), pairing_laws E -> prime (Zpos p) ->
  forall sc addr (g : gcar (PG1 E)) (h : gcar (PG2 E)) rnd N n m polys points (t : tr p C),
  1 <= N -> n <= N -> distinct_addresses addr -> 0 < m -> m <= n -> 2 <= length polys -> batch_wf m polys points -> is_empty t = false -> 2 < fsize p ->
  exists s ck vk comms, gen_srs E g h rnd N = Ok s /\ kzg_trim s None (Some n) = Ok (ck, vk) /\ mapM (kzg_commit ck) polys = Ok comms /\
    let k := Nat.log2_up (length polys) in
    count (batch_fails sc addr ck vk comms polys points t) (allV p (k + m)) <= 3 * m * fsize p ^ (k + m - 1).
Proof. intros p C E HE Hp. exact (@batch_error p Hp E HE C). Qed.
Print Assumptions C25_error.

(** Three polynomials in two variables: two challenges for the combination, two for the rounds. *)
Definition bx_fails (ch : list Z) : option bool :=
  match gen_srs (exp_pairing 13) (i13 2) (i13 7) bx_rnd 3 with
  | Ok s => match kzg_trim s None (Some 2) with
            | Ok (ck, vk) => match mapM (kzg_commit ck) bx_polys with
                             | Ok comms => Some (batch_fails (fun _ _ => SLeaf) (fun i => i) ck vk comms bx_polys bx_points bx_t (map ofZ ch))
                             | _ => None
                             end
            | _ => None
            end
  | _ => None
  end.
Example C25_ex_nodes : bx_fails [0; 1; 5; 6]%Z = Some false /\ bx_fails [7; 8; 3; 12]%Z = Some false /\ bx_fails [7; 8; 2; 12]%Z = Some true /\ bx_fails [7; 8; 5; 0]%Z = Some true.
Proof. vm_compute. repeat split. Qed.

(** ** C32: the compiled proof *)

(** If all claims are true, at most n (D + 5) / p of the challenge vectors make the verifier not accept: n the number of
    variables, D the largest degree. *)
Theorem C32_error : forall (p : positive) (E : pairing p), pairing_laws E -> prime (Zpos p) ->
  forall (oh : oracle p (gcar (PG1 E))) sc sc' addr debug vdebug g h rnd N k srs ck vk ops vops s hs D M,
  1 <= N -> k <= N -> gen_srs E g h rnd N = Ok srs -> kzg_trim srs None (Some k) = Ok (ck, vk) -> distinct_addresses addr ->
  prun oh ck ops = Ok (s, hs) -> mirror false ck ops vops ->
  (forall d, In d (degrees ops) -> d <= D) -> 1 <= D -> D + 1 < fsize p -> 2 < fsize p ->
  2 <= commit_calls ops -> 0 < max_nv hs <= k -> zeros_hold ops -> (forall i c, In (VOSum i c) vops -> c = sum_at ops (max_nv hs) i) ->
  let L := length (zero_calls ops) + max_nv hs + length (sum_calls ops) + 1 + max_nv hs + Nat.log2_up (commit_calls ops) + max_nv hs in
  count (fun ch => negb (compile_verify oh sc sc' addr debug vdebug vk vops s ch)) (allV p (L + M)) <= max_nv hs * (D + 5) * fsize p ^ (L + M - 1).
Proof. intros p E HE Hp. exact (@hist_error p Hp E HE). Qed.
Print Assumptions C32_error.

(** True claims: a node among the challenges of the rounds is lost, in the other challenges it does no harm. *)
Example C32_ex_nodes : cx_script 0 9 [0; 1; 2; 3; 0; 1; 5; 6; 0; 1; 9; 10]%Z = Some true /\ cx_script 0 9 [5; 6; 7; 8; 9; 10; 5; 3; 7; 8; 9; 10]%Z = Some false /\
  cx_script 0 9 [5; 6; 7; 8; 9; 10; 5; 6; 7; 8; 2; 10]%Z = Some false /\ cx_script 0 9 [5; 6; 7; 8; 9; 10; 5; 6; 7; 8; 3; 10]%Z = Some true.
Proof. vm_compute. repeat split. Qed.
