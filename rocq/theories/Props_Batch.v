(** C25-C26: batch opening (multi_open / batch_verify) over the multilinear KZG scheme. *)
From Coq Require Import String List Arith Bool ZArith Znumtheory.
Import ListNotations.
From Verif Require Import Res Fp FSum SpecMle SpecPoly SpecSumcheck SpecKzg SpecBatch ModelMle ModelTranscript ModelSumcheck SumcheckHist Pairing ModelKzg ModelBatch BatchHist BatchExtra BatchForge.
Local Open Scope string_scope.
Local Open Scope list_scope.
Local Open Scope nat_scope.

Local Notation "'i13' n" := (@ofZ 13 n%Z) (at level 9).
(** Prover with the values vs against the verifier: SRS for 3 variables, trimmed to 2, three openings at two points. *)
Definition bx_run (vs : list (F 13)) : option (list Z * list Z * bool) :=
  match gen_srs (exp_pairing 13) (i13 2) (i13 7) bx_rnd 3 with
  | Ok s => match kzg_trim s None (Some 2) with
            | Ok (ck, vk) =>
                match mapM (kzg_commit ck) bx_polys, multi_open bx_o (fun _ _ => SLeaf) (fun i => i) ck bx_polys bx_points vs bx_t with
                | Ok comms, Ok (bp, _) =>
                    match batch_verify bx_o vk comms bx_points bp bx_t with
                    | Ok (b, _) => Some (map val (bp_evals bp), map val (pf_point (bp_sc bp)), b)
                    | _ => None
                    end
                | _, _ => None
                end
            | _ => None
            end
  | _ => None
  end.

(** ** C25: completeness *)

Theorem C25_complete : forall (p : positive) (C : Type) (E : pairing p), pairing_laws E -> prime (Zpos p) ->
  forall (o : oracle p C) sc addr (g : gcar (PG1 E)) (h : gcar (PG2 E)) rnd N n m polys points (t : tr p C),
  1 <= N -> n <= N -> distinct_addresses addr -> 0 < m -> m <= n -> 2 <= length polys -> batch_wf m polys points -> is_empty t = false -> 2 < fsize p ->
  exists s ck vk comms bp t', gen_srs E g h rnd N = Ok s /\ kzg_trim s None (Some n) = Ok (ck, vk) /\ mapM (kzg_commit ck) polys = Ok comms /\
    multi_open o sc addr ck polys points (open_values polys points) t = Ok (bp, t') /\
    bp_evals bp = open_values polys points /\ length (pf_point (bp_sc bp)) = m /\
    ((forall c, In c (pf_point (bp_sc bp)) -> nonnode 3 c) -> batch_verify o vk comms points bp t = Ok (true, t')).
Proof. intros p C E HE Hp. exact (batch_complete HE Hp). Qed.
Print Assumptions C25_complete.

Example C25_ex : bx_run (open_values bx_polys bx_points) = Some ([6%Z; 12%Z; 12%Z], [9%Z; 12%Z], true) /\ batch_wf 2 bx_polys bx_points.
Proof. split; [vm_compute; reflexivity|exact bx_wf]. Qed.

(** A batch of one polynomial is always refused, by the prover and by the verifier. *)
Theorem C25_single_refuted : forall (p : positive) (C : Type) (E : pairing p) (o : oracle p C) sc addr (ck : pparam E) vk (f : mle p) z (c : gcar (PG1 E)) vs bp (t : tr p C),
  is_empty t = false ->
  multi_open o sc addr ck [f] [z] vs t = Err ArithInvalidParameters /\ batch_verify o vk [c] [z] bp t = Err ArithInvalidParameters.
Proof. exact @batch_single. Qed.
Print Assumptions C25_single_refuted.

(** ** C26: binding *)

(** The prover's own proof with the values vs is accepted exactly when vs has the right combination. *)
Theorem C26_values_iff : forall (p : positive) (C : Type) (E : pairing p), pairing_laws E -> prime (Zpos p) ->
  forall (o : oracle p C) sc addr (g : gcar (PG1 E)) (h : gcar (PG2 E)) rnd N n m polys points vs (t : tr p C) ts t1,
  1 <= N -> n <= N -> distinct_addresses addr -> 0 < m -> m <= n -> 2 <= length polys -> batch_wf m polys points -> is_empty t = false -> 2 < fsize p ->
  length vs = length polys -> draw_vecT o "t" (Nat.log2_up (length polys)) t = Ok (ts, t1) ->
  exists s ck vk comms bp t', gen_srs E g h rnd N = Ok s /\ kzg_trim s None (Some n) = Ok (ck, vk) /\ mapM (kzg_commit ck) polys = Ok comms /\
    multi_open o sc addr ck polys points vs t = Ok (bp, t') /\ bp_evals bp = vs /\
    ((forall c, In c (pf_point (bp_sc bp)) -> nonnode 3 c) ->
     (exists t'', batch_verify o vk comms points bp t = Ok (true, t'')) <-> combination ts vs = combination ts (open_values polys points)) /\
    (combination ts vs <> combination ts (open_values polys points) -> forall b t'', batch_verify o vk comms points bp t <> Ok (b, t'')).
Proof. intros p C E HE Hp. exact (batch_values_iff HE Hp). Qed.
Print Assumptions C26_values_iff.

(** Wrong values chosen before the challenges are accepted for at most a fraction l/p of the challenges. *)
Theorem C26_values_count : forall (p : positive) (C : Type) (E : pairing p), pairing_laws E -> prime (Zpos p) ->
  forall sc addr (g : gcar (PG1 E)) (h : gcar (PG2 E)) rnd N n m polys points vs (t : tr p C),
  1 <= N -> n <= N -> distinct_addresses addr -> 0 < m -> m <= n -> 2 <= length polys -> batch_wf m polys points -> is_empty t = false -> 2 < fsize p ->
  length vs = length polys -> vs <> open_values polys points ->
  exists s ck vk comms, gen_srs E g h rnd N = Ok s /\ kzg_trim s None (Some n) = Ok (ck, vk) /\ mapM (kzg_commit ck) polys = Ok comms /\
    let l := Nat.log2_up (length polys) in
    count (accepts_values sc addr ck vk comms polys points vs t) (allV p (l + m)) <= l * fsize p ^ (l - 1) * fsize p ^ m.
Proof. intros p C E HE Hp. exact (batch_values_count HE Hp). Qed.
Print Assumptions C26_values_count.

Example C26_ex_wrong : bx_run bx_vs = None /\ map val (open_values bx_polys bx_points) = [6%Z; 12%Z; 12%Z] /\ bx_run [i13 6; i13 12; i13 0] = None.
Proof. vm_compute. auto. Qed.

(** An accepted proof whose point is the sum-check point carries values with the right combination, or a sum-check
    challenge was lucky, or it contains an accepted opening of a committed polynomial at a false value. *)
Theorem C26_binding : forall (p : positive) (C : Type) (E : pairing p), pairing_laws E -> prime (Zpos p) ->
  forall (o : oracle p C) (g : gcar (PG1 E)) (h : gcar (PG2 E)) rnd N n m s ck vk polys points comms bp (t : tr p C) t',
  gen_srs E g h rnd N = Ok s -> kzg_trim s None (Some n) = Ok (ck, vk) -> mapM (kzg_commit ck) polys = Ok comms ->
  1 <= N -> n <= N -> 0 < m -> m <= n -> 2 <= length polys -> batch_wf m polys points -> 2 < fsize p ->
  length (bp_evals bp) = length polys -> length (pf_point (bp_sc bp)) = m ->
  batch_verify o vk comms points bp t = Ok (true, t') ->
  exists ts t1 sub, draw_vecT o "t" (Nat.log2_up (length polys)) t = Ok (ts, t1) /\
    sc_verify o (combination ts (bp_evals bp)) (bp_sc bp) 2 m t1 = Ok (sub, t') /\
    (sub_point sub = pf_point (bp_sc bp) ->
     combination ts (bp_evals bp) = combination ts (open_values polys points) \/
     (exists j, j < m /\ lucky m 2 (batch_poly polys points ts) (nth j (pf_msgs (bp_sc bp)) []) (firstn j (sub_point sub)) (nth j (sub_point sub) F0)) \/
     (exists f c, wf_mle f /\ nv f = m /\ kzg_commit ck f = Ok c /\ sub_eval sub <> value f (sub_point sub) /\
        kzg_verify vk c (sub_point sub) (sub_eval sub) (bp_open bp) = Ok true)).
Proof. intros p C E HE Hp. exact (batch_binding HE Hp). Qed.
Print Assumptions C26_binding.

(** The values are not bound by the transcript: whatever the challenges, some wrong values are accepted. *)
Theorem C26_values_unbound_refuted : forall (p : positive) (C : Type) (E : pairing p), pairing_laws E -> prime (Zpos p) ->
  forall (o : oracle p C) sc addr (g : gcar (PG1 E)) (h : gcar (PG2 E)) rnd N n m polys points (t : tr p C),
  1 <= N -> n <= N -> distinct_addresses addr -> 0 < m -> m <= n -> 2 <= length polys -> batch_wf m polys points -> is_empty t = false -> 2 < fsize p ->
  exists s ck vk comms vs bp t', gen_srs E g h rnd N = Ok s /\ kzg_trim s None (Some n) = Ok (ck, vk) /\ mapM (kzg_commit ck) polys = Ok comms /\
    length vs = length polys /\ vs <> open_values polys points /\
    multi_open o sc addr ck polys points vs t = Ok (bp, t') /\ bp_evals bp = vs /\
    ((forall c, In c (pf_point (bp_sc bp)) -> nonnode 3 c) -> batch_verify o vk comms points bp t = Ok (true, t')).
Proof. intros p C E HE Hp. exact (batch_forge HE Hp). Qed.
Print Assumptions C26_values_unbound_refuted.

(** The point in the proof is free: any sum-check transcript whose final value is the batched polynomial's value at
    some point is accepted with that point. *)
Theorem C26_point_free_refuted : forall (p : positive) (C : Type) (E : pairing p), pairing_laws E -> prime (Zpos p) ->
  forall (o : oracle p C) (g : gcar (PG1 E)) (h : gcar (PG2 E)) rnd N n m s ck vk polys points comms vs pf (t : tr p C) ts t1 sub t',
  gen_srs E g h rnd N = Ok s -> kzg_trim s None (Some n) = Ok (ck, vk) -> mapM (kzg_commit ck) polys = Ok comms ->
  1 <= N -> n <= N -> 0 < m -> m <= n -> 2 <= length polys -> batch_wf m polys points ->
  length vs = length polys -> length (pf_point pf) = m -> is_empty t = false ->
  draw_vecT o "t" (Nat.log2_up (length polys)) t = Ok (ts, t1) ->
  sc_verify o (combination ts vs) pf 2 m t1 = Ok (sub, t') ->
  sub_eval sub = batch_poly polys points ts (pf_point pf) ->
  exists opening, batch_verify o vk comms points (mkBatch pf vs opening) t = Ok (true, t').
Proof. intros p C E HE Hp. exact (batch_point_free HE Hp). Qed.
Print Assumptions C26_point_free_refuted.

(** A forged proof: the values 1, 1, 1 have the wrong combination and are accepted, for every pairing and SRS. *)
Theorem C26_point_forgery_refuted : forall (E : pairing 13), pairing_laws E -> forall (g : gcar (PG1 E)) (h : gcar (PG2 E)) rnd N n,
  1 <= N -> 2 <= n -> n <= N -> exists s ck vk comms opening t',
    gen_srs E g h rnd N = Ok s /\ kzg_trim s None (Some n) = Ok (ck, vk) /\ mapM (kzg_commit ck) bx_polys = Ok comms /\
    batch_verify bx_o vk comms bx_points (mkBatch bx_pf bx_vs opening) bx_t = Ok (true, t') /\
    bx_vs <> open_values bx_polys bx_points /\
    exists ts t1, draw_vecT bx_o "t" (Nat.log2_up (length bx_polys)) bx_t = Ok (ts, t1) /\
      combination ts bx_vs <> combination ts (open_values bx_polys bx_points).
Proof. exact batch_forge_point. Qed.
Print Assumptions C26_point_forgery_refuted.
