(** C22-C24: the multilinear KZG commitment scheme. The theorems hold for every pairing that satisfies
    [pairing_laws] (Pairing.v), every pair of generators and every trapdoor. *)
From Coq Require Import List Arith Bool ZArith Znumtheory.
Import ListNotations.
From Verif Require Import Res Fp FSum SpecMle SpecPoly SpecKzg ModelMle Pairing ModelKzg KzgHist KzgExtra.
Local Open Scope nat_scope.

(** The hypotheses can be met: the groups of exponents. *)
Example Kzg_ex_laws : pairing_laws (exp_pairing 13) /\ pairing_laws (exp_pairing 101).
Proof. exact (conj (exp_pairing_laws prime_13) (exp_pairing_laws prime_101)). Qed.

Local Notation "'i13' n" := (@ofZ 13 n%Z) (at level 9).
Definition ex_f : mle 13 := mkMle 2 [i13 3; i13 1; i13 4; i13 5].
Definition ex_f2 : mle 13 := mkMle 2 [i13 3; i13 1; i13 4; i13 6].
Definition ex_rnd (i : nat) : F 13 := ofN (2 * i + 5).

(** A run over the exponent groups: SRS for 3 variables, trimmed to 2, opening ex_f at (6,9); the verifier is
    asked about the value v. Result: the exponent of the commitment, the opened value and the verdict. *)
Definition ex_run (f : mle 13) (v : F 13) : option (Z * Z * bool) :=
  match gen_srs (exp_pairing 13) (i13 2) (i13 7) ex_rnd 3 with
  | Ok s => match kzg_trim s None (Some 2) with
            | Ok (ck, vk) =>
                match kzg_commit ck f, kzg_open ck f [i13 6; i13 9] with
                | Ok c, Ok (pf, w) => match kzg_verify vk c [i13 6; i13 9] v pf with Ok b => Some (val c, val w, b) | _ => None end
                | _, _ => None
                end
            | _ => None
            end
  | _ => None
  end.

(** ** C22: opening completeness *)

Theorem C22_complete : forall (p : positive) (E : pairing p), pairing_laws E ->
  forall (g : gcar (PG1 E)) (h : gcar (PG2 E)) (rnd : nat -> F p) N n (f : mle p) (x : list (F p)),
  1 <= N -> n <= N -> wf_mle f -> nv f <= n -> length x = nv f ->
  exists s ck vk c pf, gen_srs E g h rnd N = Ok s /\ kzg_trim s None (Some n) = Ok (ck, vk) /\
    kzg_commit ck f = Ok c /\ kzg_open ck f x = Ok (pf, value f x) /\ kzg_verify vk c x (value f x) pf = Ok true.
Proof. intros p E HE. exact (kzg_complete HE). Qed.
Print Assumptions C22_complete.

Theorem C22_errors : forall (p : positive) (E : pairing p) (ck : pparam E) (vk : vparam E) (f : mle p) x c v pf,
  (pp_nv ck < nv f -> kzg_commit ck f = Err PCSInvalidParameters /\ kzg_open ck f x = Err PCSInvalidParameters) /\
  (length x <> nv f -> kzg_open ck f x = Err PCSInvalidParameters) /\
  (vk_nv vk < length x -> kzg_verify vk c x v pf = Err PCSInvalidParameters).
Proof. exact @kzg_errors. Qed.
Print Assumptions C22_errors.

Theorem C22_no_variables : forall (p : positive) (E : pairing p) (g : gcar (PG1 E)) (h : gcar (PG2 E)) (rnd : nat -> F p),
  gen_srs E g h rnd 0 = Err PCSInvalidParameters.
Proof. exact @KzgProofs.gen_srs_zero. Qed.
Print Assumptions C22_no_variables.

Example C22_ex : ex_run ex_f (i13 6) = Some (val (i13 2 * value ex_f [i13 7; i13 9])%F, 6%Z, true) /\ wf_mle ex_f.
Proof. split; vm_compute; reflexivity. Qed.

(** ** C23: commitments are evaluations at the trapdoor *)

Theorem C23_commit_value : forall (p : positive) (E : pairing p), pairing_laws E ->
  forall (g : gcar (PG1 E)) (h : gcar (PG2 E)) (rnd : nat -> F p) N n s ck vk (f : mle p),
  gen_srs E g h rnd N = Ok s -> kzg_trim s None (Some n) = Ok (ck, vk) -> wf_mle f -> nv f <= n ->
  kzg_commit ck f = Ok (gmul (value f (suffix (nv f) (trapdoor rnd N))) g).
Proof. intros p E HE. exact (kzg_commit_value HE). Qed.
Print Assumptions C23_commit_value.

Theorem C23_homomorphic : forall (p : positive) (E : pairing p), pairing_laws E ->
  forall (g : gcar (PG1 E)) (h : gcar (PG2 E)) (rnd : nat -> F p) N n s ck vk (f1 f2 : mle p) a b c1 c2,
  gen_srs E g h rnd N = Ok s -> kzg_trim s None (Some n) = Ok (ck, vk) -> wf_mle f1 -> wf_mle f2 -> nv f1 = nv f2 ->
  kzg_commit ck f1 = Ok c1 -> kzg_commit ck f2 = Ok c2 ->
  kzg_commit ck (lincomb a b f1 f2) = Ok (gadd (gmul a c1) (gmul b c2)).
Proof. intros p E HE. exact (kzg_homomorphic HE). Qed.
Print Assumptions C23_homomorphic.

(** For any verifier parameters, commitment and proof (not only honest ones). *)
Theorem C23_value_unique : forall (p : positive) (E : pairing p), pairing_laws E -> prime (Zpos p) ->
  forall (vk : vparam E) c x v v' pf, vk_g vk <> gzero -> vk_h vk <> gzero ->
  kzg_verify vk c x v pf = Ok true -> kzg_verify vk c x v' pf = Ok true -> v = v'.
Proof. intros p E HE. exact (kzg_value_unique HE). Qed.
Print Assumptions C23_value_unique.

Theorem C23_wrong_value_rejected : forall (p : positive) (E : pairing p), pairing_laws E -> prime (Zpos p) ->
  forall (g : gcar (PG1 E)) (h : gcar (PG2 E)) (rnd : nat -> F p) N n s ck vk (f : mle p) x c pf w v,
  g <> gzero -> h <> gzero -> gen_srs E g h rnd N = Ok s -> kzg_trim s None (Some n) = Ok (ck, vk) ->
  wf_mle f -> nv f <= n -> kzg_commit ck f = Ok c -> kzg_open ck f x = Ok (pf, w) -> v <> value f x ->
  kzg_verify vk c x v pf = Ok false.
Proof. intros p E HE. exact (kzg_wrong_value HE). Qed.
Print Assumptions C23_wrong_value_rejected.

(** Different polynomials share a commitment for at most n/p of the trapdoors. *)
Theorem C23_collision_count : forall (p : positive) (E : pairing p), pairing_laws E -> prime (Zpos p) ->
  forall (g : gcar (PG1 E)) (h : gcar (PG2 E)) n (f1 f2 : mle p), g <> gzero -> 1 <= n -> wf_mle f1 -> wf_mle f2 ->
  nv f1 = n -> nv f2 = n -> evs f1 <> evs f2 ->
  count (commits_equal g h n f1 f2) (allV p n) <= n * fsize p ^ (n - 1).
Proof. intros p E HE. exact (kzg_collision_count HE). Qed.
Print Assumptions C23_collision_count.

(** A prover that builds its proof elements as g^{q(t)}, with q of degree at most d in each trapdoor
    coordinate, opens f to a wrong value for at most n(d+1)/p of the trapdoors. *)
Theorem C23_algebraic_count : forall (p : positive) (E : pairing p), pairing_laws E -> prime (Zpos p) ->
  forall (g : gcar (PG1 E)) (h : gcar (PG2 E)) n d (f : mle p) x v (qs : list (list (F p) -> F p)),
  g <> gzero -> h <> gzero -> 1 <= n -> wf_mle f -> nv f = n -> length x = n -> v <> value f x -> algebraic n d qs ->
  count (algebraic_accepts g h n f x v qs) (allV p n) <= n * (d + 1) * fsize p ^ (n - 1).
Proof. intros p E HE. exact (kzg_algebraic_count HE). Qed.
Print Assumptions C23_algebraic_count.

Example C23_ex_commit : suffix 2 (trapdoor ex_rnd 3) = [i13 7; i13 9] /\
  ex_run (lincomb (i13 3) (i13 5) ex_f ex_f2) (i13 0) =
  Some (val (i13 3 * i13 2 * value ex_f [i13 7; i13 9] + i13 5 * i13 2 * value ex_f2 [i13 7; i13 9])%F, 6%Z, false).
Proof. split; vm_compute; reflexivity. Qed.
Example C23_ex_wrong : ex_run ex_f (i13 4) = Some (val (i13 2 * value ex_f [i13 7; i13 9])%F, 6%Z, false) /\
  i13 4 <> value ex_f [i13 6; i13 9] /\ @gzero 13 (exp_grp 13) <> i13 2 /\ @gzero 13 (exp_grp 13) <> i13 7.
Proof.
  split; [vm_compute; reflexivity|]. split; [intros H; apply (f_equal val) in H; vm_compute in H; discriminate|].
  split; intros H; apply (f_equal val) in H; vm_compute in H; discriminate.
Qed.
(** The hypotheses of the counts: different tables; an algebraic prover of degree 1; the bound is below the number of trapdoors. *)
Example C23_ex_count : evs ex_f <> evs ex_f2 /\ 2 * fsize 13 ^ (2 - 1) < fsize 13 ^ 2 /\
  algebraic (p:=13) 2 1 [fun t => nth 1 t F0; fun _ => i13 3] /\ 2 * (1 + 1) * fsize 13 ^ (2 - 1) < fsize 13 ^ 2.
Proof.
  split; [intros H; apply (f_equal (fun l => val (nth 3 l F0))) in H; vm_compute in H; discriminate|].
  split; [apply Nat.ltb_lt; vm_compute; reflexivity|]. split; [|apply Nat.ltb_lt; vm_compute; reflexivity].
  intros q [<-|[<-|[]]]; [exact (coord_degree 2 1)|intros pre post _; apply PolyLemmas.polyfun_const].
Qed.

(** ** C24: trimming *)

Theorem C24_trim_is_smaller_srs : forall (p : positive) (E : pairing p), pairing_laws E ->
  forall (g : gcar (PG1 E)) (h : gcar (PG2 E)) (rnd : nat -> F p) N n, 1 <= n -> n <= N -> exists s s' ck vk,
  gen_srs E g h rnd N = Ok s /\ gen_srs E g h (fun i => rnd (N - n + i)) n = Ok s' /\
  kzg_trim s None (Some n) = Ok (ck, vk) /\ kzg_trim s' None (Some n) = Ok (ck, vk).
Proof. intros p E HE. exact (kzg_trim_same HE). Qed.
Print Assumptions C24_trim_is_smaller_srs.

Theorem C24_trim_cases : forall (p : positive) (E : pairing p), pairing_laws E ->
  forall (g : gcar (PG1 E)) (h : gcar (PG2 E)) (rnd : nat -> F p) N s n, gen_srs E g h rnd N = Ok s ->
  (n <= N -> exists ck vk, kzg_trim s None (Some n) = Ok (ck, vk) /\
     extract_prover_param s n = Ok ck /\ extract_verifier_param s n = Ok vk /\ pp_nv ck = n /\ vk_nv vk = n) /\
  (N < n -> kzg_trim s None (Some n) = Err PCSInvalidParameters /\ extract_prover_param s n = Panic /\ extract_verifier_param s n = Panic) /\
  kzg_trim s None None = Err PCSInvalidParameters /\ (forall d o, kzg_trim s (Some d) o = Panic).
Proof. intros p E HE. exact (kzg_trim_cases HE). Qed.
Print Assumptions C24_trim_cases.

Example C24_ex :
  match gen_srs (exp_pairing 13) (i13 2) (i13 7) ex_rnd 3, gen_srs (exp_pairing 13) (i13 2) (i13 7) (fun i => ex_rnd (1 + i)) 2 with
  | Ok s, Ok s' => match kzg_trim s None (Some 2), kzg_trim s' None (Some 2) with
                   | Ok (ck, vk), Ok (ck', vk') => Some (map (map val) (pp_powers ck), map val (vk_mask vk), map (map val) (pp_powers ck'), map val (vk_mask vk'))
                   | _, _ => None
                   end
  | _, _ => None
  end = Some ([[5; 5; 9; 9]; [10; 5]; [2]], [10; 11], [[5; 5; 9; 9]; [10; 5]; [2]], [10; 11])%Z.
Proof. vm_compute. reflexivity. Qed.
