(** The comparison that [verify_claims] lacks, and what it takes for it to make the verifier sound. Nothing here stands for code
    in /repo: [last_check] repeats the first half of [verify_claims] (verifier_tracker.rs 367-385), keeps the aggregated
    commitment that the code drops, and evaluates it with the code's own [eval_virtual_comm]. *)
From Coq Require Import String List Arith Bool ZArith.
Import ListNotations.
From Verif Require Import Res Fp FSum SpecMle SpecPoly SpecSumcheck SpecTracker SpecIop ModelMle ModelTranscript ModelSumcheck SumcheckHist Pairing ModelKzg ModelBatch ModelProver ModelVerifier.
Local Open Scope string_scope.
Local Open Scope list_scope.
Local Open Scope nat_scope.

Section H.
Context {p : positive} {E : pairing p}.
Notation F := (F p).
Notation comm := (gcar (PG1 E)).

(** Is the value at which the sum-check ends the value of the aggregated commitment at the point of the challenges? *)
Definition last_check (o : oracle p comm) (v : vtrk E) : res bool :=
  let cp := vt_proof v in
  v1 <- v_convert_zerocheck_claims o (cp_nv cp) v ;;
  ' (agg, sum, v2) <- v_aggregate_sumcheck_claims o v1 ;;
  ' (sub, _) <- map_err (sc_verify o sum (cp_sc cp) (cp_deg cp) (cp_nv cp) (vt_tr v2)) IOPInvalidVerifier ;;
  y <- eval_virtual_comm v2 agg (sub_point sub) ;;
  Ok (Feqb y (sub_eval sub)).
(** [verify_claims] with that comparison. *)
Definition verify_claims_checked (o : oracle p comm) (v : vtrk E) : res (vtrk E) :=
  v' <- verify_claims o v ;;
  b <- last_check o v ;;
  _ <- ensure b IOPInvalidVerifier ;;
  Ok v'.

(** The polynomial under id [i], as a function of points with at least its number of variables; the last coordinates are ignored. *)
Definition extension (A : reading) (i : nat) (x : list F) : F := mle_ext (fst (A i)) (snd (A i)) (firstn (fst (A i)) x).
(** The query results that the verifier holds are values of the committed polynomials: this is what the batch opening is for. *)
Definition queries_true (A : reading) (v : vtrk E) : Prop :=
  forall id i x y, mget (vt_virt v) id = Some (VQuery i) -> qget (vt_query v) (i, x) = Some y -> fst (A i) <= length x -> y = extension A i x.
(** The closures of the caller compute the polynomials that the reading gives them, at points with at most [N] coordinates. (The
    closure for the column of indices does so when it is read with [N] variables: it uses all coordinates that it is given.) *)
Definition closures_true (A : reading) (N : nat) (v : vtrk E) : Prop :=
  forall id f x y, mget (vt_virt v) id = Some (VFun f) -> f x = Ok y -> fst (A id) <= length x <= N -> y = extension A id x.

(** At most [d] factors in every product. *)
Inductive degree_le (m : tmap (vexp p)) : nat -> nat -> Prop :=
| dl_query : forall id i d, mget m id = Some (VQuery i) -> 1 <= d -> degree_le m id d
| dl_fun : forall id f d, mget m id = Some (VFun f) -> 1 <= d -> degree_le m id d
| dl_add : forall id a b d, mget m id = Some (VAdd a b) -> degree_le m a d -> degree_le m b d -> degree_le m id d
| dl_sub : forall id a b d, mget m id = Some (VSub a b) -> degree_le m a d -> degree_le m b d -> degree_le m id d
| dl_mul : forall id a b da db d, mget m id = Some (VMul a b) -> degree_le m a da -> degree_le m b db -> da + db <= d -> degree_le m id d
| dl_adds : forall id a c d, mget m id = Some (VAddS a c) -> degree_le m a d -> degree_le m id d
| dl_muls : forall id a c d, mget m id = Some (VMulS a c) -> degree_le m a d -> degree_le m id d
| dl_front : forall id a k d, mget m id = Some (VFront a k) -> degree_le m a d -> degree_le m id d
| dl_back : forall id a k d, mget m id = Some (VBack a k) -> degree_le m a d -> degree_le m id d.

(** [value_at A m id x y]: the polynomial under the virtual commitment [id] has value [y] at the point [x]. *)
Inductive value_at (A : reading) (m : tmap (vexp p)) : nat -> list F -> F -> Prop :=
| va_query : forall id i x, mget m id = Some (VQuery i) -> fst (A i) <= length x -> value_at A m id x (extension A i x)
| va_fun : forall id f x, mget m id = Some (VFun f) -> fst (A id) <= length x -> value_at A m id x (extension A id x)
| va_add : forall id a b x y z, mget m id = Some (VAdd a b) -> value_at A m a x y -> value_at A m b x z -> value_at A m id x (y + z)%F
| va_sub : forall id a b x y z, mget m id = Some (VSub a b) -> value_at A m a x y -> value_at A m b x z -> value_at A m id x (y - z)%F
| va_mul : forall id a b x y z, mget m id = Some (VMul a b) -> value_at A m a x y -> value_at A m b x z -> value_at A m id x (y * z)%F
| va_adds : forall id a c x y, mget m id = Some (VAddS a c) -> value_at A m a x y -> value_at A m id x (y + c)%F
| va_muls : forall id a c x y, mget m id = Some (VMulS a c) -> value_at A m a x y -> value_at A m id x (c * y)%F
| va_front : forall id a k x y, mget m id = Some (VFront a k) -> k <= length x -> value_at A m a (skipn k x) y -> value_at A m id x y
| va_back : forall id a k x y, mget m id = Some (VBack a k) -> k <= length x -> value_at A m a (firstn k x) y -> value_at A m id x y.

(** The ids that the verifier holds claims on; [f id j] is the value of [id] at corner [j]. *)
Definition claimed_ids (v : vtrk E) : list nat := vt_zc v ++ map fst (vt_sc v).
Definition valued (A : reading) (N : nat) (v : vtrk E) (f : nat -> nat -> F) : Prop :=
  forall id j, In id (claimed_ids v) -> j < 2 ^ N -> means A (vt_virt v) id N j (f id j).
(** At corner [j], the values that should be zero; and the sums that should be the claimed ones. *)
Definition zeros_at (v : vtrk E) (f : nat -> nat -> F) (j : nat) : list F := map (fun id => f id j) (vt_zc v).
Definition true_sums (N : nat) (v : vtrk E) (f : nat -> nat -> F) : list F := map (fun cl => Fsum (map (f (fst cl)) (seq 0 (2 ^ N)))) (vt_sc v).

(** The challenges [zs] (one per zero claim), [r] and [cs] (one per sum claim and one more) make the combination of all claims
    true. It is, if all claims are; otherwise it is for few challenges (C60_count). *)
Definition combined (N : nat) (v : vtrk E) (f : nat -> nat -> F) (zs r cs : list F) : Prop :=
  weighted cs (map snd (vt_sc v) ++ [F0]) = weighted cs (true_sums N v f ++ [mle_ext N (fun j => weighted zs (zeros_at v f j)) r]).

(** [P id] is the polynomial of each claimed id; [aggregate] is their combination with the challenges. *)
Definition polynomials (A : reading) (N : nat) (v : vtrk E) (P : nat -> list F -> F) : Prop :=
  forall id x, In id (claimed_ids v) -> length x = N -> value_at A (vt_virt v) id x (P id x).
Definition aggregate (v : vtrk E) (P : nat -> list F -> F) (zs r cs x : list F) : F :=
  weighted cs (map (fun cl => P (fst cl) x) (vt_sc v) ++ [weighted zs (map (fun id => P id x) (vt_zc v)) * eqf x r])%F.

(** A prover that sees the challenges: the [j]-th sum-check message, and the query results, are computed from what was drawn before. *)
Definition drawn_before (N : nat) (v : vtrk E) : nat := length (vt_zc v) + N + length (vt_sc v) + 1.
Definition facing (st : list F -> list F) (q : list F -> list ((nat * list F) * F)) (v : vtrk E) (ch : list F) : vtrk E :=
  let cp := vt_proof v in
  mkVtrk (vt_vk v) (vt_tr v) (vt_next v) (vt_mat v) (vt_virt v) (q ch) (vt_sc v) (vt_zc v)
    (mkCproof (cp_comms cp) (cp_sums cp) (mkProof [] (map (fun j => st (firstn (drawn_before (cp_nv cp) v + j) ch)) (seq 0 (cp_nv cp)))) (cp_deg cp) (cp_nv cp) (cp_query cp) (cp_pcs cp)).
Definition passes (st : list F -> list F) (q : list F -> list ((nat * list F) * F)) (v : vtrk E) (ch : list F) : bool :=
  match last_check (script (nchal (hist (vt_tr v))) ch) (facing st q v ch) with Ok b => b | _ => false end.
End H.
