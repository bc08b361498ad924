(** Running a protocol after a history of tracker calls, and what its handles stand for. *)
From Coq Require Import String List Arith Bool ZArith.
Import ListNotations.
From Verif Require Import Res Fp FSum SpecMle SpecPoly SpecSumcheck SpecKzg SpecBatch SpecTracker SpecIop ModelMle ModelTranscript ModelSumcheck Pairing ModelKzg ModelBatch ModelProver ModelVerifier
  ModelIop ProverHist VerifierHist CompileHist.
Local Open Scope list_scope.
Local Open Scope nat_scope.

Section H.
Context {p : positive} {E : pairing p}.

(** The handle [h] was returned by the history and stands for the table [l]. *)
Definition stands (ops : list (pop p)) (hs : list tpoly) (h : tpoly) (l : list (F p)) : Prop :=
  exists i, nth_error hs i = Some h /\ corners (poly_at ops i) = l.
(** A bag of two such handles of one shape, for a column and a selector. *)
Definition bag_stands ops hs (b : bag) (l sl : list (F p)) : Prop :=
  stands ops hs (b_poly b) l /\ stands ops hs (b_sel b) sl /\ tp_nv (b_poly b) = tp_nv (b_sel b).

(** A table of such handles of one shape, for its columns and its selector. *)
Definition table_stands ops hs (t : table) (cols : list (list (F p))) (sl : list (F p)) : Prop :=
  Forall2 (fun c l => stands ops hs c l /\ tp_nv c = t_nv t) (t_cols t) cols /\ stands ops hs (t_sel t) sl.

(** A bag with a multiplicity column, and the three columns they stand for. *)
Definition item_stands ops hs (bm : bag * tpoly) (t : list (F p) * list (F p) * list (F p)) : Prop :=
  bag_stands ops hs (fst bm) (fst (fst t)) (snd (fst t)) /\ stands ops hs (snd bm) (snd t) /\ tp_nv (snd bm) = b_nv (fst bm).

(** The same for a verifier's bag and the tables its ids are read as. *)
Definition item_reads (A : reading (p:=p)) (N : nat) (v : vtrk E) (bm : bagc * nat) (t : list (F p) * list (F p) * list (F p)) : Prop :=
  reads A N v (bc_poly (fst bm)) (bc_nv (fst bm)) (fst (fst t)) /\ reads A N v (bc_sel (fst bm)) (bc_nv (fst bm)) (snd (fst t)) /\ reads A N v (snd bm) (bc_nv (fst bm)) (snd t).

Definition bag_reads (A : reading (p:=p)) (N : nat) (v : vtrk E) (b : bagc) (l sl : list (F p)) : Prop :=
  reads A N v (bc_poly b) (bc_nv b) l /\ reads A N v (bc_sel b) (bc_nv b) sl.
Definition table_reads (A : reading (p:=p)) (N : nat) (v : vtrk E) (t : tablec) (cols : list (list (F p))) (sl : list (F p)) : Prop :=
  Forall2 (fun id l => reads A N v id (tc_nv t) l) (tc_cols t) cols /\ reads A N v (tc_sel t) (tc_nv t) sl.

(** What a verifier holds for a bag or table of the prover: the same ids. *)
Definition comm_of (b : bag) : bagc := mkBagc (tp_id (b_poly b)) (tp_id (b_sel b)) (b_nv b).
Definition tcomm_of (t : table) : tablec := mkTablec (map tp_id (t_cols t)) (tp_id (t_sel t)) (t_nv t).

(** Compile the claims collected in [s], hand the proof to a verifier that makes the calls [vops], run [verify] there and
    check all claims. *)
Definition check (o : oracle p (gcar (PG1 E))) (sc sc' : nat -> nat -> sched) (addr : nat -> nat) (debug vdebug : bool) (vk : vparam E)
  (vops : list (vop E)) (s : ptrk E) (verify : vtrk E -> res (vtrk E)) : res (vtrk E) :=
  ' (cp, _) <- compile_proof o sc sc' addr debug s ;;
  ' (v, _) <- vrun o vdebug vk cp vops ;;
  v' <- verify v ;;
  verify_claims o v'.

(** A setting for such a run: keys for [k] variables, a prover history [ops] that holds no false zero claim, whose
    polynomials have degree at most [d] in each variable, and the verifier's counterpart [vops], which reads all claimed sums from the proof
    and whose closures compute the tables they stand for; extensions at the back double the number of variables.
    [D] bounds the degrees that the protocol may reach. *)
Record setting (o : oracle p (gcar (PG1 E))) (addr : nat -> nat) (k : nat) (ck : pparam E) (vk : vparam E)
  (ops : list (pop p)) (vops : list (vop E)) (s : ptrk E) (hs : list tpoly) (d D : nat) : Prop := {
  st_keys : exists g h rnd N srs, 1 <= N /\ k <= N /\ gen_srs E g h rnd N = Ok srs /\ kzg_trim srs None (Some k) = Ok (ck, vk);
  st_addr : distinct_addresses addr;
  st_run : prun o ck ops = Ok (s, hs);
  st_mirror : mirror true ck ops vops;
  st_back : back_calls [] ops;
  st_claimed : forall i c, ~ In (VOSum i c) vops;
  st_zeros : zeros_hold ops;
  st_deg : forall x, In x (degrees ops) -> x <= d;
  st_nv : 0 < max_nv hs <= k;
  st_commits : 2 <= commit_calls ops;
  st_two : 2 < fsize p;
  st_D : D + 1 < fsize p }.

(** The tables that the prover holds under its ids. *)
Definition held (s : ptrk E) : reading (p:=p) :=
  fun id => match mget (pt_mat s) id with Some (_, m) => (nv m, fun j => nth j (evs m) F0) | None => (0, fun _ => F0) end.

(** What becomes of a proof whose claims were collected in [s]: it is compiled and accepted (unless a challenge is one of the
    small numbers that the round messages are sampled at: then the verifier panics), and all claims that the verifier
    collected are true of the tables that the prover holds; it is compiled and the verifier's
    call of the protocol fails with [e]; or a debug prover refuses to compile it for all but a small share of the challenge
    vectors (the first [m] challenges decide). All for any thread schedules and any build. *)
Definition accepted o addr vk vops s (verify : bool -> vtrk E -> res (vtrk E)) : Prop :=
  forall sc sc' debug vdebug, exists cp s' v0 ids v1,
    compile_proof o sc sc' addr debug s = Ok (cp, s') /\ vrun o vdebug vk cp vops = Ok (v0, ids) /\ verify vdebug v0 = Ok v1 /\
    (off_nodes cp -> exists v2, verify_claims o v1 = Ok v2) /\ (~ off_nodes cp -> verify_claims o v1 = Panic) /\
    exists N, claims_hold (held s) N v1.
Definition rejected o addr vk vops s (verify : bool -> vtrk E -> res (vtrk E)) e : Prop :=
  forall sc sc' debug vdebug, check o sc sc' addr debug vdebug vk vops s (verify vdebug) = Err e.
Definition refused addr (k : nat) (s : ptrk E) : Prop :=
  exists m, forall sc sc' M, count (compiles sc sc' addr true s) (allV p (m + 1 + M)) <= (k + 2) * fsize p ^ (m + M).
(** Not accepted, in one of the two ways. *)
Definition turned_down o addr k vk vops s (verify : bool -> vtrk E -> res (vtrk E)) : Prop := rejected o addr vk vops s verify IOPInvalidVerifier \/ refused addr k s.
End H.
