(** A session: one prover tracker and one verifier tracker that exchange several proofs. *)
From Coq Require Import String List Arith Bool ZArith.
Import ListNotations.
From Verif Require Import Res Fp FSum SpecMle SpecSumcheck SpecTracker ModelMle ModelTranscript ModelSumcheck Pairing ModelKzg ModelBatch ModelProver ModelVerifier ProverHist VerifierHist.
Local Open Scope list_scope.
Local Open Scope nat_scope.

(** One round: the prover's calls, the verifier's calls, and how the prover was scheduled and built while it compiled. *)
Record rnd {p} (E : pairing p) : Type := mkRnd {
  r_ops : list (pop p);
  r_vops : list (vop E);
  r_sc : nat -> nat -> sched;
  r_sc' : nat -> nat -> sched;
  r_addr : nat -> nat;
  r_debug : bool }.
Arguments mkRnd {p E} _ _ _ _ _ _.
Arguments r_ops {p E} _.
Arguments r_vops {p E} _.
Arguments r_sc {p E} _ _ _.
Arguments r_sc' {p E} _ _ _.
Arguments r_addr {p E} _ _.
Arguments r_debug {p E} _.

Section H.
Context {p : positive} {E : pairing p}.
Local Notation pworld := (ptrk E * list tpoly)%type.
Local Notation vworld := (vtrk E * list nat)%type.

(** The prover compiles after its calls of the round, the verifier is handed that proof, makes its calls and verifies.
    Both go on with the trackers this leaves. *)
Definition compile_round (o : oracle p (gcar (PG1 E))) (r : rnd E) (s : ptrk E) : res (cproof E * ptrk E) :=
  compile_proof o (r_sc r) (r_sc' r) (r_addr r) (r_debug r) s.
Definition round (o : oracle p (gcar (PG1 E))) (vdebug : bool) (w : pworld * vworld) (r : rnd E) : res (pworld * vworld) :=
  let '(pw, (v, cs)) := w in
  ' (s1, hs1) <- foldM (pstep o) pw (r_ops r) ;;
  ' (cp, s2) <- compile_round o r s1 ;;
  ' (v1, cs1) <- foldM (vstep o vdebug) (set_compiled_proof v cp, cs) (r_vops r) ;;
  v2 <- verify_claims o v1 ;;
  Ok ((s2, hs1), (v2, cs1)).
Definition session (o : oracle p (gcar (PG1 E))) (vdebug : bool) (ck : pparam E) (vk : vparam E) (rs : list (rnd E)) : res (pworld * vworld) :=
  foldM (round o vdebug) ((pt_new ck, []), (vt_new vk, [])) rs.

(** All calls of a session, in order. *)
Definition calls (rs : list (rnd E)) : list (pop p) := flat_map r_ops rs.
Definition vcalls (rs : list (rnd E)) : list (vop E) := flat_map r_vops rs.

(** The rest of a round after the prover's calls: compile with the challenges [ch], hand the proof to the verifier, which
    makes its calls with the oracle of the session, and verify with the same challenges [ch]. *)
Definition round_accepts (oh : oracle p (gcar (PG1 E))) (vdebug : bool) (v : vtrk E) (cs : list nat) (r : rnd E) (s1 : ptrk E) (ch : list (F p)) : bool :=
  let o := script (nchal (hist (pt_tr s1))) ch in
  match compile_round o r s1 with
  | Ok (cp, _) => match foldM (vstep oh vdebug) (set_compiled_proof v cp, cs) (r_vops r) with
                  | Ok (v1, _) => match verify_claims o v1 with Ok _ => true | _ => false end
                  | _ => false
                  end
  | _ => false
  end.
Definition round_compiles (r : rnd E) (s1 : ptrk E) (ch : list (F p)) : bool :=
  match compile_round (script (nchal (hist (pt_tr s1))) ch) r s1 with Ok _ => true | _ => false end.
End H.
