(** Programs with several trackers: calls through handles and references, and the calls one tracker gets. *)
From Coq Require Import String List Arith Bool ZArith.
Import ListNotations.
From Verif Require Import Res Fp FSum ModelMle ModelVp ModelTranscript ModelSumcheck Pairing ModelKzg ModelBatch ModelProver ModelVerifier ModelHandles.
Local Open Scope string_scope.
Local Open Scope list_scope.
Local Open Scope nat_scope.

(** A program is a sequence of calls. It is run on a state of type [W], every call gives an answer. *)
Fixpoint runs {W C X} (step : W -> C -> res (X * W)) (w : W) (calls : list C) : res (list X * W) :=
  match calls with
  | [] => Ok ([], w)
  | c :: rest => ' (x, w1) <- step w c ;; ' (xs, w2) <- runs step w1 rest ;; Ok (x :: xs, w2)
  end.

(** Those of the calls that go to [r], and the answers to them. *)
Definition calls_to {C} (goes : C -> option nat) (r : nat) (calls : list C) : list C :=
  filter (fun c => match goes c with Some q => q =? r | None => false end) calls.
Definition answers_from {C X} (goes : C -> option nat) (r : nat) (calls : list C) (xs : list X) : list X :=
  map snd (filter (fun cx => match goes (fst cx) with Some q => q =? r | None => false end) (combine calls xs)).

(** ** The prover. Handles are values the caller holds, from wherever. *)
Inductive hcall (p : positive) : Type :=
| HTrack (r : nat) (m : mle p)
| HCommit (r : nat) (m : mle p)
| HAdd (a b : phandle)
| HSub (a b : phandle)
| HMul (a b : phandle)
| HAddS (a : phandle) (c : F p)
| HMulS (a : phandle) (c : F p)
| HFront (a : phandle) (k : nat)
| HBack (a : phandle) (k : nat)
| HEval (a : phandle) (x : list (F p))
| HEvals (a : phandle)
| HChal (r : nat) (l : string)
| HAppend (r : nat) (l : string) (bs : list nat)
| HSum (r : nat) (id : nat) (c : F p)
| HZero (r : nat) (id : nat)
| HCompile (r : nat).
Arguments HTrack {p} _ _.
Arguments HCommit {p} _ _.
Arguments HAdd {p} _ _.
Arguments HSub {p} _ _.
Arguments HMul {p} _ _.
Arguments HAddS {p} _ _.
Arguments HMulS {p} _ _.
Arguments HFront {p} _ _.
Arguments HBack {p} _ _.
Arguments HEval {p} _ _.
Arguments HEvals {p} _.
Arguments HChal {p} _ _.
Arguments HAppend {p} _ _ _.
Arguments HSum {p} _ _ _.
Arguments HZero {p} _ _.
Arguments HCompile {p} _.

Inductive answer {p} (E : pairing p) : Type :=
| AHandle (h : phandle)
| AComm (h : vhandle)
| AScalar (x : F p)
| AMaybe (x : option (F p))
| AList (l : list (F p))
| AProof (cp : cproof E)
| AUnit.
Arguments AHandle {p E} _.
Arguments AComm {p E} _.
Arguments AScalar {p E} _.
Arguments AMaybe {p E} _.
Arguments AList {p E} _.
Arguments AProof {p E} _.
Arguments AUnit {p E}.

(** The tracker a call is for; none if its operands belong to different trackers. *)
Definition goes {p} (c : hcall p) : option nat :=
  match c with
  | HAdd a b | HSub a b | HMul a b => if ph_at a =? ph_at b then Some (ph_at a) else None
  | HAddS a _ | HMulS a _ | HFront a _ | HBack a _ | HEval a _ | HEvals a => Some (ph_at a)
  | HTrack r _ | HCommit r _ | HChal r _ | HAppend r _ _ | HSum r _ _ | HZero r _ | HCompile r => Some r
  end.

Section P.
Context {p : positive} {E : pairing p}.
Variables (o : oracle p (gcar (PG1 E))) (sc sc' : nat -> nat -> sched) (addr : nat -> nat) (debug : bool).

Definition ans {A W} (f : A -> answer E) (x : res (A * W)) : res (answer E * W) := ' (a, w) <- x ;; Ok (f a, w).

(** One call of a program with the trackers [w]. *)
Definition hcall_do (w : list (ptrk E)) (c : hcall p) : res (answer E * list (ptrk E)) :=
  match c with
  | HTrack r m => ans AHandle (hp_track w r m)
  | HCommit r m => ans AHandle (hp_commit w r m)
  | HAdd a b => ans AHandle (hp_add w a b)
  | HSub a b => ans AHandle (hp_sub w a b)
  | HMul a b => ans AHandle (hp_mul w a b)
  | HAddS a c => ans AHandle (hp_add_scalar w a c)
  | HMulS a c => ans AHandle (hp_mul_scalar w a c)
  | HFront a k => ans AHandle (hp_front w a k)
  | HBack a k => ans AHandle (hp_back w a k)
  | HEval a x => y <- hp_evaluate w a x ;; Ok (AMaybe y, w)
  | HEvals a => ans AList (hp_evaluations w a)
  | HChal r l => ans AScalar (hp_challenge o w r l)
  | HAppend r l bs => ans (fun _ => AUnit) (hp_append w r l bs)
  | HSum r id c => ans (fun _ => AUnit) (hp_sum_claim w r id c)
  | HZero r id => ans (fun _ => AUnit) (hp_zero_claim w r id)
  | HCompile r => ans AProof (hp_compile o sc sc' addr debug w r)
  end.

(** The same call in a program that has only the tracker [t]: operands are numbers of its polynomials. *)
Definition named (r : nat) (x : res (tpoly * ptrk E)) : res (answer E * ptrk E) :=
  ' (h, t) <- x ;; Ok (AHandle (mkPH (tp_id h) (tp_nv h) r), t).
Definition num (h : phandle) : tpoly := mkTp (ph_id h) (ph_nv h).
Definition alone (t : ptrk E) (c : hcall p) : res (answer E * ptrk E) :=
  match c with
  | HTrack r m => named r (Ok (tp_track t m))
  | HCommit r m => named r (tp_commit t m)
  | HAdd a b => named (ph_at a) (tp_add t (num a) (num b))
  | HSub a b => named (ph_at a) (tp_sub t (num a) (num b))
  | HMul a b => named (ph_at a) (tp_mul t (num a) (num b))
  | HAddS a c => named (ph_at a) (tp_add_scalar t (num a) c)
  | HMulS a c => named (ph_at a) (tp_mul_scalar t (num a) c)
  | HFront a k => named (ph_at a) (tp_front t (num a) k)
  | HBack a k => named (ph_at a) (tp_back t (num a) k)
  | HEval a x => y <- tp_evaluate t (num a) x ;; Ok (AMaybe y, t)
  | HEvals a => ' (l, t') <- tp_evaluations t (num a) ;; Ok (AList l, t')
  | HChal _ l => ' (x, t') <- pt_challenge o l t ;; Ok (AScalar x, t')
  | HAppend _ l bs => Ok (AUnit, set_tr t (append l (PBytes bs) (pt_tr t)))
  | HSum _ id c => Ok (AUnit, add_sumcheck_claim t id c)
  | HZero _ id => Ok (AUnit, add_zerocheck_claim t id)
  | HCompile _ => ' (cp, t') <- compile_proof o sc sc' addr debug t ;; Ok (AProof cp, t')
  end.
End P.

(** ** The verifier. *)
Inductive vhcall {p} (E : pairing p) : Type :=
| WComm (r : nat) (c : gcar (PG1 E))
| WFun (r : nat) (f : list (F p) -> res (F p))
| WAdd (a b : vhandle)
| WSub (a b : vhandle)
| WMul (a b : vhandle)
| WAddS (a : vhandle) (c : F p)
| WMulS (a : vhandle) (c : F p)
| WFront (a : vhandle) (k : nat)
| WBack (a : vhandle) (k : nat)
| WTransfer (r : nat) (id : nat)
| WTransferEvals (r : nat)
| WEval (a : vhandle) (x : list (F p))
| WChal (r : nat) (l : string)
| WSum (r : nat) (id : nat) (c : F p)
| WZero (r : nat) (id : nat)
| WVerify (r : nat).
Arguments WComm {p E} _ _.
Arguments WFun {p E} _ _.
Arguments WAdd {p E} _ _.
Arguments WSub {p E} _ _.
Arguments WMul {p E} _ _.
Arguments WAddS {p E} _ _.
Arguments WMulS {p E} _ _.
Arguments WFront {p E} _ _.
Arguments WBack {p E} _ _.
Arguments WTransfer {p E} _ _.
Arguments WTransferEvals {p E} _.
Arguments WEval {p E} _ _.
Arguments WChal {p E} _ _.
Arguments WSum {p E} _ _ _.
Arguments WZero {p E} _ _.
Arguments WVerify {p E} _.

Definition vgoes {p} {E : pairing p} (c : vhcall E) : option nat :=
  match c with
  | WAdd a b | WSub a b | WMul a b => if vh_at a =? vh_at b then Some (vh_at a) else None
  | WAddS a _ | WMulS a _ | WFront a _ | WBack a _ | WEval a _ => Some (vh_at a)
  | WComm r _ | WFun r _ | WTransfer r _ | WTransferEvals r | WChal r _ | WSum r _ _ | WZero r _ | WVerify r => Some r
  end.

Section V.
Context {p : positive} {E : pairing p}.
Variables (o : oracle p (gcar (PG1 E))) (debug : bool).

Definition vhcall_do (w : list (nat * vtrk E)) (c : vhcall E) : res (answer E * list (nat * vtrk E)) :=
  match c with
  | WComm r c => ans AComm (hv_comm w r c)
  | WFun r f => ans AComm (hv_fun w r f)
  | WAdd a b => ans AComm (hv_add w a b)
  | WSub a b => ans AComm (hv_sub w a b)
  | WMul a b => ans AComm (hv_mul w a b)
  | WAddS a c => ans AComm (hv_add_scalar w a c)
  | WMulS a c => ans AComm (hv_mul_scalar w a c)
  | WFront a k => ans AComm (hv_front w a k)
  | WBack a k => ans AComm (hv_back w a k)
  | WTransfer r id => ans AComm (hv_transfer debug w r id)
  | WTransferEvals r => ans (fun _ => AUnit) (hv_transfer_evals w r)
  | WEval a x => y <- hv_eval w a x ;; Ok (AScalar y, w)
  | WChal r l => ans AScalar (hv_challenge o w r l)
  | WSum r id c => ans (fun _ => AUnit) (hv_sum_claim w r id c)
  | WZero r id => ans (fun _ => AUnit) (hv_zero_claim w r id)
  | WVerify r => ans (fun _ => AUnit) (hv_verify o w r)
  end.

Definition vnamed (r : nat) (x : nat * vtrk E) : res (answer E * vtrk E) := Ok (AComm (mkVH (fst x) r), snd x).
Definition valone (v : vtrk E) (c : vhcall E) : res (answer E * vtrk E) :=
  match c with
  | WComm r c => vnamed r (track_mat_comm v c)
  | WFun r f => vnamed r (track_virtual_comm v f)
  | WAdd a b => vnamed (vh_at a) (add_comms v (vh_id a) (vh_id b))
  | WSub a b => vnamed (vh_at a) (sub_comms v (vh_id a) (vh_id b))
  | WMul a b => vnamed (vh_at a) (mul_comms v (vh_id a) (vh_id b))
  | WAddS a c => vnamed (vh_at a) (v_add_scalar v (vh_id a) c)
  | WMulS a c => vnamed (vh_at a) (v_mul_scalar v (vh_id a) c)
  | WFront a k => vnamed (vh_at a) (v_increase_nv_front v (vh_id a) k)
  | WBack a k => vnamed (vh_at a) (v_increase_nv_back v (vh_id a) k)
  | WTransfer r id => x <- transfer_prover_comm debug v id ;; vnamed r x
  | WTransferEvals r => Ok (AUnit, transfer_proof_poly_evals v)
  | WEval a x => y <- eval_virtual_comm v (vh_id a) x ;; Ok (AScalar y, v)
  | WChal _ l => ' (x, v') <- vt_challenge o l v ;; Ok (AScalar x, v')
  | WSum _ id c => Ok (AUnit, v_add_sumcheck_claim v id c)
  | WZero _ id => Ok (AUnit, v_add_zerocheck_claim v id)
  | WVerify _ => v' <- verify_claims o v ;; Ok (AUnit, v')
  end.
End V.
