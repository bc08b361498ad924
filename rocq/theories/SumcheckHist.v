(** Call histories of the transcript and of the interactive sum check, and acceptance of prover strategies. *)
From Coq Require Import String List Arith Bool ZArith.
Import ListNotations.
From Verif Require Import Res Fp FSum SpecMle SpecPoly SpecSumcheck ModelMle ModelVp ModelTranscript ModelSumcheck.
Local Open Scope string_scope.
Local Open Scope list_scope.
Local Open Scope nat_scope.

(** The calls a user can make on a transcript. *)
Inductive top (p : positive) (C : Type) : Type :=
| TAppend (l : string) (x : payload p C)
| TDraw (l : string)
| TDrawVec (l : string) (n : nat).
Arguments TAppend {p C} l x.
Arguments TDraw {p C} l.
Arguments TDrawVec {p C} l n.

Definition tstep {p C} (o : oracle p C) (t : tr p C) (c : top p C) : tr p C :=
  match c with
  | TAppend l x => append l x t
  | TDraw l => fst (draw o l t)
  | TDrawVec l n => fst (draw_vec o l n t)
  end.

(** The transcripts reachable with a given oracle. *)
Definition trun {p C} (o : oracle p C) (label : string) (cs : list (top p C)) : tr p C := fold_left (tstep o) cs (tr_new label).

(** A vector of challenges is the sequence of single draws. *)
Fixpoint draws {p C} (o : oracle p C) (l : string) (n : nat) (t : tr p C) : tr p C * list (F p) :=
  match n with
  | O => (t, [])
  | S k => let (t1, r) := draw o l t in
           let (t2, cs) := draws o l k t1 in (t2, match r with Ok c => c :: cs | _ => cs end)
  end.
(** Calls with or without a challenge; the state is kept when a call is rejected. *)
Fixpoint prover_calls {p} (sc : nat -> nat -> sched) (i : nat) (st : pstate p) (calls : list (option (F p))) : list (res (list (F p))) :=
  match calls with
  | [] => []
  | c :: r => match prove_round (sc i) st c with
              | Ok (st', m) => Ok m :: prover_calls sc (S i) st' r
              | Err e => Err e :: prover_calls sc (S i) st r
              | Panic => Panic :: prover_calls sc (S i) st r
              end
  end.

(** What the calls must return: [k] messages have been sent, with challenges [cs]. *)
Fixpoint expected_calls {p} (n d : nat) (f : list (F p) -> F p) (k : nat) (cs : list (F p)) (calls : list (option (F p))) : list (res (list (F p))) :=
  match calls with
  | [] => []
  | c :: r =>
      if n <=? k then Err IOPInvalidProver :: expected_calls n d f k cs r
      else match k, c with
           | O, None => Ok (round_msg n d f []) :: expected_calls n d f 1 [] r
           | S _, Some x => Ok (round_msg n d f (cs ++ [x])) :: expected_calls n d f (S k) (cs ++ [x]) r
           | _, _ => Err IOPInvalidProver :: expected_calls n d f k cs r
           end
  end.

(** Feed messages one after the other (each appended to the transcript before); rejected calls keep the state. *)
Fixpoint verifier_calls {p C} (o : oracle p C) (st : vstate p) (t : tr p C) (ms : list (list (F p))) : list (res (F p)) * vstate p :=
  match ms with
  | [] => ([], st)
  | m :: r =>
      let t1 := append "prover msg" (PMsg m) t in
      match verify_round o st m t1 with
      | Ok (c, st', t') => let (l, s) := verifier_calls o st' t' r in (Ok c :: l, s)
      | Err e => let (l, s) := verifier_calls o st t1 r in (Err e :: l, s)
      | Panic => let (l, s) := verifier_calls o st t1 r in (Panic :: l, s)
      end
  end.

Definition is_ok {A} (r : res A) : bool := match r with Ok _ => true | _ => false end.

(** One challenge hits an accidental agreement of the sent and the honest round polynomial. *)
Definition lucky {p} (n d : nat) (f : list (F p) -> F p) (m pre : list (F p)) (c : F p) : Prop :=
  (exists x, interp m x <> round_poly n f pre x) /\ interp m c = round_poly n f pre c /\
  count (fun x => Feqb (interp m x) (round_poly n f pre x)) (allF p) <= d.

(** Batching fails for r: the table is not zero, but its extension vanishes at r. *)
Definition unlucky_r {p} (n : nat) (f : list (F p) -> F p) (r : list (F p)) : Prop :=
  mle_ext n (fun k => f (bpoint n k)) r = F0 /\ count (fun r' => Feqb (mle_ext n (fun k => f (bpoint n k)) r') F0) (allV p n) <= n * fsize p ^ (n - 1).

(** Acceptance of a strategy's proof against the challenge vector [ch]. *)
Definition accepts_false {p C} (n d : nat) (f : list (F p) -> F p) (claimed : F p) (st : list (F p) -> list (F p)) (pt : list (F p)) (t : tr p C) (ch : list (F p)) : bool :=
  match sc_verify (script (nchal (hist t)) ch) claimed (mkProof pt (play st ch)) d n t with
  | Ok (s, _) => Feqb (sub_eval s) (f (sub_point s))
  | _ => false
  end.

(** Acceptance of a strategy's proof with a correct final evaluation; the first n entries of [rc] are the batching vector. *)
Definition zc_accepts {p C} (n d : nat) (f : list (F p) -> F p) (st : list (F p) -> list (F p) -> list (F p)) (pt : list (F p)) (t : tr p C) (rc : list (F p)) : bool :=
  match zc_verify (script (nchal (hist t)) rc) (mkProof pt (play (st (firstn n rc)) (skipn n rc))) d n t with
  | Ok (z, _) => Feqb (z_eval z) (f (z_point z))
  | _ => false
  end.

