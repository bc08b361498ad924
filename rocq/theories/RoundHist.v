(** The challenges that the sum-check verifier draws, as a function of the messages it is given. Nothing here stands for code in /repo. *)
From Coq Require Import String List Arith ZArith.
Import ListNotations.
From Verif Require Import Res Fp ModelTranscript ModelSumcheck.
Local Open Scope string_scope.
Local Open Scope list_scope.
Local Open Scope nat_scope.

(** One challenge after each message; message and challenge both go into the transcript. *)
Fixpoint round_draws {p C} (o : oracle p C) (ms : list (list (F p))) (t : tr p C) : list (F p) :=
  match ms with
  | [] => []
  | m :: r => let t1 := append "prover msg" (PMsg m) t in
              let c := o (hist t1) "Internal round" in
              c :: round_draws o r (append "Internal round" (PF c) (mkTr (hist t1 ++ [EChal "Internal round"]) false))
  end.
(** The challenges met by a verifier that expects [n] messages of degree [d]. *)
Definition met {p C} (o : oracle p C) (d n : nat) (ms : list (list (F p))) (t : tr p C) : list (F p) :=
  round_draws o (firstn n ms) (append "aux info" (PAux d n) t).
