(** What a program of tracker calls means, without trackers: each handle stands for a function of a point. *)
From Coq Require Import String List Arith Bool ZArith.
Import ListNotations.
From Verif Require Import Res Fp FSum SpecMle ModelMle ModelTranscript ProverHist.
Local Open Scope list_scope.
Local Open Scope nat_scope.

Section D.
Context {p : positive}.
(** Number of variables and values of the polynomial behind a handle. *)
Definition den : Type := (nat * (list (F p) -> F p))%type.

Definition mle_den (n : nat) (l : list (F p)) : den := (n, mle_ext n (tab l)).

(** The polynomials behind the handles after one more call; extending by variables leaves the value unchanged and
    ignores the new variables. *)
Definition den_step (ds : list den) (op : pop p) : list den :=
  let get i := nth i ds (0, fun _ => F0) in
  match op with
  | OTrack n l => ds ++ [mle_den n l]
  | OCommit n l => ds ++ [mle_den n l]
  | OAdd i j => ds ++ [(fst (get i), fun x => (snd (get i) x + snd (get j) x)%F)]
  | OSub i j => ds ++ [(fst (get i), fun x => (snd (get i) x - snd (get j) x)%F)]
  | OMul i j => ds ++ [(fst (get i), fun x => (snd (get i) x * snd (get j) x)%F)]
  | OAddS i c => ds ++ [(fst (get i), fun x => (snd (get i) x + c)%F)]
  | OMulS i c => ds ++ [(fst (get i), fun x => (snd (get i) x * c)%F)]
  | OFront i k => ds ++ [(fst (get i) + k, fun x => snd (get i) (skipn k x))]
  | OBack i k => ds ++ [(fst (get i) + k, fun x => snd (get i) (firstn (fst (get i)) x))]
  | _ => ds
  end.
Definition denote (ops : list (pop p)) : list den := fold_left den_step ops [].

(** Values at the corners of the hypercube, and their sum. *)
Definition corners (d : den) : list (F p) := map (fun k => snd d (bpoint (fst d) k)) (seq 0 (2 ^ fst d)).

Definition multilinear (d : den) : Prop :=
  forall x, length x = fst d -> snd d x = mle_ext (fst d) (tab (corners d)) x.

(** Calls that make the prover tracker replace its operand by the multilinear polynomial with the same corners are only
    made on multilinear operands. *)
Definition linear_call (ds : list den) (op : pop p) : Prop :=
  match op with
  | OFront i _ | OBack i _ | OEvals i => forall d, nth_error ds i = Some d -> multilinear d
  | _ => True
  end.
Fixpoint linear_calls (ds : list den) (ops : list (pop p)) : Prop :=
  match ops with
  | [] => True
  | op :: r => linear_call ds op /\ linear_calls (den_step ds op) r
  end.

(** Degrees: a bound on the degree of the polynomial behind each handle in each variable. *)
Definition deg_step (ds : list nat) (op : pop p) : list nat :=
  let get i := nth i ds 1 in
  match op with
  | OTrack _ _ | OCommit _ _ | OFront _ _ | OBack _ _ => ds ++ [1]
  | OAdd i j | OSub i j => ds ++ [Nat.max (get i) (get j)]
  | OMul i j => ds ++ [get i + get j]
  | OAddS i _ | OMulS i _ => ds ++ [get i]
  | _ => ds
  end.
Definition degrees (ops : list (pop p)) : list nat := fold_left deg_step ops [].
End D.

(** Random linear combination. *)
Definition weighted {p} (cs vs : list (F p)) : F p := Fsum (map (fun cv => (fst cv * snd cv)%F) (combine cs vs)).
