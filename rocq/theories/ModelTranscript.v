(** Model of /repo/src/transcript/mod.rs. *)
From Coq Require Import String List Arith Bool ZArith.
Import ListNotations.
From Verif Require Import Res Fp.

(** What the crate appends to a transcript, before serialisation ([to_bytes!], mod.rs 125-135).
    Serialisation is injective on each of these types and is not modelled. [C] is the type of commitments. *)
Inductive payload (p : positive) (C : Type) : Type :=
| PBytes (b : list nat)                 (* append_message *)
| PF (x : F p)                          (* one field element *)
| PAux (max_degree num_variables : nat) (* VPAuxInfo *)
| PMsg (evals : list (F p))             (* IOPProverMessage *)
| PComm (c : C).                        (* a commitment *)
Arguments PBytes {p C} b.
Arguments PF {p C} x.
Arguments PAux {p C} max_degree num_variables.
Arguments PMsg {p C} evals.
Arguments PComm {p C} c.

(** One operation on the inner [merlin::Transcript]. *)
Inductive event (p : positive) (C : Type) : Type :=
| ENew (label : string)
| EMsg (label : string) (x : payload p C)
| EChal (label : string).
Arguments ENew {p C} label.
Arguments EMsg {p C} label x.
Arguments EChal {p C} label.

(** transcript/mod.rs 30-35. The merlin state is the history of operations on it. *)
Record tr (p : positive) (C : Type) : Type := mkTr { hist : list (event p C); is_empty : bool }.
Arguments mkTr {p C} hist is_empty.
Arguments hist {p C} t.
Arguments is_empty {p C} t.

(** [challenge_bytes] followed by [from_le_bytes_mod_order]: an arbitrary function of the history and the label. *)
Definition oracle (p : positive) (C : Type) : Type := list (event p C) -> string -> F p.

(** mod.rs 40-46 *)
Definition tr_new {p C} (label : string) : tr p C := mkTr [ENew label] true.

(** mod.rs 49-75: the three append functions differ in the serialised type only; none of them fails
    on the types used here. *)
Definition append {p C} (label : string) (x : payload p C) (t : tr p C) : tr p C :=
  mkTr (hist t ++ [EMsg label x]) false.

(** mod.rs 82-95: the transcript is returned also on an error. *)
Definition draw {p C} (o : oracle p C) (label : string) (t : tr p C) : tr p C * res (F p) :=
  if is_empty t then (t, Err TranscriptInvalid)
  else
    let c := o (hist t) label in
    (append label (PF c) (mkTr (hist t ++ [EChal label]) false), Ok c).

(** mod.rs 114-117 *)
Fixpoint draw_loop {p C} (o : oracle p C) (label : string) (n : nat) (acc : list (F p)) (t : tr p C)
  : tr p C * res (list (F p)) :=
  match n with
  | O => (t, Ok acc)
  | S k => match draw o label t with
           | (t', Ok c) => draw_loop o label k (acc ++ [c]) t'
           | (t', Err e) => (t', Err e)
           | (t', Panic) => (t', Panic)
           end
  end.

(** mod.rs 102-119 *)
Definition draw_vec {p C} (o : oracle p C) (label : string) (n : nat) (t : tr p C) : tr p C * res (list (F p)) :=
  if is_empty t then (t, Err TranscriptInvalid) else draw_loop o label n [] t.

(** The [?] operator after a transcript call: the transcript is threaded on success. *)
Definition threaded {p C A} (x : tr p C * res A) : res (A * tr p C) :=
  match x with
  | (t, Ok a) => Ok (a, t)
  | (_, Err e) => Err e
  | (_, Panic) => Panic
  end.
Definition drawT {p C} (o : oracle p C) (label : string) (t : tr p C) : res (F p * tr p C) := threaded (draw o label t).
Definition draw_vecT {p C} (o : oracle p C) (label : string) (n : nat) (t : tr p C) : res (list (F p) * tr p C) :=
  threaded (draw_vec o label n t).
