(** What the advice computations and the joins are about. *)
From Coq Require Import List Arith Bool ZArith Sorted Permutation.
Import ListNotations.
From Verif Require Import Res Fp FSum SpecMle SpecIop ModelIop.
Local Open Scope list_scope.
Local Open Scope nat_scope.

Section R.
Context {p : positive}.
Notation F := (F p).

(** Ascending without repetition, by the canonical integers. *)
Definition ascending (l : list F) : Prop := StronglySorted (fun a b => (val a < val b)%Z) l.
(** Selected rows first, and in ascending order (repetitions allowed). *)
Definition sorted_first (l sl : list F) : Prop :=
  forall i j, i < j -> j < length l -> nth j sl F0 <> F0 -> nth i sl F0 <> F0 /\ (val (nth i l F0) <= val (nth j l F0))%Z.
(** The columns of four bags into which the bags [a] and [b] are split: what is only in [a], what of [a] is in [b], what of [b] is in [a], what is only in [b]. *)
Definition split_parts (a sa b sb l ls ma mas mb mbs r rs : list F) : Prop :=
  boolean ls /\ boolean mas /\ boolean mbs /\ boolean rs /\
  Permutation (rows a sa) (rows l ls ++ rows ma mas) /\ Permutation (rows b sb) (rows mb mbs ++ rows r rs) /\
  (forall x, In x (rows l ls) -> ~ In x (rows b sb)) /\ (forall x, In x (rows r rs) -> ~ In x (rows a sa)) /\
  (forall x, In x (rows ma mas) -> In x (rows b sb)) /\ (forall x, In x (rows mb mbs) -> In x (rows a sa)).
(** Row [i] of the right column is selected, and no selected row of the left column [a] has its key. *)
Definition missing (a sa b sb : list F) (i : nat) : Prop :=
  nth i sb F0 = F1 /\ forall k, k < length a -> nth k sa F0 = F1 -> nth k a F0 <> nth i b F0.
(** The selected rows of a table with the columns [cols], in order; and the cross product of two lists of rows. *)
Definition table_rows (cols : list (list F)) (sl : list F) : list (list F) :=
  map (row cols) (filter (fun k => negb (Feqb (nth k sl F0) F0)) (seq 0 (length sl))).
Definition cross_rows (ra rb : list (list F)) : list (list F) := flat_map (fun x => map (fun y => x ++ y) rb) ra.
(** A column with every entry repeated [m] times in place; a column repeated [m] times as a whole. *)
Definition repeat_each (m : nat) (l : list F) : list F := flat_map (fun x => repeat x m) l.
Definition repeat_all (m : nat) (l : list F) : list F := concat (repeat l m).
(** The columns and the selector of the cross product of tables with [na] and [nb] variables. *)
Definition cross_cols (na nb : nat) (ca cb : list (list F)) : list (list F) := map (repeat_each (2 ^ nb)) ca ++ map (repeat_all (2 ^ na)) cb.
Definition cross_sel (na nb : nat) (sa sb : list F) : list F := both (repeat_each (2 ^ nb) sa) (repeat_all (2 ^ na) sb).
(** Every selected row differs from the next one; and challenges of a sort check that are not among the values it inverts. *)
Definition strict (l sl : list F) : Prop := forall i, S i < length l -> nth i sl F0 <> F0 -> nth (S i) l F0 <> nth i l F0.
Definition sort_avoids (n : nat) (l rl : list F) (g g1 g2 : F) : Prop := ~ In g1 (folded g (combine (index_column n) l)) /\ ~ In g2 (F1 :: steps l ++ rl).
(** Values padded with zeros at the front to a column with [n] variables. *)
Definition merged (n : nat) (vals : list F) : list F := repeat F0 (2 ^ n - length vals) ++ vals.
(** A column in ascending order (repetitions allowed). *)
Definition non_decreasing (l : list F) : Prop := forall i j, i < j -> j < length l -> (val (nth i l F0) <= val (nth j l F0))%Z.
End R.

(** Grouping instructions: the supported aggregates, the number of counts, and the (column, advice) pairs of the sums. *)
Definition agg_ok (i : nat * agg * nat) : Prop := snd (fst i) = AggCount \/ snd (fst i) = AggSum.
Definition counts_in (l : list (nat * agg * nat)) : nat := length (filter (fun i => match snd (fst i) with AggCount => true | _ => false end) l).
Definition sums_in (l : list (nat * agg * nat)) : list (nat * nat) := flat_map (fun i => match snd (fst i) with AggSum => [(fst (fst i), snd i)] | _ => [] end) l.
