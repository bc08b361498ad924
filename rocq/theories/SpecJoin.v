(** What honest runs of the joins and of grouping are about. *)
From Coq Require Import List Arith Bool ZArith.
Import ListNotations.
From Verif Require Import Res Fp FSum SpecMle SpecIop SpecRel ModelProver ModelIop.
Local Open Scope list_scope.
Local Open Scope nat_scope.

Section J.
Context {p : positive}.
Notation F := (F p).

(** A disjointness check of the selected rows of [l] and [l']: [vals] are their values in ascending order, and [wl] gives every value of the range the number of
    steps between neighbours of the padded column that have it. *)
Definition disjoint_advised (n : nat) (l sl l' sl' rl vals wl : list F) : Prop :=
  ascending vals /\ (forall x, In x vals <-> In x (rows l sl) \/ In x (rows l' sl')) /\ length vals <= 2 ^ n /\ length wl = length rl /\ counts_of (steps (merged n vals)) rl (combine rl wl).
(** Its five challenges, none of which is among the values it inverts; and the third, unlucky for the steps. *)
Definition disjoint_avoids (n : nat) (l l' rl vals : list F) (ds : list F) : Prop :=
  exists g g1 g2 h h', ds = [g; g1; g2; h; h'] /\ sort_avoids n (merged n vals) rl g g1 g2 /\ ~ In h (l ++ merged n vals) /\ ~ In h' (l' ++ merged n vals).
Definition steps_unlucky (n : nat) (rl vals wl : list F) (ds : list F) : Prop := unlucky (unit_bag (steps (merged n vals))) (combine rl wl) (nth 2 ds F0).

(** Every selected row of the table [oc] has, among the selected rows of [ic], one with the same product of entries. *)
Definition same_products (oc : list (list F)) (osl : list F) (ic : list (list F)) (isl : list F) : Prop :=
  forall j, j < length osl -> nth j osl F0 <> F0 -> exists k, k < length isl /\ nth k isl F0 <> F0 /\ Fprod (row oc j) = Fprod (row ic k).

(** The columns [tcs] are those of the left table moved to the selected rows of the right one: every selected row [i] takes the entries of a selected row with its key. *)
Definition joined_rows (ac : list (list F)) (ka asl kb bsl : list F) (tcs : list (list F)) : Prop :=
  forall i, i < length bsl -> nth i bsl F0 = F1 -> exists k, k < length asl /\ nth k asl F0 = F1 /\ nth k ka F0 = nth i kb F0 /\ row tcs i = row ac k.

(** The sums asked for, in order: the column to add up, and the column claimed to hold the sums. *)
Definition sums_asked (ags : list (nat * agg * tpoly)) (als : list (list F)) : list (nat * list F) :=
  flat_map (fun x => match snd (fst (fst x)) with AggSum => [(fst (fst (fst x)), snd x)] | _ => [] end) (combine ags als).
(** Grouping by [keys]: the keys [sup] are distinct and those of the selected rows, with the number of rows of each in [ml], and the totals of the columns asked for. *)
Definition grouped (tcs : list (list F)) (keys sl sup sl' ml : list F) (sums : list (nat * list F)) : Prop :=
  NoDup (rows sup sl') /\ (forall x, In x (rows sup sl') <-> In x (rows keys sl)) /\
  (forall k, k < length sup -> nth k sl' F0 <> F0 -> nth k ml F0 = ofN (count_occ F_dec (rows keys sl) (nth k sup F0))) /\
  Forall (fun q => forall k, k < length sup -> nth k sl' F0 <> F0 -> nth k (snd q) F0 = weight (wcol keys sl (nth (fst q) tcs [])) (nth k sup F0)) sums.
End J.
