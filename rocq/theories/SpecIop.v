(** What the relational protocols are about: rows selected from a table, weighted bags and their logarithmic
    derivatives, the challenges a run draws, and what the claims handed to a verifier mean. *)
From Coq Require Import String List Arith Bool ZArith.
Import ListNotations.
From Verif Require Import Res Fp FSum SpecMle ModelTranscript Pairing ModelKzg ModelBatch ModelProver ModelVerifier.
Local Open Scope string_scope.
Local Open Scope list_scope.
Local Open Scope nat_scope.

Section B.
Context {p : positive}.
Notation F := (F p).

(** A column [l] with a selector column [sl]: the rows the selector keeps. *)
Definition rows (l sl : list F) : list F := map fst (filter (fun r => negb (Feqb (snd r) F0)) (combine l sl)).
Definition boolean (sl : list F) : Prop := Forall (fun x => x = F0 \/ x = F1) sl.

(** A weighted bag: pairs of a value and a weight. *)
Definition wbag : Type := list (F * F).
Definition weight (w : wbag) (x : F) : F := Fsum (map snd (filter (fun r => Feqb (fst r) x) w)).
Definition same_bag (a b : wbag) : Prop := forall x, weight a x = weight b x.
(** The bag of a column with a selector and a multiplicity column; negated weights. *)
Definition wcol (l sl m : list F) : wbag := map (fun r => (fst (fst r), (snd (fst r) * snd r)%F)) (combine (combine l sl) m).
Definition wcols (its : list (list F * list F * list F)) : wbag := flat_map (fun i => wcol (fst (fst i)) (snd (fst i)) (snd i)) its.
Definition wneg (w : wbag) : wbag := map (fun r => (fst r, (- snd r)%F)) w.

(** The logarithmic derivative of a weighted bag at a point. *)
Definition logd (w : wbag) (g : F) : F := Fsum (map (fun r => (snd r / (fst r - g))%F) w).

(** A challenge that makes two different bags look the same: it is none of their values, the logarithmic derivatives
    agree there, and yet some value has different weights. *)
Definition unlucky (a b : wbag) (g : F) : Prop :=
  ~ In g (map fst a) /\ ~ In g (map fst b) /\ logd a g = logd b g /\ ~ same_bag a b.

(** The bag of a list, every value with weight one. *)
Definition unit_bag (l : list F) : wbag := map (fun x => (x, F1)) l.

(** A bag that gives each of the given values the number of its occurrences among [items], and no other value any weight. *)
Definition counts_of (items values : list F) (w : wbag) : Prop :=
  forall x, weight w x = if in_dec F_dec x values then ofN (count_occ F_dec items x) else F0.

(** Pairs folded into single values by a challenge, and a challenge that folds two different pairs to one value. *)
Definition folded (g : F) (a : list (F * F)) : list F := map (fun r => (fst r + g * snd r)%F) a.
Definition clash (a b : list (F * F)) (g : F) : Prop :=
  exists r r', In r (a ++ b) /\ In r' (a ++ b) /\ r <> r' /\ (fst r + g * snd r)%F = (fst r' + g * snd r')%F.

(** The columns (0, 1, 2, ..) and (1, 2, .., 0) with [n] variables, and a column over a larger cube: the last variables are ignored. *)
Definition index_column (n : nat) : list F := map ofN (seq 0 (2 ^ n)).
Definition next_column (n : nat) : list F := map (fun i => ofN ((i + 1) mod 2 ^ n)) (seq 0 (2 ^ n)).
Definition spread (N n : nat) (l : list F) : list F := map (fun j => nth (j mod 2 ^ n) l F0) (seq 0 (2 ^ N)).

(** The differences of neighbours. *)
Definition steps (l : list F) : list F := map (fun i => (nth (S i) l F0 - nth i l F0)%F) (seq 0 (length l - 1)).
(** Every step is in the range, and a selected row differs from the next one. *)
Definition sorted_by (range l sl : list F) : Prop :=
  forall i, S i < length l -> In (nth (S i) l F0 - nth i l F0)%F range /\ (nth i sl F0 <> F0 -> nth (S i) l F0 <> nth i l F0).
(** Every value is one of the numbers 0 to [B]. *)
Definition at_most (B : nat) (range : list F) : Prop := Forall (fun x => exists k, k <= B /\ x = ofN k) range.
(** A range of small numbers, too small for [2 ^ n] steps to wrap around. *)
Definition small_range (range : list F) (n : nat) : Prop := exists B, at_most B range /\ (Z.of_nat ((2 ^ n - 1) * B) < Zpos p)%Z.
(** Two selector columns at once, and the opposite of one. *)
Definition both (s t : list F) : list F := map (fun xy => (fst xy * snd xy)%F) (combine s t).
Definition opposite (s : list F) : list F := map (fun x => (F1 - x)%F) s.
(** The entries of the columns [cols] in row [k]; and the columns folded into one: in every row, the product of the
    selector and the entries, each times its number. *)
Definition row (cols : list (list F)) (k : nat) : list F := map (fun c => nth k c F0) cols.
Definition aggregated (rs : list F) (cols : list (list F)) (sl : list F) : list F :=
  map (fun k => (nth k sl F0 * Fprod (map (fun rx => (fst rx * snd rx)%F) (combine rs (row cols k))))%F) (seq 0 (length sl)).
(** The rows of a key column [l] marked by [ms]: a selected row has mark 1 if its key is not a selected key of the other
    side, and 0 if it is. *)
Definition marks (l sl ms other osl : list F) : Prop :=
  forall k, k < length l -> nth k sl F0 <> F0 ->
    (nth k ms F0 = F1 /\ ~ In (nth k l F0) (rows other osl)) \/ (nth k ms F0 = F0 /\ In (nth k l F0) (rows other osl)).
End B.

(** The challenges among the events that a transcript gained. *)
Definition challenges {p C} (l : list (event p C)) : list (F p) :=
  flat_map (fun e => match e with EMsg _ (PF c) => [c] | _ => [] end) l.
Definition drawn {p C} (t t' : tr p C) : list (F p) := challenges (skipn (length (hist t)) (hist t')).

Section M.
Context {p : positive} {E : pairing p}.
Notation F := (F p).

(** What the polynomial commitments stand for: under each id, a number of variables and a table. *)
Definition reading : Type := nat -> nat * (nat -> F).

(** [means A m id M j y]: the virtual commitment [id] of the map [m] has value [y] at corner [j] of the cube with [M]
    variables. A leaf with fewer variables ignores the last ones. A closure given by the caller must compute the table
    that the reading gives it. Extending at the front or back drops or keeps that many of the first variables. *)
Inductive means (A : reading) (m : tmap (vexp p)) : nat -> nat -> nat -> F -> Prop :=
| me_query : forall id i M j, mget m id = Some (VQuery i) -> fst (A i) <= M ->
    means A m id M j (snd (A i) (j mod 2 ^ fst (A i)))
| me_fun : forall id f M j, mget m id = Some (VFun f) -> fst (A id) <= M ->
    f (bpoint (fst (A id)) (j mod 2 ^ fst (A id))) = Ok (snd (A id) (j mod 2 ^ fst (A id))) ->
    means A m id M j (snd (A id) (j mod 2 ^ fst (A id)))
| me_add : forall id a b M j x y, mget m id = Some (VAdd a b) -> means A m a M j x -> means A m b M j y -> means A m id M j (x + y)%F
| me_sub : forall id a b M j x y, mget m id = Some (VSub a b) -> means A m a M j x -> means A m b M j y -> means A m id M j (x - y)%F
| me_mul : forall id a b M j x y, mget m id = Some (VMul a b) -> means A m a M j x -> means A m b M j y -> means A m id M j (x * y)%F
| me_adds : forall id a c M j x, mget m id = Some (VAddS a c) -> means A m a M j x -> means A m id M j (x + c)%F
| me_muls : forall id a c M j x, mget m id = Some (VMulS a c) -> means A m a M j x -> means A m id M j (c * x)%F
| me_front : forall id a k M j x, mget m id = Some (VFront a k) -> k <= M -> means A m a (M - k) (j / 2 ^ k) x -> means A m id M j x
| me_back : forall id a k M j x, mget m id = Some (VBack a k) -> k <= M -> means A m a k (j mod 2 ^ k) x -> means A m id M j x.

(** The table under a committed id, over the cube with [N] variables; and the multiplicity it gives each row of a bag with
    [n] variables there: the mean over the copies of the row. (The plain table when the polynomial has [n] variables.) *)
Definition column (A : reading) (N i : nat) : list F := map (fun j => snd (A i) (j mod 2 ^ fst (A i))) (seq 0 (2 ^ N)).
Definition averaged (A : reading) (N i n : nat) : list F :=
  map (fun r => (Fsum (map (fun t => snd (A i) ((r + t * 2 ^ n) mod 2 ^ fst (A i))) (seq 0 (2 ^ (N - n)))) / ofN (2 ^ (N - n)))%F) (seq 0 (2 ^ n)).

(** All claims collected by the verifier are true over the cube with [N] variables. *)
Definition claims_hold (A : reading) (N : nat) (v : vtrk E) : Prop :=
  (forall id, In id (vt_zc v) -> forall j, j < 2 ^ N -> means A (vt_virt v) id N j F0) /\
  (forall id c, In (id, c) (vt_sc v) -> exists f : nat -> F, (forall j, j < 2 ^ N -> means A (vt_virt v) id N j (f j)) /\ c = Fsum (map f (seq 0 (2 ^ N)))).

(** The virtual commitment [id] stands for the table [l] with [n] variables. *)
Definition reads (A : reading) (N : nat) (v : vtrk E) (id n : nat) (l : list F) : Prop :=
  n <= N /\ length l = 2 ^ n /\ forall j, j < 2 ^ N -> means A (vt_virt v) id N j (nth (j mod 2 ^ n) l F0).

(** A polynomial that a verifier's call receives from the prover. *)
Definition received (v v' : vtrk E) (id : nat) : Prop := mget (vt_virt v) id = None /\ mget (vt_virt v') id = Some (VQuery id).

(** The column (0, 1, 2, ..) that a verifier's call registers is read as a polynomial in [n] variables. *)
Definition index_over (A : reading) (v v' : vtrk E) (n : nat) : Prop :=
  forall id f, mget (vt_virt v) id = None -> mget (vt_virt v') id = Some (VFun f) -> (forall m k, k < 2 ^ m -> f (bpoint m k) = Ok (ofN k)) -> fst (A id) = n.

(** Challenges [g], [g1], [g2] of a sort check that are not unlucky: [q] and [m] are the ids of the two polynomials the
    prover commits to (the shifted column and the multiplicities of the range). The column of indices may be read with any
    number of variables. *)
Definition sort_lucky (A : reading) (N n nr q m : nat) (l rl : list F) (g g1 g2 : F) : Prop :=
  (forall K, K <= N ->
    let a := combine (spread N K (index_column K)) (spread N n l) in
    let b := combine (spread N n (next_column n)) (column A N q) in
    ~ clash a b g /\ ~ unlucky (unit_bag (folded g a)) (unit_bag (folded g b)) g1) /\
  ~ unlucky (unit_bag (steps l)) (combine rl (averaged A N m nr)) g2.
(** The polynomials a disjointness check receives, in order: values and selector of the merged support, the multiplicities
    of the two bags in it, then the two of its sort check. The first four have at most [n] variables; and the challenges,
    the three of the sort check and one per bag, are not unlucky. *)
Definition disjoint_sized (A : reading) (n : nat) (ids : list nat) : Prop := length ids = 6 /\ Forall (fun id => fst (A id) <= n) (firstn 4 ids).
Definition disjoint_lucky (A : reading) (N n nr : nat) (l sl l' sl' rl : list F) (ids : list nat) (ds : list F) : Prop :=
  match ids, ds with
  | [cp; cs; ma; mb; q; m], [g; g1; g2; h; h'] =>
      let c := column A n cp in let s := column A n cs in
      sort_lucky A N n nr q m c rl g g1 g2 /\ ~ unlucky (combine l sl) (wcol c s (column A n ma)) h /\ ~ unlucky (combine l' sl') (wcol c s (column A n mb)) h'
  | _, _ => False
  end.
End M.
