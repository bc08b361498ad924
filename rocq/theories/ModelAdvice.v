(** Vector computations of the honest prover: multiplicity counts, advice for
    the inclusion, support, disjointness and join protocols, and the
    intermediate bag splits.  A vector of field elements is a list; an index out
    of bounds, a usize subtraction below zero and an endless loop are [Panic].

    Simplifications: a HashMap or HashSet keyed by field elements is an
    association list (only lookups and, in one place, the sorted key list are
    observed); u64 counters are natural numbers, so counts of 2^64 and more are
    not modelled; slice::sort and slice::sort_by (stable) are an insertion sort
    that keeps equal elements in order; the order on field elements is the order
    of their canonical integers, as in ark-ff. *)
From Coq Require Import List Arith ZArith Bool Lia.
From Verif Require Import Res Fp ModelMle.
Import ListNotations.
Local Open Scope list_scope.
Local Open Scope nat_scope.

Section Advice.
Context {p : positive}.
Implicit Types l : list (F p).

(** HashMap<E::ScalarField, u64>: get and insert. *)
Definition fmap : Type := list (F p * nat).
Fixpoint fget (m : fmap) (x : F p) : option nat :=
  match m with
  | [] => None
  | (y, n) :: r => if Feqb y x then Some n else fget r x
  end.
Definition fput (m : fmap) (x : F p) (n : nat) : fmap :=
  (x, n) :: filter (fun e => negb (Feqb (fst e) x)) m.

(** Ord on field elements (ark-ff compares the canonical integers). *)
Definition Fleb (a b : F p) : bool := (val a <=? val b)%Z.
Definition Fltb (a b : F p) : bool := (val a <? val b)%Z.

(** slice::sort_by with a total preorder: stable. *)
Fixpoint sinsert {A} (le : A -> A -> bool) (x : A) (l : list A) : list A :=
  match l with
  | [] => [x]
  | y :: r => if le x y then x :: y :: r else y :: sinsert le x r
  end.
Definition ssort {A} (le : A -> A -> bool) (l : list A) : list A := fold_right (sinsert le) [] l.

(** a - b on usize, panicking on underflow (release builds wrap instead and then
    panic in the allocation that follows). *)
Definition usub (a b : nat) : res nat := if b <=? a then Ok (a - b) else Panic.

(** [v.extend(vec![zero; n])] *)
Definition zeros (n : nat) : list (F p) := repeat F0 n.
Definition ones (n : nat) : list (F p) := repeat F1 n.

(** util/multiplicity_count.rs 10-32, vec_multiplicity_count: the body of the loop. *)
Definition count_step (poly sel : list (F p)) (m : fmap) (i : nat) : res fmap :=
  s <- rnth sel i ;;
  if Feqb s F0 then Ok m
  else
    v <- rnth poly i ;;
    match fget m v with
    | None => Ok (fput m v 1)
    | Some n => Ok (fput m v (n + 1))
    end.
Definition vec_multiplicity_count (poly sel : list (F p)) : res fmap :=
  foldM (count_step poly sel) [] (seq 0 (length poly)).

(** util/multiplicity_count.rs 46-56, mle_multiplicity_count. *)
Definition mle_multiplicity_count (poly sel : mle p) : res fmap := vec_multiplicity_count (evs poly) (evs sel).

(** bag_inclusion/utils.rs 46-62: the loop over the super bag; the state is the
    map of remaining multiplicities and the vector built so far. *)
Definition incl_step (sp ss : list (F p)) (st : fmap * list (F p)) (i : nat) : res (fmap * list (F p)) :=
  s <- rnth ss i ;;
  if Feqb s F0 then Ok (fst st, snd st ++ [F0])
  else
    v <- rnth sp i ;;
    match fget (fst st) v with
    | None => Ok (fst st, snd st ++ [F0])
    | Some n => Ok (fput (fst st) v 0, snd st ++ [ofN n])
    end.
(** bag_inclusion/utils.rs 29-67, calc_bag_inclusion_advice_from_mle. *)
Definition inclusion_advice_mle (ip isel sp ss : mle p) : res (mle p) :=
  m <- mle_multiplicity_count ip isel ;;
  st <- foldM (incl_step (evs sp) (evs ss)) (m, []) (seq 0 (length (evs sp))) ;;
  from_evaluations (nv sp) (snd st).

(** The comparison of bag_supp/utils.rs 19-20: (sel[j], poly[i]) against
    (sel[i], poly[j]); selected first for boolean selectors, then ascending. *)
Definition supp_le (poly sel : list (F p)) (i j : nat) : bool :=
  let si := nth i sel F0 in let sj := nth j sel F0 in
  Fltb sj si || (Feqb sj si && Fleb (nth i poly F0) (nth j poly F0)).

(** bag_supp/utils.rs 39-44: the inner loop, counting one run of equal selected
    values from the current position on. *)
Fixpoint supp_run (poly sel : list (F p)) (x : F p) (mult : nat) (idx : list nat) : res (nat * list nat) :=
  match idx with
  | [] => Ok (mult, [])
  | i :: r =>
      s <- rnth sel i ;;
      if Feqb s F0 then Ok (mult, idx)
      else v <- rnth poly i ;; if Feqb v x then supp_run poly sel x (S mult) r else Ok (mult, idx)
  end.
(** bag_supp/utils.rs 37-49: the outer loop; [fuel] bounds the number of runs by
    the number of indices. *)
Fixpoint supp_runs (fuel : nat) (poly sel : list (F p)) (idx : list nat) (acc : list (F p * nat)) : res (list (F p * nat)) :=
  match idx with
  | [] => Ok acc
  | i :: _ =>
      s <- rnth sel i ;;
      if Feqb s F0 then Ok acc
      else
        match fuel with
        | O => Panic
        | S fuel' =>
            v <- rnth poly i ;;
            ' (mult, r) <- supp_run poly sel v 0 idx ;;
            supp_runs fuel' poly sel r (acc ++ [(v, mult)])
        end
  end.
(** bag_supp/utils.rs 7-68, calc_bag_supp_advice on the evaluations of a bag
    with [n] variables: (supp, supp_sel, multiplicity).  The re-indexed copies of
    lines 22-28 are not used and only contribute their index checks; the
    comparison closure indexes both vectors, so a vector shorter than 2^n panics. *)
Definition supp_advice (n : nat) (poly sel : list (F p)) : res (mle p * mle p * mle p) :=
  _ <- rassert ((2 ^ n <=? length poly) && (2 ^ n <=? length sel)) ;;
  let idx := ssort (supp_le poly sel) (seq 0 (2 ^ n)) in
  runs <- supp_runs (2 ^ n) poly sel idx [] ;;
  k <- usub (2 ^ n) (length runs) ;;
  a <- from_evaluations n (zeros k ++ map fst runs) ;;
  b <- from_evaluations n (zeros k ++ ones (length runs)) ;;
  c <- from_evaluations n (zeros k ++ map (fun r => ofN (snd r)) runs) ;;
  Ok (a, b, c).

(** The set of keys of two count maps (bag_disjoint/utils.rs 31-38). *)
Definition key_union (a b : fmap) : list (F p) :=
  fold_right (fun x acc => if existsb (Feqb x) acc then acc else x :: acc) [] (map fst a ++ map fst b).
(** bag_disjoint/utils.rs 14-66, calc_bag_disjoint_advice on the two bags'
    evaluations: (sum, sum_sel, m_a, m_b). *)
Definition disjoint_advice (an bn : nat) (ap asl bp bsl : list (F p)) : res (mle p * mle p * mle p * mle p) :=
  ma <- vec_multiplicity_count ap asl ;;
  mb <- vec_multiplicity_count bp bsl ;;
  let n := Nat.max an bn + 1 in
  let u := ssort Fleb (key_union ma mb) in
  k <- usub (2 ^ n) (length u) ;;
  let mult (m : fmap) (x : F p) : F p := ofN (match fget m x with Some c => c | None => 0 end) in
  a <- from_evaluations n (zeros k ++ u) ;;
  b <- from_evaluations n (zeros k ++ ones (length u)) ;;
  c <- from_evaluations n (zeros k ++ map (mult ma) u) ;;
  d <- from_evaluations n (zeros k ++ map (mult mb) u) ;;
  Ok (a, b, c, d).

(** set_disjoint/set_disjoint.rs 31-53: concatenation of the two bags, unused
    values zeroed, sorted by (value, selector). *)
Definition pair_le (a b : F p * F p) : bool :=
  Fltb (fst a) (fst b) || (Feqb (fst a) (fst b) && Fleb (snd a) (snd b)).
Definition concat_pad (n : nat) (a b : list (F p)) : res (list (F p)) :=
  k <- usub (2 ^ n) (length (a ++ b)) ;; Ok ((a ++ b) ++ zeros k).
Definition set_disjoint_sum (an bn : nat) (ap bp asl bsl : list (F p)) : res (mle p * mle p) :=
  let n := Nat.max an bn + 1 in
  v <- concat_pad n ap bp ;;
  s <- concat_pad n asl bsl ;;
  let z := map (fun vs => (if Feqb (snd vs) F0 then F0 else fst vs, snd vs)) (combine v s) in
  let sorted := ssort pair_le z in
  a <- from_evaluations n (map fst sorted) ;;
  b <- from_evaluations n (map snd sorted) ;;
  Ok (a, b).
(** set_union/set_union.rs 32-46: the same without zeroing and sorting. *)
Definition set_union_sum (an bn : nat) (ap bp asl bsl : list (F p)) : res (mle p * mle p) :=
  let n := Nat.max an bn + 1 in
  v <- concat_pad n ap bp ;;
  s <- concat_pad n asl bsl ;;
  a <- from_evaluations n v ;;
  b <- from_evaluations n s ;;
  Ok (a, b).

(** join_reduction/utils.rs 7-60, calc_join_reduction_lr_sel_advice. *)
Definition join_sel (l : list (F p)) (m : fmap) : list (F p) :=
  map (fun x => match fget m x with None => F1 | Some _ => F0 end) l.
Definition join_reduction_advice (pa sa pb sb : mle p) : res (mle p * mle p) :=
  ma <- mle_multiplicity_count pa sa ;;
  mb <- mle_multiplicity_count pb sb ;;
  l <- from_evaluations (nv pa) (join_sel (evs pa) mb) ;;
  r <- from_evaluations (nv pb) (join_sel (evs pb) ma) ;;
  Ok (l, r).

(** final_join_one_to_many/utils.rs 24-32: the map from key values to row numbers. *)
Definition row_index_step (vals sel : list (F p)) (m : fmap) (i : nat) : res fmap :=
  s <- rnth sel i ;;
  if Feqb s F1 then v <- rnth vals i ;; Ok (fput m v i) else Ok m.
Definition row_index (vals sel : list (F p)) : res fmap :=
  foldM (row_index_step vals sel) [] (seq 0 (length vals)).
(** final_join_one_to_many/utils.rs 34-53: the row of table_a for every row of table_b. *)
Definition transform_step (m : fmap) (vals sel : list (F p)) (acc : list nat) (i : nat) : res (list nat) :=
  s <- rnth sel i ;;
  if Feqb s F1 then
    v <- rnth vals i ;;
    match fget m v with
    | None => Err IOPInvalidParameters
    | Some r => Ok (acc ++ [r])
    end
  else Ok (acc ++ [0]).
Definition join_index_transform (avals asel bvals bsel : list (F p)) : res (list nat) :=
  m <- row_index avals asel ;;
  foldM (transform_step m bvals bsel) [] (seq 0 (length bvals)).
(** final_join_one_to_many/utils.rs 55-85, calc_index_transformed_bag. *)
Definition index_transformed (debug : bool) (tr : list nat) (old act : list (F p)) (n : nat) : res (mle p) :=
  _ <- (if debug then rassert (length act =? length tr) else Ok tt) ;;
  vals <- mapM (fun i => s <- rnth act i ;; if Feqb s F1 then r <- rnth tr i ;; rnth old r else Ok F0)
               (seq 0 (length tr)) ;;
  from_evaluations n vals.

(** util/intermed_bag_calc.rs 40-57: the selected values (in table order), then sorted. *)
Fixpoint selected (poly sel : list (F p)) : list (F p) :=
  match poly, sel with
  | x :: r, s :: t => if Feqb s F0 then selected r t else x :: selected r t
  | _, _ => []
  end.
Definition lmr_sorted (poly sel : list (F p)) : list (F p) := ssort Fleb (selected poly sel).

(** State of the splitting loop: the two counters and the four output vectors. *)
Record lmr : Type := mkLmr { lm_a : nat; lm_b : nat; lm_l : list (F p); lm_ma : list (F p); lm_mb : list (F p); lm_r : list (F p) }.
(** util/intermed_bag_calc.rs 72-79: the inner loops over a run of equal values. *)
Fixpoint take_run (fuel : nat) (evals : list (F p)) (bound c : nat) (x : F p) (acc : list (F p)) : res (nat * list (F p)) :=
  match fuel with
  | O => Panic
  | S fuel' =>
      if c <? bound then
        v <- rnth evals c ;;
        if Feqb v x then take_run fuel' evals bound (S c) x (acc ++ [v]) else Ok (c, acc)
      else Ok (c, acc)
  end.
(** util/intermed_bag_calc.rs 61-81: the merge loop; it reads the unsorted
    vectors [a_evals], [b_evals], bounded by the lengths of the sorted ones. *)
Fixpoint lmr_loop (fuel : nat) (a b : list (F p)) (na nb : nat) (s : lmr) : res lmr :=
  if (lm_a s <? na) && (lm_b s <? nb) then
    match fuel with
    | O => Panic
    | S fuel' =>
        x <- rnth a (lm_a s) ;;
        y <- rnth b (lm_b s) ;;
        if Fltb x y then lmr_loop fuel' a b na nb (mkLmr (S (lm_a s)) (lm_b s) (lm_l s ++ [x]) (lm_ma s) (lm_mb s) (lm_r s))
        else if Fltb y x then lmr_loop fuel' a b na nb (mkLmr (lm_a s) (S (lm_b s)) (lm_l s) (lm_ma s) (lm_mb s) (lm_r s ++ [y]))
        else
          ' (ca, ma) <- take_run (S na) a na (lm_a s) x (lm_ma s) ;;
          ' (cb, mb) <- take_run (S nb) b nb (lm_b s) x (lm_mb s) ;;
          lmr_loop fuel' a b na nb (mkLmr ca cb (lm_l s) ma mb (lm_r s))
    end
  else Ok s.
(** util/intermed_bag_calc.rs 82-91: the selected values from a position on. *)
Definition tail_selected (poly sel : list (F p)) (c : nat) : list (F p) := selected (skipn c poly) (skipn c sel).
(** util/intermed_bag_calc.rs 93-105: values and selector padded with zeros. *)
Definition pad_bag (n : nat) (l : list (F p)) : res (mle p * mle p) :=
  k <- usub (2 ^ n) (length l) ;;
  a <- from_evaluations n (l ++ zeros k) ;;
  b <- from_evaluations n (ones (length l) ++ zeros k) ;;
  Ok (a, b).
(** util/intermed_bag_calc.rs 13-123, bag_lmr_split on the bags' evaluations:
    the four bags (value and selector tables) before they are committed. *)
Definition lmr_split (an bn : nat) (a asel b bsel : list (F p)) : res ((mle p * mle p) * (mle p * mle p) * (mle p * mle p) * (mle p * mle p)) :=
  _ <- rassert ((2 ^ an <=? length a) && (2 ^ an <=? length asel) && (2 ^ bn <=? length b) && (2 ^ bn <=? length bsel)) ;;
  let na := length (lmr_sorted (firstn (2 ^ an) a) (firstn (2 ^ an) asel)) in
  let nb := length (lmr_sorted (firstn (2 ^ bn) b) (firstn (2 ^ bn) bsel)) in
  s <- lmr_loop (S (na + nb)) a b na nb (mkLmr 0 0 [] [] [] []) ;;
  let lv := lm_l s ++ tail_selected (firstn (2 ^ an) a) (firstn (2 ^ an) asel) (lm_a s) in
  let rv := lm_r s ++ tail_selected (firstn (2 ^ bn) b) (firstn (2 ^ bn) bsel) (lm_b s) in
  l <- pad_bag an lv ;;
  ma <- pad_bag an (lm_ma s) ;;
  mb <- pad_bag bn (lm_mb s) ;;
  r <- pad_bag bn rv ;;
  Ok (l, ma, mb, r).

(** State of the deduplicating split: the two indices and the output vectors
    (values with multiplicities). *)
Record lmrm : Type := mkLmrm {
  mm_a : nat; mm_b : nat;
  mm_l : list (F p * F p);
  mm_m : list (F p * F p * F p);
  mm_r : list (F p * F p)
}.
(** util/intermed_bag_calc.rs 204-207 and 213-216: the run loop without a bound;
    it reads one past the run, so a run that reaches the end of the vector panics. *)
Fixpoint open_run (fuel : nat) (evals : list (F p)) (c : nat) (x : F p) (mult : nat) : res (nat * nat) :=
  match fuel with
  | O => Panic
  | S fuel' =>
      v <- rnth evals c ;;
      if Feqb v x then open_run fuel' evals (S c) x (S mult) else Ok (c, mult)
  end.
(** util/intermed_bag_calc.rs 224-231: the bounded run loops of the matching case. *)
Fixpoint count_run (fuel : nat) (evals : list (F p)) (bound c : nat) (x : F p) (mult : nat) : res (nat * nat) :=
  match fuel with
  | O => Panic
  | S fuel' =>
      if c <? bound then
        v <- rnth evals c ;;
        if Feqb v x then count_run fuel' evals bound (S c) x (S mult) else Ok (c, mult)
      else Ok (c, mult)
  end.
(** util/intermed_bag_calc.rs 200-236: the merge loop. *)
Fixpoint lmrm_loop (fuel : nat) (a b : list (F p)) (na nb : nat) (s : lmrm) : res lmrm :=
  if (mm_a s <? na) && (mm_b s <? nb) then
    match fuel with
    | O => Panic
    | S fuel' =>
        x <- rnth a (mm_a s) ;;
        y <- rnth b (mm_b s) ;;
        if Fltb x y then
          ' (c, k) <- open_run (S (length a)) a (mm_a s) x 0 ;;
          z <- rnth a c ;;
          lmrm_loop fuel' a b na nb (mkLmrm c (mm_b s) (mm_l s ++ [(z, ofN k)]) (mm_m s) (mm_r s))
        else if Fltb y x then
          ' (c, k) <- open_run (S (length b)) b (mm_b s) y 0 ;;
          z <- rnth b c ;;
          lmrm_loop fuel' a b na nb (mkLmrm (mm_a s) c (mm_l s) (mm_m s) (mm_r s ++ [(z, ofN k)]))
        else
          ' (ca, ka) <- count_run (S na) a na (mm_a s) x 0 ;;
          ' (cb, kb) <- count_run (S nb) b nb (mm_b s) x 0 ;;
          lmrm_loop fuel' a b na nb (mkLmrm ca cb (mm_l s) (mm_m s ++ [(x, ofN ka, ofN kb)]) (mm_r s))
    end
  else Ok s.
(** util/intermed_bag_calc.rs 237-260: the tails; [i] runs over the original
    range while the index [c] moves by whole runs. *)
Definition lmrm_tail_step (poly sel : list (F p)) (st : nat * list (F p * F p)) (i : nat) : res (nat * list (F p * F p)) :=
  s <- rnth sel i ;;
  if Feqb s F0 then Ok st
  else
    x <- rnth poly (fst st) ;;
    ' (c, k) <- open_run (S (length poly)) poly (fst st) x 0 ;;
    z <- rnth poly c ;;
    Ok (c, snd st ++ [(z, ofN k)]).
Definition lmrm_tail (poly sel : list (F p)) (len c : nat) (acc : list (F p * F p)) : res (list (F p * F p)) :=
  st <- foldM (lmrm_tail_step poly sel) (c, acc) (seq c (len - c)) ;;
  Ok (snd st).
(** util/intermed_bag_calc.rs 262-287: padding a column next to a selector. *)
Definition pad_col (n len : nat) (l : list (F p)) : res (mle p) :=
  k <- usub len (length l) ;; from_evaluations n (l ++ zeros k).
(** util/intermed_bag_calc.rs 148-297, bag_lmr_multiplicity_split on the bags'
    evaluations: (l, l_sel, m, m_sel, r, r_sel) and (l_mul, ma_mul, mb_mul, r_mul). *)
Definition lmr_multiplicity_split (an bn : nat) (a asel b bsel : list (F p))
  : res ((mle p * mle p) * (mle p * mle p) * (mle p * mle p) * (mle p * mle p * mle p * mle p)) :=
  _ <- rassert ((2 ^ an <=? length a) && (2 ^ an <=? length asel) && (2 ^ bn <=? length b) && (2 ^ bn <=? length bsel)) ;;
  let na := length (lmr_sorted (firstn (2 ^ an) a) (firstn (2 ^ an) asel)) in
  let nb := length (lmr_sorted (firstn (2 ^ bn) b) (firstn (2 ^ bn) bsel)) in
  s <- lmrm_loop (S (na + nb)) a b na nb (mkLmrm 0 0 [] [] []) ;;
  l <- lmrm_tail a asel (2 ^ an) (mm_a s) (mm_l s) ;;
  r <- lmrm_tail b bsel (2 ^ bn) (mm_b s) (mm_r s) ;;
  let mn := Nat.max an bn in
  lv <- pad_col an (2 ^ an) (map fst l) ;;
  ls <- pad_col an (2 ^ an) (ones (length l)) ;;
  lm <- pad_col an (2 ^ an) (map snd l) ;;
  mv <- pad_col mn (2 ^ mn) (map (fun e => fst (fst e)) (mm_m s)) ;;
  ms <- pad_col mn (2 ^ mn) (ones (length (mm_m s))) ;;
  am <- pad_col mn (2 ^ mn) (map (fun e => snd (fst e)) (mm_m s)) ;;
  bm <- pad_col mn (2 ^ mn) (map snd (mm_m s)) ;;
  rv <- pad_col bn (2 ^ bn) (map fst r) ;;
  rs <- pad_col bn (2 ^ bn) (ones (length r)) ;;
  rm <- pad_col bn (2 ^ bn) (map snd r) ;;
  Ok ((lv, ls), (mv, ms), (rv, rs), (lm, am, bm, rm)).

End Advice.
Arguments fmap p : clear implicits.
