(** C55, C56, C57 and the advice of C47, C48, C52, C53: what the honest prover's helper computations return. *)
From Coq Require Import List Arith Bool ZArith Znumtheory Permutation.
Import ListNotations.
From Verif Require Import Res Fp FSum SpecMle SpecPoly SpecIop SpecRel ModelMle ModelAdvice BagLemmas AdviceProofs AdviceProofs2 AdviceProofs3 AdviceProofs4 AdviceProofs5 AdviceProofs6.
Local Open Scope list_scope.
Local Open Scope nat_scope.

Local Definition c (l : list Z) : list (F 101) := map ofZ l.
(** The integers of a table. *)
Local Definition out (m : mle 101) : nat * list Z := (nv m, map val (evs m)).

(** ** C55: counting *)

(** Exactly the selected values are counted, each with its number of selected occurrences. *)
Theorem C55_counts : forall (p : positive) (l sl : list (F p)), length l <= length sl -> exists m, vec_multiplicity_count l sl = Ok m /\
  forall x, fget m x = if in_dec F_dec x (rows l sl) then Some (count_occ F_dec (rows l sl) x) else None.
Proof. exact @count_all. Qed.
Print Assumptions C55_counts.
(** A selector that is too short panics. *)
Theorem C55_short : forall (p : positive) (l sl : list (F p)), length sl < length l -> vec_multiplicity_count l sl = Panic.
Proof. exact @count_short. Qed.
Print Assumptions C55_short.
Example C55_ex : (match vec_multiplicity_count (c [3; 5; 5; 7; 5]%Z) (c [1; 1; 2; 0; 0; 1]%Z) with Ok m => map (fun x => fget m x) (c [3; 5; 7]%Z) | _ => [] end) = [Some 1; Some 2; None].
Proof. vm_compute. reflexivity. Qed.
Example C55_ex_short : vec_multiplicity_count (c [3; 5; 5; 7]%Z) (c [1; 1; 2]%Z) = Panic.
Proof. vm_compute. reflexivity. Qed.

(** ** C47: the support of a bag *)

(** The support is ascending without repetition, has exactly the selected values, is padded in front by unselected zeros, and its multiplicities are the counts. *)
Theorem C47_advice : forall (p : positive) n (l sl : list (F p)), length l = 2 ^ n -> length sl = 2 ^ n -> boolean sl ->
  exists vals, ascending vals /\ (forall x, In x vals <-> In x (rows l sl)) /\ length vals <= 2 ^ n /\ let k := 2 ^ n - length vals in
    supp_advice n l sl = Ok (mkMle n (repeat F0 k ++ vals), mkMle n (repeat F0 k ++ repeat F1 (length vals)), mkMle n (repeat F0 k ++ map (fun x => ofN (count_occ F_dec (rows l sl) x)) vals)).
Proof. exact @supp_advice_ok. Qed.
Print Assumptions C47_advice.
Example C47_ex_advice : match supp_advice 2 (c [5; 3; 5; 7]%Z) (c [1; 1; 1; 0]%Z) with Ok (a, b, m) => Some (out a, out b, out m) | _ => None end
  = Some ((2%nat, [0; 0; 3; 5]), (2%nat, [0; 0; 1; 1]), (2%nat, [0; 0; 1; 2]))%Z.
Proof. vm_compute. reflexivity. Qed.

(** ** C48: the advice of bag disjointness *)

(** The common support holds the values of both bags, with the counts in each; the columns of counts have product zero exactly for disjoint bags. *)
Theorem C48_advice : forall (p : positive) an bn (a sa b sb : list (F p)), length a = 2 ^ an -> length sa = 2 ^ an -> length b = 2 ^ bn -> length sb = 2 ^ bn ->
  exists vals, ascending vals /\ (forall x, In x vals <-> In x (rows a sa) \/ In x (rows b sb)) /\ let n := Nat.max an bn + 1 in length vals <= 2 ^ n /\ let k := 2 ^ n - length vals in
    disjoint_advice an bn a sa b sb = Ok (mkMle n (repeat F0 k ++ vals), mkMle n (repeat F0 k ++ repeat F1 (length vals)),
      mkMle n (repeat F0 k ++ map (fun x => ofN (count_occ F_dec (rows a sa) x)) vals), mkMle n (repeat F0 k ++ map (fun x => ofN (count_occ F_dec (rows b sb) x)) vals)).
Proof. exact @disjoint_advice_ok. Qed.
Print Assumptions C48_advice.
Theorem C48_products : forall (p : positive), prime (Zpos p) -> forall an bn (a sa b sb : list (F p)), length a = 2 ^ an -> length sa = 2 ^ an -> length b = 2 ^ bn -> length sb = 2 ^ bn ->
  length a < fsize p -> length b < fsize p -> exists vals sel ma mb, disjoint_advice an bn a sa b sb = Ok (vals, sel, ma, mb) /\
    ((forall i, (nth i (evs ma) F0 * nth i (evs mb) F0)%F = F0) <-> forall x, In x (rows a sa) -> ~ In x (rows b sb)).
Proof. exact @disjoint_iff. Qed.
Print Assumptions C48_products.
Example C48_ex_advice : match disjoint_advice 1 1 (c [5; 5]%Z) (c [1; 1]%Z) (c [9; 7]%Z) (c [1; 0]%Z) with Ok (v, s, a, b) => Some (out v, out s, out a, out b) | _ => None end
  = Some ((2%nat, [0; 0; 5; 9]), (2%nat, [0; 0; 1; 1]), (2%nat, [0; 0; 2; 0]), (2%nat, [0; 0; 0; 1]))%Z.
Proof. vm_compute. reflexivity. Qed.

(** ** C52: the advice of the join reduction *)

(** The marks are exactly the rows whose key is not a selected key of the other side. *)
Theorem C52_advice : forall (p : positive) (a sa b sb : mle p), wf_mle a -> length (evs sa) = length (evs a) -> wf_mle b -> length (evs sb) = length (evs b) ->
  exists l r, join_reduction_advice a sa b sb = Ok (mkMle (nv a) l, mkMle (nv b) r) /\ length l = length (evs a) /\ length r = length (evs b) /\
    (forall i, i < length (evs a) -> nth i l F0 = if in_dec F_dec (nth i (evs a) F0) (rows (evs b) (evs sb)) then F0 else F1) /\
    (forall i, i < length (evs b) -> nth i r F0 = if in_dec F_dec (nth i (evs b) F0) (rows (evs a) (evs sa)) then F0 else F1).
Proof. exact @join_advice_ok. Qed.
Print Assumptions C52_advice.
(** Hence the kept rows of the two sides have the same keys, and the kept and the marked rows together are all selected rows. *)
Theorem C52_partition : forall (p : positive), @F1 p <> F0 -> forall (a sa b sb : mle p), wf_mle a -> length (evs sa) = length (evs a) -> wf_mle b -> length (evs sb) = length (evs b) ->
  exists l r, join_reduction_advice a sa b sb = Ok (l, r) /\
    (forall x, In x (rows (evs a) (both (evs sa) (opposite (evs l)))) <-> In x (rows (evs b) (both (evs sb) (opposite (evs r))))) /\
    Permutation (rows (evs a) (evs sa)) (rows (evs a) (both (evs sa) (evs l)) ++ rows (evs a) (both (evs sa) (opposite (evs l)))) /\
    Permutation (rows (evs b) (evs sb)) (rows (evs b) (both (evs sb) (evs r)) ++ rows (evs b) (both (evs sb) (opposite (evs r)))) /\
    (forall x, In x (rows (evs a) (both (evs sa) (evs l))) -> ~ In x (rows (evs b) (evs sb))) /\
    (forall x, In x (rows (evs b) (both (evs sb) (evs r))) -> ~ In x (rows (evs a) (evs sa))).
Proof. exact @join_partition. Qed.
Print Assumptions C52_partition.
Example C52_ex_advice : match join_reduction_advice (mkMle 2 (c [1; 2; 3; 4]%Z)) (mkMle 2 (c [1; 1; 1; 0]%Z)) (mkMle 1 (c [2; 4]%Z)) (mkMle 1 (c [1; 1]%Z)) with Ok (l, r) => Some (out l, out r) | _ => None end
  = Some ((2%nat, [1; 0; 1; 0]), (1%nat, [0; 1]))%Z.
Proof. vm_compute. reflexivity. Qed.

(** ** C53: the alignment of the one-to-many join *)

(** The alignment fails exactly if a selected key of the right side is no selected key of the left side. Otherwise every selected row of the right side is sent to
    a selected row of the left side with the same key. *)
Theorem C53_alignment : forall (p : positive) (a sa b sb : list (F p)), length sa = length a -> length sb = length b ->
  ((exists i, i < length b /\ missing a sa b sb i) /\ join_index_transform a sa b sb = Err IOPInvalidParameters) \/
  ((forall i, i < length b -> ~ missing a sa b sb i) /\ exists tr, join_index_transform a sa b sb = Ok tr /\ length tr = length b /\
     forall i, i < length b -> nth i sb F0 = F1 -> nth i tr 0 < length a /\ nth (nth i tr 0) sa F0 = F1 /\ nth (nth i tr 0) a F0 = nth i b F0).
Proof. exact @join_index_ok. Qed.
Print Assumptions C53_alignment.
(** Moving a column along the alignment: the selected rows hold the value of the row they are sent to, the others hold zero. *)
Theorem C53_moved : forall (p : positive) debug tr (old act : list (F p)) n, length act = 2 ^ n -> length tr = 2 ^ n -> (forall i, i < 2 ^ n -> nth i act F0 = F1 -> nth i tr 0 < length old) ->
  exists new, index_transformed debug tr old act n = Ok (mkMle n new) /\ length new = 2 ^ n /\
    forall i, i < 2 ^ n -> nth i new F0 = if F_dec (nth i act F0) F1 then nth (nth i tr 0) old F0 else F0.
Proof. exact @index_moved. Qed.
Print Assumptions C53_moved.
Example C53_ex_alignment : join_index_transform (c [7; 8; 9; 9]%Z) (c [1; 1; 1; 0]%Z) (c [9; 7; 3; 9]%Z) (c [1; 1; 0; 1]%Z) = Ok [2; 0; 0; 2] /\
  join_index_transform (c [7; 8; 9; 9]%Z) (c [1; 1; 1; 0]%Z) (c [9; 7; 3; 9]%Z) (c [1; 1; 1; 1]%Z) = Err IOPInvalidParameters /\
  match index_transformed true [2; 0; 0; 2] (c [70; 80; 90; 95]%Z) (c [1; 1; 0; 1]%Z) 2 with Ok m => Some (out m) | _ => None end = Some (2%nat, [90; 70; 0; 90])%Z.
Proof. vm_compute. repeat split. Qed.

(** ** C56: the split into left, middle and right *)

(** For bags that are ascending with the selected rows first: the parts have the shape of their bags, every row goes to exactly one part, the left part has no value of the right bag, the right part
    none of the left bag, and the middle parts have only shared values. *)
Theorem C56_split : forall (p : positive) an bn (a sa b sb : list (F p)), @F1 p <> F0 -> length a = 2 ^ an -> length sa = 2 ^ an -> length b = 2 ^ bn -> length sb = 2 ^ bn -> sorted_first a sa -> sorted_first b sb ->
  exists l ls ma mas mb mbs r rs, lmr_split an bn a sa b sb = Ok ((mkMle an l, mkMle an ls), (mkMle an ma, mkMle an mas), (mkMle bn mb, mkMle bn mbs), (mkMle bn r, mkMle bn rs)) /\
    Forall (fun col => length col = 2 ^ an) [l; ls; ma; mas] /\ Forall (fun col => length col = 2 ^ bn) [mb; mbs; r; rs] /\ boolean ls /\ boolean mas /\ boolean mbs /\ boolean rs /\
    Permutation (rows a sa) (rows l ls ++ rows ma mas) /\ Permutation (rows b sb) (rows mb mbs ++ rows r rs) /\
    (forall x, In x (rows l ls) -> ~ In x (rows b sb)) /\ (forall x, In x (rows r rs) -> ~ In x (rows a sa)) /\
    (forall x, In x (rows ma mas) -> In x (rows b sb)) /\ (forall x, In x (rows mb mbs) -> In x (rows a sa)).
Proof. exact @lmr_split_ok. Qed.
Print Assumptions C56_split.
Local Definition parts (r : res ((mle 101 * mle 101) * (mle 101 * mle 101) * (mle 101 * mle 101) * (mle 101 * mle 101))) : option (list (list Z)) :=
  let f (b : mle 101 * mle 101) := map val (rows (evs (fst b)) (evs (snd b))) in match r with Ok (l, ma, mb, r) => Some [f l; f ma; f mb; f r] | _ => None end.
Example C56_ex : parts (lmr_split 2 2 (c [1; 2; 2; 4]%Z) (c [1; 1; 1; 1]%Z) (c [2; 3; 3; 0]%Z) (c [1; 1; 1; 0]%Z)) = Some [[1; 4]; [2; 2]; [2]; [3; 3]]%Z.
Proof. vm_compute. reflexivity. Qed.
Example C56_ex_sorted : sorted_first (c [2; 3; 3; 0]%Z) (c [1; 1; 1; 0]%Z).
Proof.
  intros i j Hij Hj Hs. cbn in Hj. destruct j as [|[|[|[|j]]]]; [inversion Hij|..|exfalso; apply Hs; reflexivity|exfalso; apply (Nat.lt_irrefl 4); do 4 apply Nat.succ_lt_mono in Hj; inversion Hj].
  - destruct i as [|i]; [split; [discriminate|vm_compute; discriminate]|apply Nat.succ_lt_mono in Hij; inversion Hij].
  - destruct i as [|[|i]]; [split; [discriminate|vm_compute; discriminate]..|do 2 apply Nat.succ_lt_mono in Hij; inversion Hij].
Qed.
(** Without the order, or with unselected rows in front, shared values end up in the left and right parts. *)
Theorem C56_order_refuted : ~ forall an bn (a sa b sb : list (F 101)) l ls ma mb r, length a = 2 ^ an -> length sa = 2 ^ an -> length b = 2 ^ bn -> length sb = 2 ^ bn -> boolean sa -> boolean sb ->
  lmr_split an bn a sa b sb = Ok ((l, ls), ma, mb, r) -> forall x, In x (rows (evs l) (evs ls)) -> ~ In x (rows b sb).
Proof. exact lmr_order_refuted. Qed.
Print Assumptions C56_order_refuted.
Example C56_ex_unsorted : parts (lmr_split 2 2 (c [4; 3; 2; 1]%Z) (c [1; 1; 1; 1]%Z) (c [1; 2; 5; 5]%Z) (c [1; 1; 1; 1]%Z)) = Some [[4; 3; 2; 1]; []; []; [1; 2; 5; 5]]%Z /\
  parts (lmr_split 2 2 (c [9; 1; 2; 3]%Z) (c [0; 1; 1; 1]%Z) (c [1; 2; 5; 5]%Z) (c [1; 1; 1; 1]%Z)) <> Some [[3]; [1; 2]; [1; 2]; [5; 5]]%Z.
Proof. split; [vm_compute; reflexivity|vm_compute; discriminate]. Qed.

(** ** C57: the split with multiplicities *)

(** If the left bag starts with a value smaller than the right bag's first, this value belongs to the left part. The split, if it does not panic, records another
    value of the left bag in its place. *)
Theorem C57_left_refuted : forall (p : positive) an bn (a sa b sb : list (F p)) x y lv ls m r mults,
  rows (firstn (2 ^ an) a) (firstn (2 ^ an) sa) <> [] -> rows (firstn (2 ^ bn) b) (firstn (2 ^ bn) sb) <> [] -> nth_error a 0 = Some x -> nth_error b 0 = Some y -> (val x < val y)%Z ->
  lmr_multiplicity_split an bn a sa b sb = Ok ((lv, ls), m, r, mults) -> nth 0 (evs lv) F0 <> x /\ In (nth 0 (evs lv) F0) a.
Proof. exact @lmrm_left. Qed.
Print Assumptions C57_left_refuted.
(** If all rows of the left bag are equal, selected and smaller, the split reads past the end. *)
Theorem C57_end_refuted : forall (p : positive) an bn (sa b sb : list (F p)) x y,
  rows (firstn (2 ^ an) (repeat x (2 ^ an))) (firstn (2 ^ an) sa) <> [] -> rows (firstn (2 ^ bn) b) (firstn (2 ^ bn) sb) <> [] -> nth_error b 0 = Some y -> (val x < val y)%Z ->
  lmr_multiplicity_split an bn (repeat x (2 ^ an)) sa b sb = Panic.
Proof. exact @lmrm_panic. Qed.
Print Assumptions C57_end_refuted.
Local Definition left_of (r : res ((mle 101 * mle 101) * (mle 101 * mle 101) * (mle 101 * mle 101) * (mle 101 * mle 101 * mle 101 * mle 101))) : option (list Z * list Z) :=
  match r with Ok ((l, ls), _, _, _) => Some (map val (evs l), map val (evs ls)) | _ => None end.
Example C57_ex : left_of (lmr_multiplicity_split 2 2 (c [1; 2; 3; 0]%Z) (c [1; 1; 1; 0]%Z) (c [2; 3; 4; 0]%Z) (c [1; 1; 1; 0]%Z)) = Some ([2; 0; 0; 0], [1; 0; 0; 0])%Z /\
  left_of (lmr_multiplicity_split 2 2 (c [1; 1; 1; 1]%Z) (c [1; 1; 1; 1]%Z) (c [2; 3; 4; 0]%Z) (c [1; 1; 1; 0]%Z)) = None.
Proof. vm_compute. split; reflexivity. Qed.
