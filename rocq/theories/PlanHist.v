(** Query plans: tracker calls and protocols run one after the other over one tracker, each of which may use the handles that
    the earlier ones returned. The prover runs the plan and compiles one proof; the verifier runs the same plan with its own calls.
    A plan is what a client of the crate writes down; there is no such object in /repo. The calls are those of ModelProver.v,
    ModelVerifier.v and ModelIop.v. *)
From Coq Require Import String List Arith Bool ZArith Permutation.
Import ListNotations.
From Verif Require Import Res Fp FSum SpecMle SpecPoly SpecSumcheck SpecKzg SpecBatch SpecTracker SpecIop SpecRel SpecJoin ModelMle ModelTranscript ModelSumcheck Pairing ModelKzg ModelBatch ModelProver ModelVerifier
  ModelAdvice ModelIop ProverHist VerifierHist CompileHist IopHist IopRes.
Local Open Scope list_scope.
Local Open Scope nat_scope.

Section H.
Context {p : positive} {E : pairing p}.
Notation comm := (gcar (PG1 E)).
Notation F := (F p).

(** ** The steps of a plan *)
Inductive task : Type :=
| TCommit (m : mle p) | TAdd (a b : tpoly) | TSub (a b : tpoly) | TMul (a b : tpoly) | TAddS (a : tpoly) (c : F) | TMulS (a : tpoly) (c : F) | TZero (a : tpoly)
| TSelector (sel : tpoly) | TNoZeros (b : bag) | TMulti (fx gx : list bag) (mf mg : list tpoly) | TBagEq (fx gx : bag) | TBagSum (f0 f1 gx : bag) | TIncl (fx gx : bag) | TInclWa (fx gx : bag) (m : tpoly)
| TPerm (fx gx : bag) (perm : tpoly) | TSort (fx rx : bag) | TSupp (b sup rx : bag) | TDisjoint (a b rx : bag) | TSetDisjoint (a b rx : bag) | TUnion (a b un rx : bag)
| TDiff (a b lb mb : bag) (bm : tpoly) (rx : bag) | TIntersect (a b lb mb rb rx : bag) | TTransform (ti to : table) | TReduce (a b : bag) (ls rs : tpoly) (rx : bag)
| TJoin (a b : table) (ai bi : nat) | TGroup (t : table) (gi : gb_prove_instr) (rx : bag)
| TFront (a : tpoly) (m : nat) | TBack (a : tpoly) (m : nat) | TSuppWa (b sup : bag) (m : tpoly) (rx : bag) | TDisjointWa (a b c : bag) (ma mb : tpoly) (rx : bag) | TJoinWa (a b : table) (ai bi : nat) (ta : list tpoly)
| TCross (a b : table) | TSplit (a b : bag) | TSetSplit (a b : bag).

Definition nothing {S} (r : res S) : res (list tpoly * S) := s <- r ;; Ok ([], s).
Definition columns_of_bags (bs : list bag) : list tpoly := flat_map (fun b => [b_poly b; b_sel b]) bs.
Definition single {S} (r : res (tpoly * S)) : res (list tpoly * S) := ' (h, s) <- r ;; Ok ([h], s).

(** The prover's call, with the handles it returns: a new column, the columns and the selector of a new table, or the columns and selectors of new bags. *)
Definition prove1 (o : oracle p comm) (dbg : bool) (s : ptrk E) (t : task) : res (list tpoly * ptrk E) :=
  match t with
  | TCommit m => single (tp_commit s m)
  | TAdd a b => single (tp_add s a b)
  | TSub a b => single (tp_sub s a b)
  | TMul a b => single (tp_mul s a b)
  | TAddS a c => single (tp_add_scalar s a c)
  | TMulS a c => single (tp_mul_scalar s a c)
  | TZero a => nothing (Ok (add_zerocheck_claim s (tp_id a)))
  | TSelector sel => nothing (selector_valid_prove s sel)
  | TNoZeros b => nothing (no_zeros_prove s b)
  | TMulti fx gx mf mg => nothing (multitool_prove o s fx gx mf mg)
  | TBagEq fx gx => nothing (bag_eq_prove o s fx gx)
  | TBagSum f0 f1 gx => nothing (bag_sum_prove o s f0 f1 gx)
  | TIncl fx gx => nothing (inclusion_prove o s fx gx)
  | TInclWa fx gx m => nothing (inclusion_prove_with_advice o s fx gx m)
  | TPerm fx gx perm => nothing (presc_perm_prove o dbg s fx gx perm)
  | TSort fx rx => nothing (strict_sort_prove o dbg s fx rx)
  | TSupp b sup rx => nothing (supp_prove o dbg s b sup rx)
  | TDisjoint a b rx => nothing (bag_disjoint_prove o dbg s a b rx)
  | TSetDisjoint a b rx => nothing (set_disjoint_prove o dbg s a b rx)
  | TUnion a b un rx => nothing (set_union_prove o dbg s a b un rx)
  | TDiff a b lb mb bm rx => nothing (set_diff_prove o dbg s a b lb mb bm rx)
  | TIntersect a b lb mb rb rx => nothing (set_intersect_prove o dbg s a b lb mb rb rx)
  | TTransform ti to => nothing (index_transform_prove o dbg s ti to)
  | TReduce a b ls rs rx => nothing (join_reduction_prove o dbg s a b ls rs rx)
  | TJoin a b ai bi => ' (t, s) <- final_join_prove o dbg s a b ai bi ;; Ok (t_cols t ++ [t_sel t], s)
  | TGroup t gi rx => ' (t, s) <- group_by_prove o dbg s t gi rx ;; Ok (t_cols t ++ [t_sel t], s)
  | TFront a m => single (tp_front s a m)
  | TBack a m => single (tp_back s a m)
  | TSuppWa b sup m rx => nothing (supp_prove_with_advice o dbg s b sup m rx)
  | TDisjointWa a b c ma mb rx => nothing (bag_disjoint_prove_with_advice o dbg s a b c ma mb rx)
  | TJoinWa a b ai bi ta => ' (t, s) <- final_join_prove_with_advice o dbg s a b ai bi ta ;; Ok (t_cols t ++ [t_sel t], s)
  | TCross a b => ' (t, s) <- cross_prove dbg s a b ;; Ok (t_cols t ++ [t_sel t], s)
  | TSplit a b => ' (q, s) <- bag_lmr_split dbg s a b ;; let '(l, ma, mb, r) := q in Ok (columns_of_bags [l; ma; mb; r], s)
  | TSetSplit a b => ' (q, s) <- set_lmr_split dbg s a b ;; let '(l, m, r) := q in Ok (columns_of_bags [l; m; r], s)
  end.

(** The verifier's call for the same step. Its handles are the ids that its own call returned and the numbers of variables. *)
Definition one_id (n : nat) (iv : nat * vtrk E) : res (list tpoly * vtrk E) := Ok ([mkTp (fst iv) n], snd iv).
Definition ids_of (r : res (tablec * vtrk E)) : res (list tpoly * vtrk E) := ' (t, v) <- r ;; Ok (map (fun id => mkTp id (tc_nv t)) (tc_cols t ++ [tc_sel t]), v).
(** The verifier takes over columns of the given numbers of variables. *)
Fixpoint take_over (debug : bool) (v : vtrk E) (ns : list nat) : res (list tpoly * vtrk E) :=
  match ns with [] => Ok ([], v) | n :: ns => ' (id, v) <- v_transfer debug v ;; ' (hs, v) <- take_over debug v ns ;; Ok (mkTp id n :: hs, v) end.
Definition split_shape (a b : bag) : list nat := repeat (b_nv a) 4 ++ repeat (b_nv b) 4.
Definition verify1 (o : oracle p comm) (debug : bool) (v : vtrk E) (t : task) : res (list tpoly * vtrk E) :=
  match t with
  | TCommit m => iv <- v_transfer debug v ;; one_id (nv m) iv
  | TAdd a b => one_id (tp_nv a) (add_comms v (tp_id a) (tp_id b))
  | TSub a b => one_id (tp_nv a) (sub_comms v (tp_id a) (tp_id b))
  | TMul a b => one_id (tp_nv a) (mul_comms v (tp_id a) (tp_id b))
  | TAddS a c => one_id (tp_nv a) (v_add_scalar v (tp_id a) c)
  | TMulS a c => one_id (tp_nv a) (v_mul_scalar v (tp_id a) c)
  | TZero a => nothing (Ok (v_add_zerocheck_claim v (tp_id a)))
  | TSelector sel => nothing (selector_valid_verify v (tp_id sel))
  | TNoZeros b => nothing (no_zeros_verify debug v (comm_of b))
  | TMulti fx gx mf mg => nothing (multitool_verify o debug v (map comm_of fx) (map comm_of gx) (map tp_id mf) (map tp_id mg))
  | TBagEq fx gx => nothing (bag_eq_verify o debug v (comm_of fx) (comm_of gx))
  | TBagSum f0 f1 gx => nothing (bag_sum_verify o debug v (comm_of f0) (comm_of f1) (comm_of gx))
  | TIncl fx gx => nothing (inclusion_verify o debug v (comm_of fx) (comm_of gx))
  | TInclWa fx gx m => nothing (inclusion_verify_with_advice o debug v (comm_of fx) (comm_of gx) (tp_id m))
  | TPerm fx gx perm => nothing (presc_perm_verify o debug v (comm_of fx) (comm_of gx) (tp_id perm))
  | TSort fx rx => nothing (strict_sort_verify o debug v (comm_of fx) (comm_of rx))
  | TSupp b sup rx => nothing (supp_verify o debug v (comm_of b) (comm_of sup) (comm_of rx))
  | TDisjoint a b rx => nothing (bag_disjoint_verify o debug v (comm_of a) (comm_of b) (comm_of rx))
  | TSetDisjoint a b rx => nothing (set_disjoint_verify o debug v (comm_of a) (comm_of b) (comm_of rx))
  | TUnion a b un rx => nothing (set_union_verify o debug v (comm_of a) (comm_of b) (comm_of un) (comm_of rx))
  | TDiff a b lb mb bm rx => nothing (set_diff_verify o debug v (comm_of a) (comm_of b) (comm_of lb) (comm_of mb) (tp_id bm) (comm_of rx))
  | TIntersect a b lb mb rb rx => nothing (set_intersect_verify o debug v (comm_of a) (comm_of b) (comm_of lb) (comm_of mb) (comm_of rb) (comm_of rx))
  | TTransform ti to => nothing (index_transform_verify o debug v (tcomm_of ti) (tcomm_of to))
  | TReduce a b ls rs rx => nothing (join_reduction_verify o debug v (comm_of a) (comm_of b) (tp_id ls) (tp_id rs) (comm_of rx))
  | TJoin a b ai bi => ids_of (final_join_verify o debug v (tcomm_of a) (tcomm_of b) ai bi)
  | TGroup t gi rx => ids_of (group_by_verify o debug v (tcomm_of t) (gp_ids gi) (comm_of rx))
  | TFront a m => one_id (tp_nv a + m) (v_increase_nv_front v (tp_id a) m)
  | TBack a m => one_id (tp_nv a + m) (v_increase_nv_back v (tp_id a) m)
  | TSuppWa b sup m rx => nothing (supp_verify_with_advice o debug v (comm_of b) (comm_of sup) (tp_id m) (comm_of rx))
  | TDisjointWa a b c ma mb rx => nothing (bag_disjoint_verify_with_advice o debug v (comm_of a) (comm_of b) (comm_of c) (tp_id ma) (tp_id mb) (comm_of rx))
  | TJoinWa a b ai bi ta => ids_of (final_join_verify_with_advice o debug v (tcomm_of a) (tcomm_of b) ai bi (map tp_id ta))
  | TCross a b => ids_of (Ok (cross_verify v (tcomm_of a) (tcomm_of b)))
  | TSplit a b => take_over debug v (split_shape a b)
  | TSetSplit a b => ' (hs, v) <- take_over debug v (split_shape a b) ;;
      Ok (firstn 2 hs ++ firstn 2 (skipn (if b_nv a <? b_nv b then 2 else 4) hs) ++ skipn 6 hs, v)
  end.

(** A plan: the later steps are chosen from the handles that a step returns. *)
Inductive plan : Type := Finish | Then (t : task) (next : list tpoly -> plan).
Fixpoint prove_plan (o : oracle p comm) (dbg : bool) (s : ptrk E) (pl : plan) : res (ptrk E) :=
  match pl with Finish => Ok s | Then t next => ' (hs, s) <- prove1 o dbg s t ;; prove_plan o dbg s (next hs) end.
Fixpoint verify_plan (o : oracle p comm) (pl : plan) (debug : bool) (v : vtrk E) : res (vtrk E) :=
  match pl with Finish => Ok v | Then t next => ' (hs, v) <- verify1 o debug v t ;; verify_plan o (next hs) debug v end.

(** The bag of two neighbouring handles; and the plan that splits two sets and proves the intersection with the parts. *)
Definition bag_of (hs : list tpoly) (i : nat) : bag := mkBag (nth i hs (mkTp 0 0)) (nth (i + 1) hs (mkTp 0 0)).
Definition split_and_intersect (a b rx : bag) : plan :=
  Then (TSetSplit a b) (fun hs => Then (TIntersect a b (bag_of hs 0) (bag_of hs 2) (bag_of hs 4) rx) (fun _ => Finish)).
(** A bag whose column and selector the tracker reads as [l] and [sl]. *)
Definition bag_reads (s : ptrk E) (b : bag) (n : nat) (l sl : list F) : Prop :=
  tp_nv (b_poly b) = n /\ tp_nv (b_sel b) = n /\ (exists s', tp_evaluations s (b_poly b) = Ok (l, s')) /\ (exists s', tp_evaluations s (b_sel b) = Ok (sl, s')).

(** The steps that a verifier makes on the way to its last tracker: the tracker before the step, the step, the handles returned, the tracker after. *)
Inductive walk (o : oracle p comm) (debug : bool) : plan -> vtrk E -> list (vtrk E * task * list tpoly * vtrk E) -> vtrk E -> Prop :=
| w_finish : forall v, walk o debug Finish v [] v
| w_then : forall t next v hs v1 rest v2, verify1 o debug v t = Ok (hs, v1) -> walk o debug (next hs) v1 rest v2 -> walk o debug (Then t next) v ((v, t, hs, v1) :: rest) v2.

(** ** What the steps are about *)
(** What is known of handles: [K h l d] when [h] stands for the table [l] and has degree at most [d]. *)
Definition known : Type := tpoly -> list F -> nat -> Prop.
Definition at_start (ops : list (pop p)) (hs : list tpoly) (d : nat) : known := fun h l e => stands ops hs h l /\ d <= e.
Definition learn (K : known) (hs : list tpoly) (rs : list (list F * nat)) : known := fun h l d => K h l d \/ exists e, In (h, (l, e)) (combine hs rs) /\ e <= d.
Definition bag_known (K : known) (b : bag) (l sl : list F) (d : nat) : Prop := K (b_poly b) l d /\ K (b_sel b) sl d /\ tp_nv (b_poly b) = tp_nv (b_sel b).
Definition item_known (K : known) (d : nat) (bm : bag * tpoly) (t : list F * list F * list F) : Prop :=
  bag_known K (fst bm) (fst (fst t)) (snd (fst t)) d /\ K (snd bm) (snd t) d /\ tp_nv (snd bm) = b_nv (fst bm).
Definition table_known (K : known) (t : table) (cols : list (list F)) (sl : list F) (d : nat) : Prop :=
  Forall2 (fun c l => K c l d /\ tp_nv c = t_nv t) (t_cols t) cols /\ K (t_sel t) sl d.

(** What became of a step: the challenges drawn, what the verifier is to be convinced of, that no challenge is one of the values
    at which the prover cannot answer, and that no challenge hides a difference. *)
Record outcome : Type := mkOut { drew : list F; holds : Prop; avoided : Prop; fair : Prop }.
Definition report : Type := list tpoly -> list (list F * nat) -> outcome -> Prop.
Definition quiet (Q : outcome -> Prop) : report := fun hs rs out => hs = [] /\ rs = [] /\ Q out.
Definition column_of (n : nat) (l : list F) (d : nat) : report := fun hs rs out => exists h, hs = [h] /\ tp_nv h = n /\ rs = [(l, d)] /\ out = mkOut [] True True True.
Definition pointwise (f : F -> F -> F) (a b : list F) : list F := map (fun xy => f (fst xy) (snd xy)) (combine a b).

(** [can K t R]: the inputs of the step [t] are known, its shapes and sizes fit, and [R] says what it returns and what becomes of it. *)
Section C.
Variables (dbg : bool) (k D : nat).
Inductive can (K : known) : task -> report -> Prop :=
| c_commit : forall n l, length l = 2 ^ n -> n <= k -> can K (TCommit (mkMle n l)) (column_of n l 1)
| c_add : forall a b la lb da db, K a la da -> K b lb db -> tp_nv a = tp_nv b -> Nat.max da db <= D -> can K (TAdd a b) (column_of (tp_nv a) (pointwise Fadd la lb) (Nat.max da db))
| c_sub : forall a b la lb da db, K a la da -> K b lb db -> tp_nv a = tp_nv b -> Nat.max da db <= D -> can K (TSub a b) (column_of (tp_nv a) (pointwise Fsub la lb) (Nat.max da db))
| c_mul : forall a b la lb da db, K a la da -> K b lb db -> tp_nv a = tp_nv b -> da + db <= D -> can K (TMul a b) (column_of (tp_nv a) (pointwise Fmul la lb) (da + db))
| c_adds : forall a c la da, K a la da -> da <= D -> can K (TAddS a c) (column_of (tp_nv a) (map (fun x => Fadd x c) la) da)
| c_muls : forall a c la da, K a la da -> da <= D -> can K (TMulS a c) (column_of (tp_nv a) (map (fun x => Fmul x c) la) da)
| c_zero : forall a l d, K a l d -> can K (TZero a) (quiet (eq (mkOut [] (Forall (fun y => y = F0) l) True True)))
| c_selector : forall sel l d, K sel l d -> 1 <= d -> 2 * d <= D -> can K (TSelector sel) (quiet (eq (mkOut [] (boolean l) True True)))
| c_no_zeros : forall b l sl d, bag_known K b l sl d -> 1 <= d -> 2 * d + 1 <= D -> can K (TNoZeros b) (quiet (eq (mkOut [] (~ In F0 (rows l sl)) True True)))
| c_multi : forall fx gx mf mg ts us d, fx <> [] -> gx <> [] -> length fx = length mf -> length gx = length mg -> Forall2 (item_known K d) (combine fx mf) ts -> Forall2 (item_known K d) (combine gx mg) us ->
    1 <= d -> 2 * d + 1 <= D ->
    can K (TMulti fx gx mf mg) (quiet (fun out => exists g, out = mkOut [g] (same_bag (wcols ts) (wcols us)) (~ In g (map fst (wcols ts ++ wcols us))) (~ unlucky (wcols ts) (wcols us) g)))
| c_bag_eq : forall fx gx l sl l' sl' d, bag_known K fx l sl d -> bag_known K gx l' sl' d -> b_nv fx = b_nv gx -> 1 <= d -> 2 * d + 1 <= D -> boolean sl -> boolean sl' -> length l < fsize p ->
    can K (TBagEq fx gx) (quiet (fun out => exists g, out = mkOut [g] (Permutation (rows l sl) (rows l' sl')) (~ In g (l ++ l')) (~ unlucky (combine l sl) (combine l' sl') g)))
| c_bag_sum : forall f0 f1 gx l0 sl0 l1 sl1 l sl d, bag_known K f0 l0 sl0 d -> bag_known K f1 l1 sl1 d -> bag_known K gx l sl d -> 1 <= d -> 2 * d + 1 <= D -> boolean sl0 -> boolean sl1 -> boolean sl ->
    length l0 + length l1 < fsize p -> length l < fsize p ->
    can K (TBagSum f0 f1 gx) (quiet (fun out => exists g, out = mkOut [g] (Permutation (rows l0 sl0 ++ rows l1 sl1) (rows l sl)) (~ In g (l0 ++ l1 ++ l)) (~ unlucky (combine l0 sl0 ++ combine l1 sl1) (combine l sl) g)))
| c_incl : forall fx gx l sl l' sl' d, bag_known K fx l sl d -> bag_known K gx l' sl' d -> 1 <= d -> 2 * d + 1 <= D -> boolean sl -> boolean sl' -> length l < fsize p ->
    can K (TIncl fx gx) (quiet (fun out => exists g ml, length ml = length l' /\ counts_of (rows l sl) (rows l' sl') (wcol l' sl' ml) /\
      out = mkOut [g] (incl (rows l sl) (rows l' sl')) (~ In g (l ++ l')) (~ unlucky (combine l sl) (wcol l' sl' ml) g)))
| c_incl_wa : forall fx gx m l sl l' sl' ml d, bag_known K fx l sl d -> bag_known K gx l' sl' d -> K m ml d -> b_nv gx = tp_nv m -> 1 <= d -> 2 * d + 1 <= D ->
    can K (TInclWa fx gx m) (quiet (fun out => exists g, out = mkOut [g] (same_bag (combine l sl) (wcol l' sl' ml)) (~ In g (l ++ l')) (~ unlucky (combine l sl) (wcol l' sl' ml) g)))
| c_perm : forall fx gx perm l sl l' sl' pl d, bag_known K fx l sl d -> bag_known K gx l' sl' d -> K perm pl d -> b_nv fx = b_nv gx -> b_nv fx = tp_nv perm -> 1 <= d -> 2 * d + 1 <= D -> length l < fsize p ->
    can K (TPerm fx gx perm) (quiet (fun out => exists g g', let a := combine (index_column (b_nv fx)) l in let b := combine pl l' in
      out = mkOut [g; g'] (Permutation a b) (~ In g' (folded g a ++ folded g b)) (~ clash a b g /\ ~ unlucky (unit_bag (folded g a)) (unit_bag (folded g b)) g')))
| c_sort : forall fx rx l sl rl rsl d, bag_known K fx l sl d -> bag_known K rx rl rsl d -> 1 <= d -> 2 * d + 3 <= D -> length l < fsize p ->
    can K (TSort fx rx) (quiet (fun out => exists g g1 g2 wl, length wl = length rl /\ counts_of (steps l) rl (combine rl wl) /\
      out = mkOut [g; g1; g2] (sorted_by rl l sl) (sort_avoids (b_nv fx) l rl g g1 g2) (~ unlucky (unit_bag (steps l)) (combine rl wl) g2)))
| c_supp : forall b sup rx l sl l' sl' rl rsl d, bag_known K b l sl d -> bag_known K sup l' sl' d -> bag_known K rx rl rsl d -> 1 <= d -> 2 * d + 3 <= D ->
    boolean sl -> boolean sl' -> length l < fsize p -> length l' < fsize p -> small_range rl (b_nv sup) ->
    can K (TSupp b sup rx) (quiet (fun out => exists h g g1 g2 ml wl, length ml = length l' /\ counts_of (rows l sl) (rows l' sl') (wcol l' sl' ml) /\ length wl = length rl /\ counts_of (steps l') rl (combine rl wl) /\
      out = mkOut [h; g; g1; g2] (sorted_by rl l' sl' /\ forall x, In x (rows l' sl') <-> In x (rows l sl)) (~ In h (l ++ l') /\ sort_avoids (b_nv sup) l' rl g g1 g2)
        (~ unlucky (combine l sl) (wcol l' sl' ml) h /\ ~ unlucky (unit_bag (steps l')) (combine rl wl) g2)))
| c_disjoint : forall a b rx l sl l' sl' rl rsl d, bag_known K a l sl d -> bag_known K b l' sl' d -> bag_known K rx rl rsl d -> 1 <= d -> 2 * d + 3 <= D ->
    let n := Nat.max (b_nv a) (b_nv b) + 1 in n <= k -> boolean sl -> boolean sl' -> 2 ^ n < fsize p ->
    can K (TDisjoint a b rx) (quiet (fun out => exists vals wl ds, disjoint_advised n l sl l' sl' rl vals wl /\ length ds = 5 /\
      out = mkOut ds ((forall x, In x (rows l sl) -> ~ In x (rows l' sl')) /\ incl (steps (merged n vals)) rl) (disjoint_avoids n l l' rl vals ds) (~ steps_unlucky n rl vals wl ds)))
| c_set_disjoint : forall a b rx l sl l' sl' rl rsl d, bag_known K a l sl d -> bag_known K b l' sl' d -> bag_known K rx rl rsl d -> 1 <= d -> 2 * d + 3 <= D ->
    let n := Nat.max (b_nv a) (b_nv b) + 1 in n <= k -> boolean sl -> boolean sl' -> 2 ^ n < fsize p ->
    can K (TSetDisjoint a b rx) (quiet (fun out => exists h g g1 g2 c cs wl, length c = 2 ^ n /\ non_decreasing c /\ Permutation (rows c cs) (rows l sl ++ rows l' sl') /\ length wl = length rl /\ counts_of (steps c) rl (combine rl wl) /\
      out = mkOut [h; g; g1; g2] (NoDup (rows l sl ++ rows l' sl') /\ incl (steps c) rl) (~ In h (l ++ l' ++ c) /\ sort_avoids n c rl g g1 g2) (~ unlucky (unit_bag (steps c)) (combine rl wl) g2)))
| c_union : forall a b un rx l sl l' sl' ul usl rl rsl d, bag_known K a l sl d -> bag_known K b l' sl' d -> bag_known K un ul usl d -> bag_known K rx rl rsl d -> 1 <= d -> 2 * d + 3 <= D ->
    let n := Nat.max (b_nv a) (b_nv b) + 1 in n <= k -> boolean sl -> boolean sl' -> boolean usl -> 2 ^ n < fsize p -> length ul < fsize p -> small_range rl (b_nv un) ->
    can K (TUnion a b un rx) (quiet (fun out => exists h0 h g g1 g2 c cs ml wl, rows c cs = rows l sl ++ rows l' sl' /\ length ml = length ul /\ counts_of (rows c cs) (rows ul usl) (wcol ul usl ml) /\
      length wl = length rl /\ counts_of (steps ul) rl (combine rl wl) /\
      out = mkOut [h0; h; g; g1; g2] (sorted_by rl ul usl /\ forall x, In x (rows ul usl) <-> In x (rows l sl) \/ In x (rows l' sl'))
        (~ In h0 (l ++ l' ++ c) /\ ~ In h (c ++ ul) /\ sort_avoids (b_nv un) ul rl g g1 g2) (~ unlucky (combine c cs) (wcol ul usl ml) h /\ ~ unlucky (unit_bag (steps ul)) (combine rl wl) g2)))
| c_diff : forall a b lb mb bm rx al asl bl bsl ll lsl ml msl bml rl rsl d, bag_known K a al asl d -> bag_known K b bl bsl d -> bag_known K lb ll lsl d -> bag_known K mb ml msl d -> K bm bml d -> b_nv b = tp_nv bm ->
    bag_known K rx rl rsl d -> 1 <= d -> 2 * d + 3 <= D -> let n := Nat.max (b_nv lb) (b_nv b) + 1 in n <= k -> boolean asl -> boolean bsl -> boolean lsl -> boolean msl -> 2 ^ n < fsize p ->
    length ll + length ml < fsize p -> length al < fsize p ->
    can K (TDiff a b lb mb bm rx) (quiet (fun out => exists h g g1 g2 h1 h2 c cs wl, length c = 2 ^ n /\ non_decreasing c /\ Permutation (rows c cs) (rows ll lsl ++ rows bl bsl) /\ length wl = length rl /\ counts_of (steps c) rl (combine rl wl) /\
      out = mkOut [h; g; g1; g2; h1; h2]
        (NoDup (rows ll lsl ++ rows bl bsl) /\ (Permutation (rows ll lsl ++ rows ml msl) (rows al asl) /\ same_bag (combine ml msl) (wcol bl bsl bml)) /\ incl (steps c) rl)
        ((~ In h (ll ++ bl ++ c) /\ sort_avoids n c rl g g1 g2) /\ ~ In h1 (ll ++ ml ++ al) /\ ~ In h2 (ml ++ bl))
        (~ unlucky (combine ll lsl ++ combine ml msl) (combine al asl) h1 /\ ~ unlucky (combine ml msl) (wcol bl bsl bml) h2 /\ ~ unlucky (unit_bag (steps c)) (combine rl wl) g2)))
| c_intersect : forall a b lb mb rb rx al asl bl bsl ll lsl ml msl sl ssl rl rsl d, bag_known K a al asl d -> bag_known K b bl bsl d -> bag_known K lb ll lsl d -> bag_known K mb ml msl d -> bag_known K rb sl ssl d ->
    bag_known K rx rl rsl d -> 1 <= d -> 2 * d + 3 <= D -> let n := Nat.max (b_nv lb) (b_nv rb) + 1 in n <= k -> boolean asl -> boolean bsl -> boolean lsl -> boolean msl -> boolean ssl -> 2 ^ n < fsize p ->
    length ll + length ml < fsize p -> length ml + length sl < fsize p -> length al < fsize p -> length bl < fsize p ->
    can K (TIntersect a b lb mb rb rx) (quiet (fun out => exists h1 h2 h g g1 g2 c cs wl, length c = 2 ^ n /\ non_decreasing c /\ Permutation (rows c cs) (rows ll lsl ++ rows sl ssl) /\ length wl = length rl /\ counts_of (steps c) rl (combine rl wl) /\
      out = mkOut [h1; h2; h; g; g1; g2]
        (NoDup (rows ll lsl ++ rows sl ssl) /\ (Permutation (rows ll lsl ++ rows ml msl) (rows al asl) /\ Permutation (rows ml msl ++ rows sl ssl) (rows bl bsl)) /\ incl (steps c) rl)
        (~ In h1 (ll ++ ml ++ al) /\ ~ In h2 (ml ++ sl ++ bl) /\ ~ In h (ll ++ sl ++ c) /\ sort_avoids n c rl g g1 g2)
        (~ unlucky (combine ll lsl ++ combine ml msl) (combine al asl) h1 /\ ~ unlucky (combine ml msl ++ combine sl ssl) (combine bl bsl) h2 /\ ~ unlucky (unit_bag (steps c)) (combine rl wl) g2)))
| c_transform : forall ti to ic isl oc osl d, table_known K ti ic isl d -> table_known K to oc osl d -> boolean isl -> boolean osl -> length (t_cols to) = length (t_cols ti) ->
    1 <= d -> 2 * (d + length (t_cols ti) * d) + 1 <= D -> 2 ^ t_nv to < fsize p ->
    can K (TTransform ti to) (quiet (fun out => exists r h ml, let rs := powers r (length (t_cols ti)) in let il := aggregated rs ic isl in let ol := aggregated rs oc osl in
      length ml = length il /\ counts_of (rows ol osl) (rows il isl) (wcol il isl ml) /\
      out = mkOut [r; h] (same_products oc osl ic isl) (~ In h (ol ++ il)) (r <> F0 /\ ~ unlucky (combine ol osl) (wcol il isl ml) h)))
| c_reduce : forall a b ls rs rx al asl bl bsl lsl rsl rl rrl d, bag_known K a al asl d -> bag_known K b bl bsl d -> K ls lsl d -> tp_nv ls = b_nv a -> K rs rsl d -> tp_nv rs = b_nv b -> bag_known K rx rl rrl d ->
    boolean asl -> boolean bsl -> boolean lsl -> boolean rsl -> let na := b_nv a in let nb := b_nv b in let n := Nat.max na nb + 1 in n <= k -> 1 <= d -> 4 * d + 3 <= D -> 2 ^ n < fsize p ->
    let al' := both asl lsl in let bl' := both bsl rsl in let am := both asl (opposite lsl) in let bm := both bsl (opposite rsl) in
    can K (TReduce a b ls rs rx) (quiet (fun out => exists x1 u1 x2 u2 x3 u3 m4 m5 ds1 ds2 ds3 h4 h5,
      disjoint_advised n al al' bl bl' rl x1 u1 /\ disjoint_advised (na + 1) al al' al am rl x2 u2 /\ disjoint_advised (nb + 1) bl bl' bl bm rl x3 u3 /\
      length m4 = length bl /\ counts_of (rows al am) (rows bl bm) (wcol bl bm m4) /\ length m5 = length al /\ counts_of (rows bl bm) (rows al am) (wcol al am m5) /\
      out = mkOut (ds1 ++ ds2 ++ ds3 ++ [h4; h5])
        ((marks al asl lsl bl bsl /\ marks bl bsl rsl al asl) /\ incl (steps (merged n x1)) rl /\ incl (steps (merged (na + 1) x2)) rl /\ incl (steps (merged (nb + 1) x3)) rl)
        (disjoint_avoids n al bl rl x1 ds1 /\ disjoint_avoids (na + 1) al al rl x2 ds2 /\ disjoint_avoids (nb + 1) bl bl rl x3 ds3 /\ ~ In h4 (al ++ bl) /\ ~ In h5 (al ++ bl))
        (~ unlucky (combine al am) (wcol bl bm m4) h4 /\ ~ unlucky (combine bl bm) (wcol al am m5) h5 /\ ~ steps_unlucky n rl x1 u1 ds1 /\ ~ steps_unlucky (na + 1) rl x2 u2 ds2 /\ ~ steps_unlucky (nb + 1) rl x3 u3 ds3)))
| c_join : forall a b ai bi ac asl bc bsl d, table_known K a ac asl d -> table_known K b bc bsl d -> boolean asl -> boolean bsl -> ai < length (t_cols a) -> bi < length (t_cols b) ->
    1 <= d -> 2 * (d + length (t_cols a) * d) + 1 <= D -> 2 ^ t_nv b < fsize p ->
    let ka := nth ai ac [] in let kb := nth bi bc [] in (forall i, i < length bsl -> ~ missing ka asl kb bsl i) -> (dbg = true -> NoDup ka) ->
    can K (TJoin a b ai bi) (fun hs rs out => exists ta tcs r h, hs = ta ++ t_cols b ++ [t_sel b] /\ length ta = length (t_cols a) /\ Forall (fun c => tp_nv c = t_nv b) ta /\
      rs = map (fun l => (l, d)) (tcs ++ bc ++ [bsl]) /\ length tcs = length ta /\ Forall (fun l => length l = 2 ^ t_nv b) tcs /\ joined_rows ac ka asl kb bsl tcs /\
      let rr := powers r (length (t_cols a)) in out = mkOut [r; h] True (~ In h (aggregated rr tcs bsl ++ aggregated rr ac asl)) True)
| c_group : forall t g sp sps sel mult ags rx tcs sl sup sl' ml als rl rsl d, table_known K t tcs sl d -> g < length (t_cols t) -> K sp sup d -> tp_nv sp = t_nv t -> K sel sl' d -> tp_nv sel = t_nv t ->
    K mult ml d -> tp_nv mult = t_nv t -> bag_known K rx rl rsl d ->
    Forall2 (fun (i : nat * agg * tpoly) al => fst (fst i) < length (t_cols t) /\ (snd (fst i) = AggCount \/ snd (fst i) = AggSum) /\ K (snd i) al d /\ tp_nv (snd i) = t_nv t) ags als ->
    1 <= d -> 2 * d + 3 <= D -> boolean sl -> boolean sl' -> 2 ^ t_nv t < fsize p -> small_range rl (t_nv t) ->
    let gi := mkGp [g] (sp :: sps) sel mult ags in let keys := nth g tcs [] in
    can K (TGroup t gi rx) (fun hs rs out => exists h q q1 q2 wl zs, hs = (sp :: repeat mult (counts_in (gb_ids ags))) ++ [sel] /\ rs = map (fun l => (l, d)) ((sup :: repeat ml (counts_in (gb_ids ags))) ++ [sl']) /\
      length zs = length (sums_asked ags als) /\ length wl = length rl /\ counts_of (steps sup) rl (combine rl wl) /\
      out = mkOut ([h; q; q1; q2] ++ zs) (sorted_by rl sup sl' /\ grouped tcs keys sl sup sl' ml (sums_asked ags als))
        (~ In h (keys ++ sup) /\ sort_avoids (t_nv t) sup rl q q1 q2 /\ Forall (fun z => ~ In z (keys ++ sup)) zs)
        (~ unlucky (combine keys sl) (wcol sup sl' ml) h /\ ~ unlucky (unit_bag (steps sup)) (combine rl wl) q2 /\
         Forall2 (fun x z => ~ unlucky (wcol keys sl (nth (fst x) tcs [])) (wcol sup sl' (snd x)) z) (sums_asked ags als) zs))
| c_front : forall a m la da, K a la da -> tp_nv a + m <= k -> can K (TFront a m) (column_of (tp_nv a + m) (repeat_each (2 ^ m) la) 1)
| c_back : forall a m la da, K a la da -> tp_nv a + m <= k -> tp_nv a <= m -> can K (TBack a m) (column_of (tp_nv a + m) (repeat_all (2 ^ m) la) 1)
| c_supp_wa : forall b sup m rx l sl l' sl' ml rl rsl d, bag_known K b l sl d -> bag_known K sup l' sl' d -> K m ml d -> b_nv sup = tp_nv m -> bag_known K rx rl rsl d -> 1 <= d -> 2 * d + 3 <= D -> length l' < fsize p ->
    can K (TSuppWa b sup m rx) (quiet (fun out => exists h g g1 g2 wl, length wl = length rl /\ counts_of (steps l') rl (combine rl wl) /\
      out = mkOut [h; g; g1; g2] (same_bag (combine l sl) (wcol l' sl' ml) /\ ~ In F0 (rows ml sl') /\ sorted_by rl l' sl') (~ In h (l ++ l') /\ sort_avoids (b_nv sup) l' rl g g1 g2)
        (~ unlucky (combine l sl) (wcol l' sl' ml) h /\ ~ unlucky (unit_bag (steps l')) (combine rl wl) g2)))
| c_disjoint_wa : forall a b c ma mb rx l sl l' sl' cl csl mal mbl rl rsl d, bag_known K a l sl d -> bag_known K b l' sl' d -> bag_known K c cl csl d -> K ma mal d -> b_nv c = tp_nv ma -> K mb mbl d -> b_nv c = tp_nv mb ->
    bag_known K rx rl rsl d -> 1 <= d -> 2 * d + 3 <= D -> length cl < fsize p ->
    can K (TDisjointWa a b c ma mb rx) (quiet (fun out => exists g g1 g2 h h' wl, length wl = length rl /\ counts_of (steps cl) rl (combine rl wl) /\
      out = mkOut [g; g1; g2; h; h']
        (sorted_by rl cl csl /\ (forall i, i < length cl -> nth i mal F0 = F0 \/ nth i mbl F0 = F0) /\ same_bag (combine l sl) (wcol cl csl mal) /\ same_bag (combine l' sl') (wcol cl csl mbl))
        (sort_avoids (b_nv c) cl rl g g1 g2 /\ ~ In h (l ++ cl) /\ ~ In h' (l' ++ cl))
        (~ unlucky (unit_bag (steps cl)) (combine rl wl) g2 /\ ~ unlucky (combine l sl) (wcol cl csl mal) h /\ ~ unlucky (combine l' sl') (wcol cl csl mbl) h')))
| c_join_wa : forall a b ai bi ta ac asl bc bsl tcs d, table_known K a ac asl d -> table_known K b bc bsl d -> table_known K (mkTable ta (t_sel b)) tcs bsl d -> length ta = length (t_cols a) -> boolean asl -> boolean bsl ->
    ai < length (t_cols a) -> bi < length (t_cols b) -> 1 <= d -> 2 * (d + length (t_cols a) * d) + 1 <= D -> 2 ^ t_nv b < fsize p -> (dbg = true -> NoDup (nth ai ac [])) ->
    can K (TJoinWa a b ai bi ta) (fun hs rs out => exists r h ml, let rr := powers r (length (t_cols a)) in let il := aggregated rr ac asl in let ol := aggregated rr tcs bsl in
      hs = ta ++ t_cols b ++ [t_sel b] /\ rs = map (fun l => (l, d)) (tcs ++ bc ++ [bsl]) /\ length ml = length il /\ counts_of (rows ol bsl) (rows il asl) (wcol il asl ml) /\
      out = mkOut [r; h] (same_products tcs bsl ac asl /\ forall i, i < length bsl -> nth i bsl F0 = F1 -> nth i (nth ai tcs []) F0 = nth i (nth bi bc []) F0) (~ In h (ol ++ il))
        (r <> F0 /\ ~ unlucky (combine ol bsl) (wcol il asl ml) h))
| c_cross : forall a b ca cb sa sb d, table_known K a ca sa d -> table_known K b cb sb d -> t_nv b <= t_nv a -> t_nv a + t_nv b <= k -> 2 <= D ->
    can K (TCross a b) (fun hs rs out => exists cs sel, hs = cs ++ [sel] /\ length cs = length (t_cols a) + length (t_cols b) /\ Forall (fun c => tp_nv c = t_nv a + t_nv b) hs /\
      rs = map (fun l => (l, 1)) (cross_cols (t_nv a) (t_nv b) ca cb) ++ [(cross_sel (t_nv a) (t_nv b) sa sb, 2)] /\ out = mkOut [] True True True)
| c_split : forall a b al asl bl bsl d, bag_known K a al asl d -> bag_known K b bl bsl d -> b_nv a <= k -> b_nv b <= k -> sorted_first al asl -> sorted_first bl bsl ->
    can K (TSplit a b) (fun hs rs out => exists l ls ma mas mb mbs r rs', map tp_nv hs = split_shape a b /\ rs = map (fun c => (c, 1)) [l; ls; ma; mas; mb; mbs; r; rs'] /\
      split_parts al asl bl bsl l ls ma mas mb mbs r rs' /\ out = mkOut [] True True True)
| c_set_split : forall a b al asl bl bsl d, bag_known K a al asl d -> bag_known K b bl bsl d -> b_nv a <= k -> b_nv b <= k -> sorted_first al asl -> sorted_first bl bsl ->
    NoDup (rows al asl) -> NoDup (rows bl bsl) ->
    can K (TSetSplit a b) (fun hs rs out => exists l ls m ms r rs', let mn := Nat.min (b_nv a) (b_nv b) in map tp_nv hs = [b_nv a; b_nv a; mn; mn; b_nv b; b_nv b] /\ rs = map (fun c => (c, 1)) [l; ls; m; ms; r; rs'] /\
      boolean ls /\ boolean ms /\ boolean rs' /\ Permutation (rows al asl) (rows l ls ++ rows m ms) /\ Permutation (rows bl bsl) (rows m ms ++ rows r rs') /\ NoDup (rows l ls ++ rows r rs') /\
      out = mkOut [] True True True).

(** A plan can be run from [K]: each step can, whatever the steps before it reported. *)
Inductive posed : known -> plan -> Prop :=
| p_finish : forall K, posed K Finish
| p_then : forall K t R next, can K t R -> (forall hs rs out, R hs rs out -> posed (learn K hs rs) (next hs)) -> posed K (Then t next).
(** What the steps of a run reported. *)
Inductive told : known -> plan -> list outcome -> Prop :=
| t_finish : forall K, told K Finish []
| t_then : forall K t R next hs rs out outs, can K t R -> R hs rs out -> told (learn K hs rs) (next hs) outs -> told K (Then t next) (out :: outs).
End C.
End H.
