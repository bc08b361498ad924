(** The relational protocols on bags and tables (zksql_poly_iop): every [prove]
    and [verify] as a sequence of tracker calls.

    The shared mutable tracker is threaded as a state: a Rust call on
    [&mut ProverTrackerRef] or on a handle holding it takes the state and returns
    the new one.  [debug] says whether the build has debug assertions.  The
    assertions that two handles share one tracker (same_tracker) are not
    modelled: there is one tracker here.  Timers are dropped. *)
From Coq Require Import String List Arith ZArith Bool Lia.
From Verif Require Import Res Fp ModelMle ModelTranscript Pairing ModelKzg ModelProver ModelVerifier ModelAdvice.
Import ListNotations.
Local Open Scope list_scope.
Local Open Scope nat_scope.

(** tracker/bag.rs 11-15: struct Bag.  num_vars() is the number of variables of
    the value polynomial (28-30). *)
Record bag : Type := mkBag { b_poly : tpoly; b_sel : tpoly }.
Definition b_nv (b : bag) : nat := tp_nv (b_poly b).
(** tracker/bag.rs 17-27, Bag::new: the shapes are compared in debug builds only. *)
Definition bag_new (debug : bool) (a s : tpoly) : res bag :=
  _ <- (if debug then rassert (tp_nv a =? tp_nv s) else Ok tt) ;; Ok (mkBag a s).

(** tracker/bag.rs 43-59: struct BagComm. *)
Record bagc : Type := mkBagc { bc_poly : nat; bc_sel : nat; bc_nv : nat }.

(** tracker/bag.rs 66-93: struct Table; num_vars() is the selector's. *)
Record table : Type := mkTable { t_cols : list tpoly; t_sel : tpoly }.
Definition t_nv (t : table) : nat := tp_nv (t_sel t).
Definition table_new (debug : bool) (cols : list tpoly) (s : tpoly) : res table :=
  _ <- (if debug then rassert (forallb (fun c => tp_nv c =? tp_nv s) cols) else Ok tt) ;; Ok (mkTable cols s).
(** tracker/bag.rs 100-117: struct TableComm. *)
Record tablec : Type := mkTablec { tc_cols : list nat; tc_sel : nat; tc_nv : nat }.

Section Iop.
Context {p : positive} {E : pairing p}.
Implicit Types s : ptrk E.
Implicit Types v : vtrk E.

(** The closure |_| Ok(one) the verifiers track for a constant-one polynomial. *)
Definition one_fun (x : list (F p)) : res (F p) := Ok F1.
(** The constant-one table tracked by the provers. *)
Definition one_mle (n : nat) : res (mle p) := from_evaluations n (ones (2 ^ n)).

(** get_next_id followed by transfer_prover_comm of that id, as all verifiers do. *)
Definition v_transfer (debug : bool) v : res (nat * vtrk E) := transfer_prover_comm debug v (v_get_next_id v).

(** ** selector_valid/selector_valid.rs 15-27 and 29-38 *)
Definition selector_valid_prove s (sel : tpoly) : res (ptrk E) :=
  ' (a, s) <- tp_mul_scalar s sel (Fopp F1) ;;
  ' (a, s) <- tp_add_scalar s a F1 ;;
  ' (c, s) <- tp_mul s sel a ;;
  Ok (add_zerocheck_claim s (tp_id c)).
Definition selector_valid_verify v (sel : nat) : res (vtrk E) :=
  let '(a, v) := v_mul_scalar v sel (Fopp F1) in
  let '(a, v) := v_add_scalar v a F1 in
  let '(c, v) := mul_comms v sel a in
  Ok (v_add_zerocheck_claim v c).

(** ** bag_no_zeros/mod.rs 15-35 and 37-49 *)
Definition no_zeros_prove s (b : bag) : res (ptrk E) :=
  ' (l, s) <- tp_evaluations s (b_poly b) ;;
  m <- from_evaluations (b_nv b) (map Finv l) ;;
  ' (inv, s) <- tp_commit s m ;;
  ' (c, s) <- tp_mul s (b_poly b) (b_sel b) ;;
  ' (c, s) <- tp_mul s c inv ;;
  ' (c, s) <- tp_sub s c (b_sel b) ;;
  Ok (add_zerocheck_claim s (tp_id c)).
Definition no_zeros_verify (debug : bool) v (b : bagc) : res (vtrk E) :=
  ' (inv, v) <- v_transfer debug v ;;
  let '(c, v) := mul_comms v (bc_poly b) (bc_sel b) in
  let '(c, v) := mul_comms v c inv in
  let '(c, v) := sub_comms v c (bc_sel b) in
  Ok (v_add_zerocheck_claim v c).

(** ** bag_multitool/bag_multitool.rs *)
(** 72-109, prove_generate_subclaims *)
Definition multitool_subclaim s (g : F p) (b : bag) (m : tpoly) : res (ptrk E) :=
  let n := b_nv b in
  ' (l, s) <- tp_evaluations s (b_poly b) ;;
  phm <- from_evaluations n (map (fun x => Finv (Fsub x g)) l) ;;
  ' (ml, s) <- tp_evaluations s m ;;
  ' (sl, s) <- tp_evaluations s (b_sel b) ;;
  c <- foldM (fun acc i =>
         x <- rnth (evs phm) i ;; y <- rnth ml i ;; z <- rnth sl i ;;
         Ok (Fadd acc (Fmul (Fmul x y) z))) F0 (seq 0 (2 ^ n)) ;;
  ' (ph, s) <- tp_commit s phm ;;
  ' (a, s) <- tp_mul s ph m ;;
  ' (a, s) <- tp_mul s a (b_sel b) ;;
  ' (d, s) <- tp_mul s (b_poly b) ph ;;
  ' (e, s) <- tp_mul_scalar s ph g ;;
  ' (d, s) <- tp_sub s d e ;;
  ' (d, s) <- tp_add_scalar s d (Fopp F1) ;;
  Ok (add_zerocheck_claim (add_sumcheck_claim s (tp_id a) c) (tp_id d)).
(** 20-51: the shape checks of one side. *)
Definition multitool_shape (fx : list bag) (mf : list tpoly) : res unit :=
  _ <- ensure (negb (length fx =? 0)) IOPInvalidParameters ;;
  _ <- ensure (length fx =? length mf) IOPInvalidParameters ;;
  ensure (forallb (fun bm => b_nv (fst bm) =? tp_nv (snd bm)) (combine fx mf)) IOPInvalidParameters.
(** 14-70, prove *)
Definition multitool_prove (o : oracle p (gcar (PG1 E))) s (fx gx : list bag) (mf mg : list tpoly) : res (ptrk E) :=
  _ <- multitool_shape fx mf ;;
  _ <- multitool_shape gx mg ;;
  ' (g, s) <- pt_challenge o "gamma" s ;;
  s <- foldM (fun s bm => multitool_subclaim s g (fst bm) (snd bm)) s (combine fx mf) ;;
  foldM (fun s bm => multitool_subclaim s g (fst bm) (snd bm)) s (combine gx mg).
(** 173-195, verify_generate_subclaims *)
Definition multitool_vsubclaim (debug : bool) v (g : F p) (b : bagc) (m : nat) : res (F p * vtrk E) :=
  ' (ph, v) <- v_transfer debug v ;;
  let '(a, v) := mul_comms v ph m in
  let '(a, v) := mul_comms v a (bc_sel b) in
  let '(d, v) := mul_comms v (bc_poly b) ph in
  let '(e, v) := v_mul_scalar v ph g in
  let '(d, v) := sub_comms v d e in
  let '(d, v) := v_add_scalar v d (Fopp F1) in
  c <- get_prover_claimed_sum v a ;;
  Ok (c, v_add_zerocheck_claim (v_add_sumcheck_claim v a c) d).
(** 145-157: one side of the equation; the claimed sum of a bag with fewer
    variables than [mx] is divided by the power of two between them. *)
Definition multitool_side (debug : bool) (g : F p) (mx : nat) (acc : F p * vtrk E) (bm : bagc * nat) : res (F p * vtrk E) :=
  ' (c, v) <- multitool_vsubclaim debug (snd acc) g (fst bm) (snd bm) ;;
  Ok (Fadd (fst acc) (Fdiv c (ofN (2 ^ (mx - bc_nv (fst bm))))), v).
Definition bagc_max (l : list bagc) : nat := fold_right (fun b m => Nat.max (bc_nv b) m) 0 l.
(** 111-171, verify *)
Definition multitool_verify (o : oracle p (gcar (PG1 E))) (debug : bool) v (fx gx : list bagc) (mf mg : list nat) : res (vtrk E) :=
  _ <- ensure (negb (length fx =? 0)) IOPInvalidParameters ;;
  _ <- ensure (length fx =? length mf) IOPInvalidParameters ;;
  _ <- ensure (negb (length gx =? 0)) IOPInvalidParameters ;;
  _ <- ensure (length gx =? length mg) IOPInvalidParameters ;;
  ' (g, v) <- vt_challenge o "gamma" v ;;
  let mx := Nat.max (bagc_max fx) (bagc_max gx) in
  ' (lhs, v) <- foldM (multitool_side debug g mx) (F0, v) (combine fx mf) ;;
  ' (rhs, v) <- foldM (multitool_side debug g mx) (F0, v) (combine gx mg) ;;
  _ <- ensure (Feqb lhs rhs) IOPInvalidVerifier ;;
  Ok v.

(** ** bag_eq/bag_eq.rs 16-40 and 42-51 *)
Definition bag_eq_prove o s (fx gx : bag) : res (ptrk E) :=
  _ <- ensure (b_nv fx =? b_nv gx) IOPInvalidParameters ;;
  m <- one_mle (b_nv fx) ;;
  let '(mx, s) := tp_track s m in
  multitool_prove o s [fx] [gx] [mx] [mx].
Definition bag_eq_verify o (debug : bool) v (fx gx : bagc) : res (vtrk E) :=
  let '(one, v) := track_virtual_comm v one_fun in
  multitool_verify o debug v [fx] [gx] [one] [one].

(** ** bag_sum/bag_sum.rs 15-35 and 37-52 *)
Definition bag_sum_prove o s (f0 f1 gx : bag) : res (ptrk E) :=
  m0 <- one_mle (b_nv f0) ;;
  m1 <- one_mle (b_nv f1) ;;
  m2 <- one_mle (b_nv gx) ;;
  let '(a, s) := tp_track s m0 in
  let '(b, s) := tp_track s m1 in
  let '(c, s) := tp_track s m2 in
  multitool_prove o s [f0; f1] [gx] [a; b] [c].
Definition bag_sum_verify o (debug : bool) v (f0 f1 gx : bagc) : res (vtrk E) :=
  let '(one, v) := track_virtual_comm v one_fun in
  let '(_, v) := track_virtual_comm v one_fun in
  let '(_, v) := track_virtual_comm v one_fun in
  multitool_verify o debug v [f0; f1] [gx] [one; one] [one].

(** ** bag_inclusion *)
(** utils.rs 10-27, calc_bag_inclusion_advice_from_bag *)
Definition inclusion_advice s (inc sup : bag) : res (mle p * ptrk E) :=
  ' (a, s) <- tp_evaluations s (b_poly inc) ;;
  a <- from_evaluations (b_nv inc) a ;;
  ' (b, s) <- tp_evaluations s (b_sel inc) ;;
  b <- from_evaluations (b_nv inc) b ;;
  ' (c, s) <- tp_evaluations s (b_poly sup) ;;
  c <- from_evaluations (b_nv sup) c ;;
  ' (d, s) <- tp_evaluations s (b_sel sup) ;;
  d <- from_evaluations (b_nv sup) d ;;
  m <- inclusion_advice_mle a b c d ;;
  Ok (m, s).
(** bag_inclusion.rs 27-45 *)
Definition inclusion_prove_with_advice o s (inc sup : bag) (m : tpoly) : res (ptrk E) :=
  c <- one_mle (b_nv inc) ;;
  let '(one, s) := tp_track s c in
  multitool_prove o s [inc] [sup] [one] [m].
(** bag_inclusion.rs 17-25 *)
Definition inclusion_prove o s (inc sup : bag) : res (ptrk E) :=
  ' (m, s) <- inclusion_advice s inc sup ;;
  ' (m, s) <- tp_commit s m ;;
  inclusion_prove_with_advice o s inc sup m.
(** bag_inclusion.rs 57-71 *)
Definition inclusion_verify_with_advice o (debug : bool) v (inc sup : bagc) (m : nat) : res (vtrk E) :=
  let '(one, v) := track_virtual_comm v one_fun in
  multitool_verify o debug v [inc] [sup] [one] [m].
(** bag_inclusion.rs 47-55 *)
Definition inclusion_verify o (debug : bool) v (inc sup : bagc) : res (vtrk E) :=
  ' (m, v) <- v_transfer debug v ;;
  inclusion_verify_with_advice o debug v inc sup m.

(** ** bag_presc_perm/bag_presc_perm.rs *)
(** 38-40: the vector (0, 1, 2, ..). *)
Definition ordered_evals (n : nat) : list (F p) := map ofN (seq 0 (2 ^ n)).
(** 47-48: the vectors s + gamma * f. *)
Definition hat_evals (n : nat) (g : F p) (a f : list (F p)) : res (list (F p)) :=
  mapM (fun i => x <- rnth a i ;; y <- rnth f i ;; Ok (Fadd x (Fmul g y))) (seq 0 (2 ^ n)).
(** 16-71, prove *)
Definition presc_perm_prove o (debug : bool) s (fx gx : bag) (perm : tpoly) : res (ptrk E) :=
  _ <- ensure (b_nv fx =? b_nv gx) IOPInvalidParameters ;;
  _ <- ensure (b_nv fx =? tp_nv perm) IOPInvalidParameters ;;
  let n := b_nv fx in
  ' (g, s) <- pt_challenge o "gamma" s ;;
  onem <- one_mle n ;;
  ordm <- from_evaluations n (ordered_evals n) ;;
  ' (fl, s) <- tp_evaluations s (b_poly fx) ;;
  ' (gl, s) <- tp_evaluations s (b_poly gx) ;;
  ' (pl, s) <- tp_evaluations s perm ;;
  fh <- hat_evals (b_nv fx) g (evs ordm) fl ;;
  gh <- hat_evals (b_nv gx) g pl gl ;;
  fhm <- from_evaluations (b_nv fx) fh ;;
  ghm <- from_evaluations (b_nv gx) gh ;;
  let '(one, s) := tp_track s onem in
  let '(ord, s) := tp_track s ordm in
  ' (fh, s) <- tp_commit s fhm ;;
  ' (gh, s) <- tp_commit s ghm ;;
  fb <- bag_new debug fh one ;;
  gb <- bag_new debug gh one ;;
  ' (a, s) <- tp_mul_scalar s (b_poly fx) g ;;
  ' (a, s) <- tp_add s ord a ;;
  ' (a, s) <- tp_sub s a (b_poly fb) ;;
  ' (c, s) <- tp_mul_scalar s (b_poly gx) g ;;
  ' (c, s) <- tp_add s perm c ;;
  ' (c, s) <- tp_sub s c (b_poly gb) ;;
  s <- bag_eq_prove o s fb gb ;;
  Ok (add_zerocheck_claim (add_zerocheck_claim s (tp_id a)) (tp_id c)).
(** 85-92: the closure summing the coordinates with weights 1, 2, 4, ..; on a
    point of any length. *)
Definition ordered_fun (x : list (F p)) : res (F p) :=
  Ok (fold_left (fun acc ix => Fadd acc (Fmul (snd ix) (ofN (2 ^ fst ix)))) (combine (seq 0 (length x)) x) F0).
(** 73-110, verify *)
Definition presc_perm_verify o (debug : bool) v (fx gx : bagc) (perm : nat) : res (vtrk E) :=
  ' (g, v) <- vt_challenge o "gamma" v ;;
  let '(one, v) := track_virtual_comm v one_fun in
  let '(ord, v) := track_virtual_comm v ordered_fun in
  ' (fh, v) <- v_transfer debug v ;;
  ' (gh, v) <- v_transfer debug v ;;
  let '(a, v) := v_mul_scalar v (bc_poly fx) g in
  let '(a, v) := add_comms v ord a in
  let '(a, v) := sub_comms v a fh in
  let '(c, v) := v_mul_scalar v (bc_poly gx) g in
  let '(c, v) := add_comms v perm c in
  let '(c, v) := sub_comms v c gh in
  v <- bag_eq_verify o debug v (mkBagc fh one (bc_nv fx)) (mkBagc gh one (bc_nv gx)) ;;
  Ok (v_add_zerocheck_claim (v_add_zerocheck_claim v a) c).

(** ** bag_sort/bag_sort.rs *)
(** 45-47 and 120-122: the vector (1, 2, .., len-1, 0). *)
Definition shift_perm_evals (len : nat) : list (F p) := map ofN (seq 1 (len - 1)) ++ [F0].
(** 49-51: rotation by one; [sorted_poly_evals[1..]] panics on an empty vector. *)
Definition rotate1 (l : list (F p)) : res (list (F p)) :=
  x <- rnth l 0 ;; r <- slice_from l 1 ;; Ok (r ++ [x]).
(** 60-61: ones with a last zero; [v[len - 1] = ..] panics on an empty vector. *)
Definition diff_sel_evals (len : nat) : res (list (F p)) := rupd (ones len) (len - 1) F0.
(** 62-64 *)
Definition diff_evals (sel q l : list (F p)) : res (list (F p)) :=
  mapM (fun i => a <- rnth sel i ;; b <- rnth q i ;; c <- rnth l i ;;
                 Ok (Fadd (Fmul a (Fsub b c)) (Fsub F1 a))) (seq 0 (length l)).
(** 26-107, prove *)
Definition strict_sort_prove o (debug : bool) s (sorted range : bag) : res (ptrk E) :=
  ' (l, s) <- tp_evaluations s (b_poly sorted) ;;
  let n := b_nv sorted in
  let len := length l in
  let rn := tp_nv (b_poly range) in
  q <- rotate1 l ;;
  ds <- diff_sel_evals len ;;
  de <- diff_evals ds q l ;;
  dsm <- from_evaluations n ds ;;
  onem <- from_evaluations n (ones len) ;;
  spm <- from_evaluations n (shift_perm_evals len) ;;
  qm <- from_evaluations n q ;;
  let '(one, s) := tp_track s onem in
  let '(sp, s) := tp_track s spm in
  ' (qp, s) <- tp_commit s qm ;;
  qb <- bag_new debug qp one ;;
  s <- presc_perm_prove o debug s sorted qb sp ;;
  let '(dsel, s) := tp_track s dsm in
  ' (d, s) <- tp_sub s qp (b_poly sorted) ;;
  ' (d, s) <- tp_mul s dsel d ;;
  ' (d, s) <- tp_add_scalar s d F1 ;;
  ' (d, s) <- tp_sub s d dsel ;;
  s <- (if debug then ' (dl, s) <- tp_evaluations s d ;; _ <- rassert (feql dl de) ;; Ok s else Ok s) ;;
  db <- bag_new debug d dsel ;;
  rsm <- one_mle rn ;;
  let '(rs, s) := tp_track s rsm in
  rb <- bag_new debug (b_poly range) rs ;;
  s <- inclusion_prove o s db rb ;;
  nb <- bag_new debug d (b_sel sorted) ;;
  no_zeros_prove s nb.
(** 124, 129: a closure evaluating a fixed table; [evaluate(pt).unwrap()] panics
    when the point has another length than the table has variables. *)
Definition mle_fun (m : mle p) (x : list (F p)) : res (F p) := e <- ark_evaluate m x ;; ounwrap e.
(** 109-170, verify *)
Definition strict_sort_verify o (debug : bool) v (sorted range : bagc) : res (vtrk E) :=
  let n := bc_nv sorted in
  let len := 2 ^ n in
  spm <- from_evaluations n (shift_perm_evals len) ;;
  ds <- diff_sel_evals len ;;
  dsm <- from_evaluations n ds ;;
  let '(one, v) := track_virtual_comm v one_fun in
  let '(sp, v) := track_virtual_comm v (mle_fun spm) in
  ' (q, v) <- v_transfer debug v ;;
  v <- presc_perm_verify o debug v sorted (mkBagc q one n) sp ;;
  let '(dsel, v) := track_virtual_comm v (mle_fun dsm) in
  let '(d, v) := sub_comms v q (bc_poly sorted) in
  let '(d, v) := mul_comms v dsel d in
  let '(d, v) := v_add_scalar v d F1 in
  let '(d, v) := sub_comms v d dsel in
  let '(rs, v) := track_virtual_comm v one_fun in
  v <- inclusion_verify o debug v (mkBagc d dsel n) (mkBagc (bc_poly range) rs (bc_nv range)) ;;
  no_zeros_verify debug v (mkBagc d (bc_sel sorted) n).

(** ** bag_supp *)
(** utils.rs 7-68 on a tracked bag *)
Definition supp_advice_bag s (b : bag) : res ((mle p * mle p * mle p) * ptrk E) :=
  ' (l, s) <- tp_evaluations s (b_poly b) ;;
  ' (sl, s) <- tp_evaluations s (b_sel b) ;;
  r <- supp_advice (b_nv b) l sl ;;
  Ok (r, s).
(** bag_supp.rs 40-74 *)
Definition supp_prove_with_advice o (debug : bool) s (b sup : bag) (m : tpoly) (range : bag) : res (ptrk E) :=
  s <- inclusion_prove_with_advice o s b sup m ;;
  nb <- bag_new debug m (b_sel sup) ;;
  s <- no_zeros_prove s nb ;;
  strict_sort_prove o debug s sup range.
(** bag_supp.rs 19-38 *)
Definition supp_prove o (debug : bool) s (b sup range : bag) : res (ptrk E) :=
  ' (m, s) <- inclusion_advice s b sup ;;
  ' (m, s) <- tp_commit s m ;;
  supp_prove_with_advice o debug s b sup m range.
(** bag_supp.rs 97-127 *)
Definition supp_verify_with_advice o (debug : bool) v (b sup : bagc) (m : nat) (range : bagc) : res (vtrk E) :=
  v <- inclusion_verify_with_advice o debug v b sup m ;;
  v <- no_zeros_verify debug v (mkBagc m (bc_sel sup) (bc_nv sup)) ;;
  strict_sort_verify o debug v sup range.
(** bag_supp.rs 76-95 *)
Definition supp_verify o (debug : bool) v (b sup range : bagc) : res (vtrk E) :=
  ' (m, v) <- v_transfer debug v ;;
  supp_verify_with_advice o debug v b sup m range.

(** ** bag_disjoint *)
(** utils.rs 14-66 on tracked bags; bag_multiplicity_count evaluates value then
    selector of a, then of b (util/multiplicity_count.rs 34-44). *)
Definition disjoint_advice_bag s (a b : bag) : res ((mle p * mle p * mle p * mle p) * ptrk E) :=
  ' (ap, s) <- tp_evaluations s (b_poly a) ;;
  ' (asl, s) <- tp_evaluations s (b_sel a) ;;
  ' (bp, s) <- tp_evaluations s (b_poly b) ;;
  ' (bsl, s) <- tp_evaluations s (b_sel b) ;;
  r <- disjoint_advice (b_nv a) (b_nv b) ap asl bp bsl ;;
  Ok (r, s).
(** bag_disjoint.rs 46-84 *)
Definition bag_disjoint_prove_with_advice o (debug : bool) s (a b c : bag) (ma mb : tpoly) (range : bag) : res (ptrk E) :=
  s <- strict_sort_prove o debug s c range ;;
  ' (m, s) <- tp_mul s ma mb ;;
  let s := add_zerocheck_claim s (tp_id m) in
  s <- inclusion_prove_with_advice o s a c ma ;;
  inclusion_prove_with_advice o s b c mb.
(** bag_disjoint.rs 20-44 *)
Definition bag_disjoint_prove o (debug : bool) s (a b range : bag) : res (ptrk E) :=
  ' (adv, s) <- disjoint_advice_bag s a b ;;
  let '(sm, ssm, mam, mbm) := adv in
  ' (cp, s) <- tp_commit s sm ;;
  ' (cs, s) <- tp_commit s ssm ;;
  c <- bag_new debug cp cs ;;
  ' (ma, s) <- tp_commit s mam ;;
  ' (mb, s) <- tp_commit s mbm ;;
  bag_disjoint_prove_with_advice o debug s a b c ma mb range.
(** bag_disjoint.rs 117-155 *)
Definition bag_disjoint_verify_with_advice o (debug : bool) v (a b c : bagc) (ma mb : nat) (range : bagc) : res (vtrk E) :=
  v <- strict_sort_verify o debug v c range ;;
  let '(m, v) := mul_comms v ma mb in
  let v := v_add_zerocheck_claim v m in
  v <- inclusion_verify_with_advice o debug v a c ma ;;
  inclusion_verify_with_advice o debug v b c mb.
(** bag_disjoint.rs 86-115 *)
Definition bag_disjoint_verify o (debug : bool) v (a b range : bagc) : res (vtrk E) :=
  let n := Nat.max (bc_nv a) (bc_nv b) + 1 in
  ' (cp, v) <- v_transfer debug v ;;
  ' (cs, v) <- v_transfer debug v ;;
  ' (ma, v) <- v_transfer debug v ;;
  ' (mb, v) <- v_transfer debug v ;;
  bag_disjoint_verify_with_advice o debug v a b (mkBagc cp cs n) ma mb range.

(** ** set_disjoint/set_disjoint.rs 23-75 and 77-99 *)
Definition set_disjoint_prove o (debug : bool) s (a b range : bag) : res (ptrk E) :=
  ' (ap, s) <- tp_evaluations s (b_poly a) ;;
  ' (bp, s) <- tp_evaluations s (b_poly b) ;;
  ' (asl, s) <- tp_evaluations s (b_sel a) ;;
  ' (bsl, s) <- tp_evaluations s (b_sel b) ;;
  ' (sm, ssm) <- set_disjoint_sum (b_nv a) (b_nv b) ap bp asl bsl ;;
  ' (cp, s) <- tp_commit s sm ;;
  ' (cs, s) <- tp_commit s ssm ;;
  c <- bag_new debug cp cs ;;
  s <- bag_sum_prove o s a b c ;;
  strict_sort_prove o debug s c range.
Definition set_disjoint_verify o (debug : bool) v (a b range : bagc) : res (vtrk E) :=
  let n := Nat.max (bc_nv a) (bc_nv b) + 1 in
  ' (cp, v) <- v_transfer debug v ;;
  ' (cs, v) <- v_transfer debug v ;;
  let c := mkBagc cp cs n in
  v <- bag_sum_verify o debug v a b c ;;
  strict_sort_verify o debug v c range.

(** ** set_union/set_union.rs 24-67 and 69-99 *)
Definition set_union_prove o (debug : bool) s (a b un range : bag) : res (ptrk E) :=
  ' (ap, s) <- tp_evaluations s (b_poly a) ;;
  ' (bp, s) <- tp_evaluations s (b_poly b) ;;
  ' (asl, s) <- tp_evaluations s (b_sel a) ;;
  ' (bsl, s) <- tp_evaluations s (b_sel b) ;;
  ' (sm, ssm) <- set_union_sum (b_nv a) (b_nv b) ap bp asl bsl ;;
  ' (cp, s) <- tp_commit s sm ;;
  ' (cs, s) <- tp_commit s ssm ;;
  c <- bag_new debug cp cs ;;
  s <- bag_sum_prove o s a b c ;;
  supp_prove o debug s c un range.
Definition set_union_verify o (debug : bool) v (a b un range : bagc) : res (vtrk E) :=
  let n := Nat.max (bc_nv a) (bc_nv b) + 1 in
  ' (cp, v) <- v_transfer debug v ;;
  ' (cs, v) <- v_transfer debug v ;;
  let c := mkBagc cp cs n in
  v <- bag_sum_verify o debug v a b c ;;
  supp_verify o debug v c un range.

(** ** set_diff/set_diff.rs 20-55 and 57-92 *)
Definition set_diff_prove o (debug : bool) s (a b l m : bag) (bm : tpoly) (range : bag) : res (ptrk E) :=
  s <- set_disjoint_prove o debug s l b range ;;
  s <- bag_sum_prove o s l m a ;;
  inclusion_prove_with_advice o s m b bm.
Definition set_diff_verify o (debug : bool) v (a b l m : bagc) (bm : nat) (range : bagc) : res (vtrk E) :=
  v <- set_disjoint_verify o debug v l b range ;;
  v <- bag_sum_verify o debug v l m a ;;
  inclusion_verify_with_advice o debug v m b bm.

(** ** set_intersect/set_intersect.rs 20-55 and 57-92 *)
Definition set_intersect_prove o (debug : bool) s (a b l m r range : bag) : res (ptrk E) :=
  s <- bag_sum_prove o s l m a ;;
  s <- bag_sum_prove o s m r b ;;
  set_disjoint_prove o debug s l r range.
Definition set_intersect_verify o (debug : bool) v (a b l m r range : bagc) : res (vtrk E) :=
  v <- bag_sum_verify o debug v l m a ;;
  v <- bag_sum_verify o debug v m r b ;;
  set_disjoint_verify o debug v l r range.

(** ** cross_product *)
(** A tracker call on every column in turn. *)
Fixpoint each_col {A} (f : ptrk E -> A -> res (tpoly * ptrk E)) s (l : list A) : res (list tpoly * ptrk E) :=
  match l with
  | [] => Ok ([], s)
  | c :: r => ' (h, s) <- f s c ;; ' (hs, s) <- each_col f s r ;; Ok (h :: hs, s)
  end.
Fixpoint each_comm (f : vtrk E -> nat -> nat * vtrk E) v (l : list nat) : list nat * vtrk E :=
  match l with
  | [] => ([], v)
  | c :: r => let '(h, v) := f v c in let '(hs, v) := each_comm f v r in (h :: hs, v)
  end.
(** cross_product.rs 22-51, prover_cross_product *)
Definition cross_prove (debug : bool) s (a b : table) : res (table * ptrk E) :=
  ' (ca, s) <- each_col (fun s c => tp_front s c (t_nv b)) s (t_cols a) ;;
  ' (cb, s) <- each_col (fun s c => tp_back s c (t_nv a)) s (t_cols b) ;;
  ' (sa, s) <- tp_front s (t_sel a) (t_nv b) ;;
  ' (sb, s) <- tp_back s (t_sel b) (t_nv a) ;;
  ' (sel, s) <- tp_mul s sa sb ;;
  t <- table_new debug (ca ++ cb) sel ;;
  Ok (t, s).
(** cross_product.rs 53-81, verifier_cross_product *)
Definition cross_verify v (a b : tablec) : tablec * vtrk E :=
  let '(ca, v) := each_comm (fun v c => v_increase_nv_front v c (tc_nv b)) v (tc_cols a) in
  let '(cb, v) := each_comm (fun v c => v_increase_nv_back v c (tc_nv a)) v (tc_cols b) in
  let '(sa, v) := v_increase_nv_front v (tc_sel a) (tc_nv b) in
  let '(sb, v) := v_increase_nv_back v (tc_sel b) (tc_nv a) in
  let '(sel, v) := mul_comms v sa sb in
  (mkTablec (ca ++ cb) sel (tc_nv a + tc_nv b), v).
(** cross_product/utils.rs 7-27, front_alias_tracked_poly *)
Definition front_alias s (a : tpoly) (k : nat) : res (tpoly * ptrk E) :=
  ' (l, s) <- tp_evaluations s a ;;
  m <- from_evaluations (tp_nv a + k) (flat_map (fun x => repeat x (2 ^ k)) l) ;;
  Ok (tp_track s m).
(** cross_product/utils.rs 29-49, back_alias_tracked_poly *)
Definition back_alias s (a : tpoly) (k : nat) : res (tpoly * ptrk E) :=
  ' (l, s) <- tp_evaluations s a ;;
  m <- from_evaluations (tp_nv a + k) (concat (repeat l (2 ^ k))) ;;
  Ok (tp_track s m).

(** ** index_transform *)
(** utils.rs 10-25, table_row_prover_agg *)
Fixpoint agg_cols s (acc : tpoly) (cols : list tpoly) (rs : list (F p)) : res (tpoly * ptrk E) :=
  match cols with
  | [] => Ok (acc, s)
  | c :: cr =>
      match rs with
      | [] => Panic
      | r :: rr =>
          ' (x, s) <- tp_mul_scalar s c r ;;
          ' (acc, s) <- tp_mul s acc x ;;
          agg_cols s acc cr rr
      end
  end.
Definition row_agg_prove (debug : bool) s (t : table) (rs : list (F p)) : res (bag * ptrk E) :=
  ' (a, s) <- agg_cols s (t_sel t) (t_cols t) rs ;;
  b <- bag_new debug a (t_sel t) ;;
  Ok (b, s).
(** utils.rs 30-45, table_row_verifier_agg *)
Fixpoint agg_comms v (acc : nat) (cols : list nat) (rs : list (F p)) : res (nat * vtrk E) :=
  match cols with
  | [] => Ok (acc, v)
  | c :: cr =>
      match rs with
      | [] => Panic
      | r :: rr =>
          let '(x, v) := v_mul_scalar v c r in
          let '(acc, v) := mul_comms v acc x in
          agg_comms v acc cr rr
      end
  end.
Definition row_agg_verify v (t : tablec) (rs : list (F p)) : res (bagc * vtrk E) :=
  ' (a, v) <- agg_comms v (tc_sel t) (tc_cols t) rs ;;
  Ok (mkBagc a (tc_sel t) (tc_nv t), v).
(** utils.rs 54-67 and 69-82: one challenge per number. *)
Fixpoint sample_rands_prove o (n : nat) s : res (list (F p) * ptrk E) :=
  match n with
  | O => Ok ([], s)
  | S k => ' (r, s) <- pt_challenge o "r" s ;; ' (rs, s) <- sample_rands_prove o k s ;; Ok (r :: rs, s)
  end.
Fixpoint sample_rands_verify o (n : nat) v : res (list (F p) * vtrk E) :=
  match n with
  | O => Ok ([], v)
  | S k => ' (r, v) <- vt_challenge o "r" v ;; ' (rs, v) <- sample_rands_verify o k v ;; Ok (r :: rs, v)
  end.
(** utils.rs 84-99 and 101-116: the powers of one challenge. *)
Definition powers (r : F p) (n : nat) : list (F p) := map (fun i => Fpow r i) (seq 0 n).
Definition rand_powers_prove o (n : nat) s : res (list (F p) * ptrk E) :=
  ' (r, s) <- pt_challenge o "r" s ;; Ok (powers r n, s).
Definition rand_powers_verify o (n : nat) v : res (list (F p) * vtrk E) :=
  ' (r, v) <- vt_challenge o "r" v ;; Ok (powers r n, v).
(** index_transform.rs 21-36 and 38-54 *)
Definition index_transform_prove o (debug : bool) s (tin tout : table) : res (ptrk E) :=
  ' (rs, s) <- rand_powers_prove o (length (t_cols tin)) s ;;
  ' (bi, s) <- row_agg_prove debug s tin rs ;;
  ' (bo, s) <- row_agg_prove debug s tout rs ;;
  inclusion_prove o s bo bi.
Definition index_transform_verify o (debug : bool) v (tin tout : tablec) : res (vtrk E) :=
  ' (rs, v) <- rand_powers_verify o (length (tc_cols tin)) v ;;
  ' (bi, v) <- row_agg_verify v tin rs ;;
  ' (bo, v) <- row_agg_verify v tout rs ;;
  inclusion_verify o debug v bo bi.

(** ** join_reduction/join_reduction.rs 20-82 and 84-147 *)
Definition one_minus_prove s (a : tpoly) : res (tpoly * ptrk E) :=
  ' (x, s) <- tp_mul_scalar s a (Fopp F1) ;; tp_add_scalar s x F1.
Definition join_reduction_prove o (debug : bool) s (a b : bag) (ls rs : tpoly) (range : bag) : res (ptrk E) :=
  ' (mas, s) <- one_minus_prove s ls ;;
  ' (mbs, s) <- one_minus_prove s rs ;;
  ' (x, s) <- tp_mul s (b_sel a) ls ;;
  lb <- bag_new debug (b_poly a) x ;;
  ' (x, s) <- tp_mul s (b_sel b) rs ;;
  rb <- bag_new debug (b_poly b) x ;;
  ' (x, s) <- tp_mul s (b_sel a) mas ;;
  mab <- bag_new debug (b_poly a) x ;;
  ' (x, s) <- tp_mul s (b_sel b) mbs ;;
  mbb <- bag_new debug (b_poly b) x ;;
  s <- selector_valid_prove s ls ;;
  s <- selector_valid_prove s rs ;;
  s <- bag_disjoint_prove o debug s lb rb range ;;
  s <- bag_disjoint_prove o debug s lb mab range ;;
  s <- bag_disjoint_prove o debug s rb mbb range ;;
  s <- inclusion_prove o s mab mbb ;;
  inclusion_prove o s mbb mab.
Definition one_minus_verify v (a : nat) : nat * vtrk E :=
  let '(x, v) := v_mul_scalar v a (Fopp F1) in v_add_scalar v x F1.
Definition join_reduction_verify o (debug : bool) v (a b : bagc) (ls rs : nat) (range : bagc) : res (vtrk E) :=
  let '(mas, v) := one_minus_verify v ls in
  let '(mbs, v) := one_minus_verify v rs in
  let '(x, v) := mul_comms v (bc_sel a) ls in
  let lb := mkBagc (bc_poly a) x (bc_nv a) in
  let '(x, v) := mul_comms v (bc_sel b) rs in
  let rb := mkBagc (bc_poly b) x (bc_nv b) in
  let '(x, v) := mul_comms v (bc_sel a) mas in
  let mab := mkBagc (bc_poly a) x (bc_nv a) in
  let '(x, v) := mul_comms v (bc_sel b) mbs in
  let mbb := mkBagc (bc_poly b) x (bc_nv b) in
  v <- selector_valid_verify v ls ;;
  v <- selector_valid_verify v rs ;;
  v <- bag_disjoint_verify o debug v lb rb range ;;
  v <- bag_disjoint_verify o debug v lb mab range ;;
  v <- bag_disjoint_verify o debug v rb mbb range ;;
  v <- inclusion_verify o debug v mab mbb ;;
  inclusion_verify o debug v mbb mab.

(** ** final_join_one_to_many *)
(** final_join_one_to_many.rs 63-78: the debug check that the key column has no
    duplicates, over all rows. *)
Fixpoint has_dup (l : list (F p)) : bool :=
  match l with [] => false | x :: r => existsb (Feqb x) r || has_dup r end.
(** final_join_one_to_many.rs 55-101, prove_with_advice *)
Definition final_join_prove_with_advice o (debug : bool) s (a b : table) (ai bi : nat) (ta : list tpoly) : res (table * ptrk E) :=
  s <- (if debug then
          c <- rnth (t_cols a) ai ;;
          ' (l, s) <- tp_evaluations s c ;;
          _ <- ensure (negb (has_dup l)) IOPInvalidParameters ;; Ok s
        else Ok s) ;;
  res <- table_new debug (ta ++ t_cols b) (t_sel b) ;;
  tc <- slice_to (t_cols res) (length (t_cols a)) ;;
  tt' <- table_new debug tc (t_sel res) ;;
  s <- index_transform_prove o debug s a tt' ;;
  ja <- rnth (t_cols res) ai ;;
  jb <- rnth (t_cols res) (length (t_cols a) + bi) ;;
  ' (d, s) <- tp_sub s ja jb ;;
  ' (d, s) <- tp_mul s d (t_sel res) ;;
  Ok (res, add_zerocheck_claim s (tp_id d)).
(** final_join_one_to_many.rs 20-53, prove, with the advice of utils.rs 13-85 *)
Definition final_join_prove o (debug : bool) s (a b : table) (ai bi : nat) : res (table * ptrk E) :=
  ca <- rnth (t_cols a) ai ;;
  ' (av, s) <- tp_evaluations s ca ;;
  ' (asl, s) <- tp_evaluations s (t_sel a) ;;
  m <- row_index av asl ;;
  cb <- rnth (t_cols b) bi ;;
  ' (bv, s) <- tp_evaluations s cb ;;
  ' (bsl, s) <- tp_evaluations s (t_sel b) ;;
  tr <- foldM (transform_step m bv bsl) [] (seq 0 (length bv)) ;;
  ' (ms, s) <- foldM (fun ms c =>
        ' (old, s) <- tp_evaluations (snd ms) c ;;
        ' (act, s) <- tp_evaluations s (t_sel b) ;;
        x <- index_transformed debug tr old act (tp_nv (t_sel b)) ;;
        Ok (fst ms ++ [x], s)) ([], s) (t_cols a) ;;
  ' (ta, s) <- each_col (fun s x => tp_commit s x) s ms ;;
  final_join_prove_with_advice o debug s a b ai bi ta.
(** final_join_one_to_many.rs 130-159, verify_with_advice *)
Definition final_join_verify_with_advice o (debug : bool) v (a b : tablec) (ai bi : nat) (ta : list nat) : res (tablec * vtrk E) :=
  let res := mkTablec (ta ++ tc_cols b) (tc_sel b) (tc_nv b) in
  tc <- slice_to (tc_cols res) (length (tc_cols a)) ;;
  v <- index_transform_verify o debug v a (mkTablec tc (tc_sel res) (tc_nv res)) ;;
  ja <- rnth (tc_cols res) ai ;;
  jb <- rnth (tc_cols res) (length (tc_cols a) + bi) ;;
  let '(d, v) := sub_comms v ja jb in
  let '(d, v) := mul_comms v d (tc_sel res) in
  Ok (res, v_add_zerocheck_claim v d).
(** final_join_one_to_many.rs 103-128, verify *)
Fixpoint transfer_all (debug : bool) v (n : nat) : res (list nat * vtrk E) :=
  match n with
  | O => Ok ([], v)
  | S k => ' (c, v) <- v_transfer debug v ;; ' (cs, v) <- transfer_all debug v k ;; Ok (c :: cs, v)
  end.
Definition final_join_verify o (debug : bool) v (a b : tablec) (ai bi : nat) : res (tablec * vtrk E) :=
  ' (ta, v) <- transfer_all debug v (length (tc_cols a)) ;;
  final_join_verify_with_advice o debug v a b ai bi ta.

(** ** group_by/group_by.rs *)
(** 19-31, AggregationType *)
Inductive agg : Type := AggCount | AggSum | AggAvg | AggMin | AggMax.
(** 39-46, GroupByInstructionWithProvingAdvice *)
Record gb_prove_instr : Type := mkGp {
  gp_cols : list nat; gp_supp : list tpoly; gp_sel : tpoly; gp_mult : tpoly;
  gp_agg : list (nat * agg * tpoly)
}.
(** 107-118: input validation; [grouping_cols[0]] panics when there is none. *)
Definition gb_check (cols : list nat) (idx : list nat) (ncols : nat) : res nat :=
  _ <- ensure (length cols <=? 1) IOPInvalidParameters ;;
  g <- rnth cols 0 ;;
  _ <- ensure (g <? ncols) IOPInvalidParameters ;;
  _ <- ensure (forallb (fun i => i <? ncols) idx) IOPInvalidParameters ;;
  Ok g.
(** 143-170: one aggregation instruction. *)
Definition gb_agg_prove o (t : table) (pre grp : bag) (mult : tpoly) (st : list tpoly * ptrk E) (i : nat * agg * tpoly) : res (list tpoly * ptrk E) :=
  let '(col, k, a) := i in
  match k with
  | AggCount => Ok (fst st ++ [mult], snd st)
  | AggSum =>
      c <- rnth (t_cols t) col ;;
      s <- multitool_prove o (snd st) [pre] [grp] [c] [a] ;;
      Ok (fst st, s)
  | AggAvg | AggMin | AggMax => Panic
  end.
(** 100-175, prove_with_advice *)
Definition group_by_prove o (debug : bool) s (t : table) (gi : gb_prove_instr) (range : bag) : res (table * ptrk E) :=
  g <- gb_check (gp_cols gi) (map (fun i => fst (fst i)) (gp_agg gi)) (length (t_cols t)) ;;
  sp <- rnth (gp_supp gi) 0 ;;
  gc <- rnth (t_cols t) g ;;
  pre <- bag_new debug gc (t_sel t) ;;
  grp <- bag_new debug sp (gp_sel gi) ;;
  s <- supp_prove_with_advice o debug s pre grp (gp_mult gi) range ;;
  r <- table_new debug [sp] (gp_sel gi) ;;
  ' (cols, s) <- foldM (gb_agg_prove o t pre grp (gp_mult gi)) (t_cols r, s) (gp_agg gi) ;;
  Ok (mkTable cols (t_sel r), s).
(** 48-55, GroupByInstructionWithVerifyingAdvice *)
Record gb_verify_instr : Type := mkGv {
  gv_cols : list nat; gv_supp : list nat; gv_sel : nat; gv_mult : nat;
  gv_agg : list (nat * agg * nat)
}.
Definition gb_agg_verify o (debug : bool) (t : tablec) (pre grp : bagc) (mult : nat) (st : list nat * vtrk E) (i : nat * agg * nat) : res (list nat * vtrk E) :=
  let '(col, k, a) := i in
  match k with
  | AggCount => Ok (fst st ++ [mult], snd st)
  | AggSum =>
      c <- rnth (tc_cols t) col ;;
      v <- multitool_verify o debug (snd st) [pre] [grp] [c] [a] ;;
      Ok (fst st, v)
  | AggAvg | AggMin | AggMax => Panic
  end.
(** 182-263, verify_with_advice; the result table takes the input table's number
    of variables (191).  177-180, verify, is todo!(). *)
Definition group_by_verify o (debug : bool) v (t : tablec) (gi : gb_verify_instr) (range : bagc) : res (tablec * vtrk E) :=
  let n := tc_nv t in
  g <- gb_check (gv_cols gi) (map (fun i => fst (fst i)) (gv_agg gi)) (length (tc_cols t)) ;;
  sp <- rnth (gv_supp gi) 0 ;;
  gc <- rnth (tc_cols t) g ;;
  let pre := mkBagc gc (tc_sel t) n in
  let grp := mkBagc sp (gv_sel gi) n in
  v <- supp_verify_with_advice o debug v pre grp (gv_mult gi) range ;;
  ' (cols, v) <- foldM (gb_agg_verify o debug t pre grp (gv_mult gi)) ([sp], v) (gv_agg gi) ;;
  Ok (mkTablec cols (gv_sel gi) n, v).

(** ** util/intermed_bag_calc.rs on tracked bags *)
(** Committing a value table and its selector, then Bag::new (115-118). *)
Definition commit_bag (debug : bool) s (m : mle p * mle p) : res (bag * ptrk E) :=
  ' (a, s) <- tp_commit s (fst m) ;;
  ' (b, s) <- tp_commit s (snd m) ;;
  x <- bag_new debug a b ;;
  Ok (x, s).
(** 13-123, bag_lmr_split *)
Definition bag_lmr_split (debug : bool) s (a b : bag) : res ((bag * bag * bag * bag) * ptrk E) :=
  ' (ap, s) <- tp_evaluations s (b_poly a) ;;
  ' (asl, s) <- tp_evaluations s (b_sel a) ;;
  ' (bp, s) <- tp_evaluations s (b_poly b) ;;
  ' (bsl, s) <- tp_evaluations s (b_sel b) ;;
  ' (l, ma, mb, r) <- lmr_split (b_nv a) (b_nv b) ap asl bp bsl ;;
  ' (l, s) <- commit_bag debug s l ;;
  ' (ma, s) <- commit_bag debug s ma ;;
  ' (mb, s) <- commit_bag debug s mb ;;
  ' (r, s) <- commit_bag debug s r ;;
  Ok ((l, ma, mb, r), s).
(** 125-145, set_lmr_split *)
Definition set_lmr_split (debug : bool) s (a b : bag) : res ((bag * bag * bag) * ptrk E) :=
  ' (q, s) <- bag_lmr_split debug s a b ;;
  let '(l, ma, mb, r) := q in
  Ok ((l, if b_nv a <? b_nv b then ma else mb, r), s).
(** 148-297, bag_lmr_multiplicity_split *)
Definition bag_lmr_multiplicity_split (debug : bool) s (a b : bag) : res ((bag * bag * bag * (tpoly * tpoly * tpoly * tpoly)) * ptrk E) :=
  ' (ap, s) <- tp_evaluations s (b_poly a) ;;
  ' (asl, s) <- tp_evaluations s (b_sel a) ;;
  ' (bp, s) <- tp_evaluations s (b_poly b) ;;
  ' (bsl, s) <- tp_evaluations s (b_sel b) ;;
  ' (l, m, r, ms) <- lmr_multiplicity_split (b_nv a) (b_nv b) ap asl bp bsl ;;
  let '(lm, am, bm, rm) := ms in
  ' (l, s) <- commit_bag debug s l ;;
  ' (m, s) <- commit_bag debug s m ;;
  ' (r, s) <- commit_bag debug s r ;;
  ' (lm, s) <- tp_commit s lm ;;
  ' (am, s) <- tp_commit s am ;;
  ' (bm, s) <- tp_commit s bm ;;
  ' (rm, s) <- tp_commit s rm ;;
  Ok ((l, m, r, (lm, am, bm, rm)), s).

End Iop.
