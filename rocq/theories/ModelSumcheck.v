(** Model of /repo/src/subroutines/poly_iop/{structs.rs, sum_check/, zero_check/}. *)
From Coq Require Import String List Arith Bool ZArith.
Import ListNotations.
From Verif Require Import Res Fp FSum ModelMle ModelVp ModelTranscript.
Local Open Scope string_scope.
Local Open Scope list_scope.
Local Open Scope nat_scope.

(** [a - b] on usize: underflow panics (debug build). *)
Definition usub (a b : nat) : res nat := if b <=? a then Ok (a - b) else Panic.

(** Field division: ark panics on a zero divisor. *)
Definition fdiv {p} (a b : F p) : res (F p) := if Feqb b F0 then Panic else Ok (a / b)%F.

(** structs.rs 18-21; a message (structs.rs 26-28) is its list of evaluations. *)
Record proof (p : positive) : Type := mkProof { pf_point : list (F p); pf_msgs : list (list (F p)) }.
Arguments mkProof {p} pf_point pf_msgs.
Arguments pf_point {p} _.
Arguments pf_msgs {p} _.

(** structs.rs 31-41 *)
Record pstate (p : positive) : Type := mkPstate {
  ps_chals : list (F p); ps_round : nat; ps_poly : vp p; ps_aux : list (list (F p) * list (F p)) }.
Arguments mkPstate {p} ps_chals ps_round ps_poly ps_aux.
Arguments ps_chals {p} _.
Arguments ps_round {p} _.
Arguments ps_poly {p} _.
Arguments ps_aux {p} _.

(** structs.rs 44-54 *)
Record vstate (p : positive) : Type := mkVstate {
  vs_round : nat; vs_nv : nat; vs_deg : nat; vs_finished : bool;
  vs_polys : list (list (F p)); vs_chals : list (F p) }.
Arguments mkVstate {p} vs_round vs_nv vs_deg vs_finished vs_polys vs_chals.
Arguments vs_round {p} _.
Arguments vs_nv {p} _.
Arguments vs_deg {p} _.
Arguments vs_finished {p} _.
Arguments vs_polys {p} _.
Arguments vs_chals {p} _.

(** ** Prover *)

(** [batch_inversion]: inverts the non-zero entries and leaves zeros (ark-ff). *)
Definition batch_inversion {p} (l : list (F p)) : list (F p) := map Finv l.

(** prover.rs 184-199; products of the differences with the other points. *)
Definition barycentric_weights {p} (points : list (F p)) : list (F p) :=
  batch_inversion (map (fun jp : nat * F p =>
    iprod (map (fun ip : nat * F p => (snd jp - snd ip)%F)
               (filter (fun ip : nat * F p => negb (fst ip =? fst jp)) (combine (seq 0 (length points)) points))))
    (combine (seq 0 (length points)) points)).

(** prover.rs 201-217 *)
Definition extrapolate {p} (points weights evals : list (F p)) (at_ : F p) : F p :=
  let coeffs := map (fun cw : F p * F p => (fst cw * snd cw)%F)
                    (combine (batch_inversion (map (fun pt => (at_ - pt)%F) points)) weights) in
  let sum_inv := Finv (isum coeffs) in
  (isum (map (fun ce : F p * F p => (fst ce * snd ce)%F) (combine coeffs evals)) * sum_inv)%F.

(** prover.rs 43-49: degrees 1 .. max_degree-1 *)
Definition extrapolation_aux {p} (max_deg : nat) : list (list (F p) * list (F p)) :=
  map (fun degree => let points := map ofN (seq 0 (1 + degree)) in (points, barycentric_weights points))
      (seq 1 (max_deg - 1)).

(** prover.rs 30-51 *)
Definition prover_init {p} (v : vp p) : res (pstate p) :=
  if num_variables v =? 0 then Err IOPInvalidParameters
  else Ok (mkPstate [] 0 v (extrapolation_aux (max_degree v))).

(** prover.rs 133-139: [buf] is overwritten at every position, so the previous content does not matter. *)
Definition round_buf {p} (fl : list (mle p)) (idx : list nat) (b : nat) : res (list (F p * F p)) :=
  mapM (fun f => table <- rnth fl f ;; lo <- rnth (evs table) (2 * b) ;; hi <- rnth (evs table) (2 * b + 1) ;;
                 Ok (lo, (hi - lo)%F)) idx.

(** prover.rs 141-144 *)
Fixpoint acc_steps {p} (buf : list (F p * F p)) (acc : list (F p)) : list (F p) :=
  match acc with
  | [] => []
  | a :: r => let buf' := map (fun es : F p * F p => ((fst es + snd es)%F, snd es)) buf in
              (a + iprod (map fst buf'))%F :: acc_steps buf' r
  end.

(** prover.rs 132-146: one index of the fold. *)
Definition round_step {p} (fl : list (mle p)) (idx : list nat) (acc : list (F p)) (b : nat) : res (list (F p)) :=
  buf <- round_buf fl idx b ;;
  match acc with
  | [] => Panic
  | a :: r => Ok ((a + iprod (map fst buf))%F :: acc_steps buf r)
  end.

(** prover.rs 151-156: [iter_mut().zip] *)
Fixpoint zip_add {p} (s q : list (F p)) : list (F p) :=
  match s, q with
  | a :: s', b :: q' => (a + b)%F :: zip_add s' q'
  | s, [] => s
  | [], _ => []
  end.

(** A way rayon may run [fold(..).map(..).reduce(..)] over an index range: a leaf folds its range
    from a fresh identity and is then reduced with the identity; a split at [m] reduces both halves. *)
Inductive sched : Type := SLeaf | SSplit (m : nat) (l r : sched).

(** prover.rs 124-157 on the range [lo, lo+len). *)
Fixpoint run_sched {p} (s : sched) (fl : list (mle p)) (idx : list nat) (lo len : nat) : res (list (F p)) :=
  match s with
  | SLeaf => part <- foldM (round_step fl idx) (repeat F0 (length idx + 1)) (seq lo len) ;;
             Ok (zip_add (repeat F0 (length idx + 1)) part)
  | SSplit m l r =>
      let m' := Nat.min m len in
      a <- run_sched l fl idx lo m' ;; b <- run_sched r fl idx (lo + m') (len - m') ;; Ok (zip_add a b)
  end.

(** prover.rs 123-170: one product. *)
Definition round_product {p} (s : sched) (aux : list (list (F p) * list (F p))) (fl : list (mle p))
  (len max_deg : nat) (sum_so_far : list (F p)) (cp : F p * list nat) : res (list (F p)) :=
  let idx := snd cp in
  raw <- run_sched s fl idx 0 len ;;
  let sum := map (fun x => (x * fst cp)%F) raw in
  extra <- usub max_deg (length idx) ;;
  ext <- mapM (fun i => k <- usub (length idx) 1 ;; ' (points, weights) <- rnth aux k ;;
                        Ok (extrapolate points weights sum (ofN (length idx + 1 + i)))) (seq 0 extra) ;;
  Ok (zip_add sum_so_far (sum ++ ext)).

(** the loop over the products with their positions *)
Fixpoint round_products {p} (sc : nat -> sched) (aux : list (list (F p) * list (F p))) (fl : list (mle p))
  (len max_deg : nat) (acc : list (F p)) (k : nat) (prods : list (F p * list nat)) : res (list (F p)) :=
  match prods with
  | [] => Ok acc
  | cp :: r => acc' <- round_product (sc k) aux fl len max_deg acc cp ;;
               round_products sc aux fl len max_deg acc' (S k) r
  end.

(** prover.rs 57-181. [sc k] is the schedule rayon uses for the k-th product. All error exits come before the
    state is changed. [Arc::new] of the new tables (173-176) keeps the old addresses here: nothing reads them. *)
Definition prove_round {p} (sc : nat -> sched) (st : pstate p) (chal : option (F p)) : res (pstate p * list (F p)) :=
  let v := ps_poly st in
  if num_variables v <=? ps_round st then Err IOPInvalidProver
  else
    ' (chals, fl) <-
      match chal with
      | Some c =>
          if ps_round st =? 0 then Err IOPInvalidProver
          else
            let chals := ps_chals st ++ [c] in
            r <- rnth chals (ps_round st - 1) ;;
            fl <- mapM (fun m : arc p => fix_variables (snd m) [r]) (flat v) ;;
            Ok (chals, fl)
      | None =>
          if negb (ps_round st =? 0) then Err IOPInvalidProver
          else Ok (ps_chals st, map snd (flat v))
      end ;;
    let round := ps_round st + 1 in
    msg <- round_products sc (ps_aux st) fl (2 ^ (num_variables v - round)) (max_degree v)
             (repeat F0 (max_degree v + 1)) 0 (products v) ;;
    Ok (mkPstate chals round
          (mkVp (max_degree v) (num_variables v) (products v) (combine (map fst (flat v)) fl) (lookup v))
          (ps_aux st), msg).

(** sum_check/mod.rs 165-171 *)
Fixpoint prove_loop {p C} (o : oracle p C) (sc : nat -> nat -> sched) (k i : nat) (st : pstate p)
  (chal : option (F p)) (msgs : list (list (F p))) (t : tr p C)
  : res (pstate p * option (F p) * list (list (F p)) * tr p C) :=
  match k with
  | O => Ok (st, chal, msgs, t)
  | S k' =>
      ' (st', msg) <- prove_round (sc i) st chal ;;
      ' (c, t') <- drawT o "Internal round" (append "prover msg" (PMsg msg) t) ;;
      prove_loop o sc k' (S i) st' (Some c) (msgs ++ [msg]) t'
  end.

(** sum_check/mod.rs 154-182 *)
Definition sc_prove {p C} (o : oracle p C) (sc : nat -> nat -> sched) (v : vp p) (t : tr p C) : res (proof p * tr p C) :=
  let t1 := append "aux info" (PAux (max_degree v) (num_variables v)) t in
  st <- prover_init v ;;
  ' (st', chal, msgs, t2) <- prove_loop o sc (num_variables v) 0 st None [] t1 ;;
  let chals := match chal with Some c => ps_chals st' ++ [c] | None => ps_chals st' end in
  Ok (mkProof chals msgs, t2).

(** sum_check/mod.rs 140-145 *)
Definition extract_sum {p} (pf : proof p) : res (F p) :=
  m <- rnth (pf_msgs pf) 0 ;; a <- rnth m 0 ;; b <- rnth m 1 ;; Ok (a + b)%F.

(** ** Interpolation *)

(** Machine integers are [Z] with a range check: overflow panics (debug build). *)
Definition i64_ok (z : Z) : bool := (- 2 ^ 63 <=? z)%Z && (z <? 2 ^ 63)%Z.
Definition u64_ok (z : Z) : bool := (0 <=? z)%Z && (z <? 2 ^ 64)%Z.
Definition i128_ok (z : Z) : bool := (- 2 ^ 127 <=? z)%Z && (z <? 2 ^ 127)%Z.
Definition u128_ok (z : Z) : bool := (0 <=? z)%Z && (z <? 2 ^ 128)%Z.
Definition cmul (ok : Z -> bool) (a b : Z) : res Z := if ok (a * b)%Z then Ok (a * b)%Z else Panic.

(** verifier.rs 301-317: the loop 2..=a in u64 or u128. *)
Definition int_factorial (ok : Z -> bool) (a : nat) : res Z :=
  foldM (fun r i => cmul ok r (Z.of_nat i)) 1%Z (seq 2 (a - 1)).

(** verifier.rs 291-297 *)
Definition field_factorial {p} (a : nat) : F p := fold_left (fun r i => (r * ofN i)%F) (seq 2 (a - 1)) F1.

(** verifier.rs 234-249 and 255-270: the loop over [i] from [k-1] down to 0, with signed type [iok] and
    unsigned type [uok]. *)
Fixpoint interp_int {p} (iok uok : Z -> bool) (pi evals : list (F p)) (prod last : F p) (len k : nat)
  (num den : Z) (r : F p) : res (F p) :=
  match k with
  | O => Ok r
  | S i =>
      let num_f := if (num <? 0)%Z then (- ofZ (- num))%F else ofZ num in
      y <- rnth pi i ;; e <- rnth evals i ;;
      q <- fdiv (y * prod * ofZ den)%F (last * num_f * e)%F ;;
      if i =? 0 then Ok (r + q)%F
      else
        num' <- cmul iok num (- (Z.of_nat len - Z.of_nat i)) ;;
        den' <- cmul uok den (Z.of_nat i) ;;
        interp_int iok uok pi evals prod last len i num' den' (r + q)%F
  end.

(** verifier.rs 275-283 *)
Fixpoint interp_field {p} (pi evals : list (F p)) (prod : F p) (len k : nat) (up down r : F p) : res (F p) :=
  match k with
  | O => Ok r
  | S i =>
      y <- rnth pi i ;; e <- rnth evals i ;;
      q <- fdiv (y * prod * down)%F (up * e)%F ;;
      if i =? 0 then Ok (r + q)%F
      else interp_field pi evals prod len i (up * - ofN (len - i))%F (down * ofN i)%F (r + q)%F
  end.

(** verifier.rs 189-287. An empty slice makes [len - 1] underflow. *)
Definition interpolate_uni_poly {p} (pi : list (F p)) (x : F p) : res (F p) :=
  let len := length pi in
  let evals := x :: map (fun e => (x - ofN e)%F) (seq 1 (len - 1)) in
  let prod := fold_left (fun r e => (r * e)%F) (map (fun e => (x - ofN e)%F) (seq 1 (len - 1))) x in
  n1 <- usub len 1 ;;
  if len <=? 20 then
    last <- int_factorial u64_ok n1 ;;
    interp_int i64_ok u64_ok pi evals prod (ofZ last) len len 1 1 F0
  else if len <=? 33 then
    last <- int_factorial u128_ok n1 ;;
    interp_int i128_ok u128_ok pi evals prod (ofZ last) len len 1 1 F0
  else interp_field pi evals prod len len (field_factorial n1) F1 F0.

(** ** Verifier *)

(** verifier.rs 30-42 *)
Definition verifier_init {p} (max_deg nvars : nat) : vstate p := mkVstate 1 nvars max_deg false [] [].

(** verifier.rs 50-87: on an error neither the state nor the transcript has changed. *)
Definition verify_round {p C} (o : oracle p C) (st : vstate p) (msg : list (F p)) (t : tr p C)
  : res (F p * vstate p * tr p C) :=
  if vs_finished st then Err IOPInvalidVerifier
  else
    ' (c, t') <- drawT o "Internal round" t ;;
    let fin := vs_round st =? vs_nv st in
    Ok (c, mkVstate (if fin then vs_round st else vs_round st + 1) (vs_nv st) (vs_deg st) fin
                    (vs_polys st ++ [msg]) (vs_chals st ++ [c]), t').

(** sum_check/mod.rs 123-130 *)
Record subclaim (p : positive) : Type := mkSub { sub_point : list (F p); sub_eval : F p }.
Arguments mkSub {p} sub_point sub_eval.
Arguments sub_point {p} _.
Arguments sub_eval {p} _.

(** verifier.rs 97-176. The parallel map (116-132) is run in order; when several entries fail rayon may
    report any of their errors, all of which are [InvalidVerifier], or propagate a panic. *)
Definition check_and_generate_subclaim {p} (st : vstate p) (asserted : F p) : res (subclaim p) :=
  _ <- ensure (vs_finished st) IOPInvalidVerifier ;;
  _ <- ensure (length (vs_polys st) =? vs_nv st) IOPInvalidVerifier ;;
  ev <- mapM (fun mc : list (F p) * F p =>
          _ <- ensure (length (fst mc) =? vs_deg st + 1) IOPInvalidVerifier ;;
          interpolate_uni_poly (fst mc) (snd mc)) (combine (vs_polys st) (vs_chals st)) ;;
  let expected := asserted :: ev in
  _ <- mapM (fun me : list (F p) * F p =>
          a <- rnth (fst me) 0 ;; b <- rnth (fst me) 1 ;;
          ensure (Feqb (a + b)%F (snd me)) IOPInvalidProof) (firstn (vs_nv st) (combine (vs_polys st) expected)) ;;
  e <- rnth expected (vs_nv st) ;;
  Ok (mkSub (vs_chals st) e).

(** sum_check/mod.rs 194-202 *)
Fixpoint verify_loop {p C} (o : oracle p C) (msgs : list (list (F p))) (k i : nat) (st : vstate p) (t : tr p C)
  : res (vstate p * tr p C) :=
  match k with
  | O => Ok (st, t)
  | S k' =>
      msg <- rnth msgs i ;;
      ' (_, st', t') <- verify_round o st msg (append "prover msg" (PMsg msg) t) ;;
      verify_loop o msgs k' (S i) st' t'
  end.

(** sum_check/mod.rs 184-208; the aux info is (max_degree, num_variables). *)
Definition sc_verify {p C} (o : oracle p C) (claimed : F p) (pf : proof p) (max_deg nvars : nat) (t : tr p C)
  : res (subclaim p * tr p C) :=
  let t1 := append "aux info" (PAux max_deg nvars) t in
  ' (st, t2) <- verify_loop o (pf_msgs pf) nvars 0 (verifier_init max_deg nvars) t1 ;;
  s <- check_and_generate_subclaim st claimed ;;
  Ok (s, t2).

(** ** Zero check *)

(** zero_check/mod.rs 23-30 *)
Record zsubclaim (p : positive) : Type := mkZsub { z_point : list (F p); z_eval : F p; z_init : list (F p) }.
Arguments mkZsub {p} z_point z_eval z_init.
Arguments z_point {p} _.
Arguments z_eval {p} _.
Arguments z_init {p} _.

(** zero_check/mod.rs 69-82; [a] is the address of the Arc made by build_f_hat. *)
Definition zc_prove {p C} (o : oracle p C) (sc : nat -> nat -> sched) (v : vp p) (a : nat) (t : tr p C)
  : res (proof p * tr p C) :=
  ' (r, t1) <- draw_vecT o "0check r" (num_variables v) t ;;
  f <- build_f_hat v r a ;;
  sc_prove o sc f t1.

(** zero_check/mod.rs 84-120 *)
Definition zc_verify {p C} (o : oracle p C) (pf : proof p) (max_deg nvars : nat) (t : tr p C)
  : res (zsubclaim p * tr p C) :=
  s <- extract_sum pf ;;
  _ <- ensure (Feqb s F0) IOPInvalidProof ;;
  ' (r, t1) <- draw_vecT o "0check r" nvars t ;;
  ' (sub, t2) <- sc_verify o F0 pf (max_deg + 1) nvars t1 ;;
  e <- eq_eval (sub_point sub) r ;;
  q <- fdiv (sub_eval sub) e ;;
  Ok (mkZsub (sub_point sub) q r, t2).
