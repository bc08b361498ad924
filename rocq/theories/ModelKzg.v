(** Model of /repo/src/subroutines/pcs/multilinear_kzg/{srs.rs, mod.rs}. *)
From Coq Require Import List Arith Bool ZArith.
Import ListNotations.
From Verif Require Import Res Fp FSum ModelMle Pairing.

(** [msm_unchecked] (ark-ec): the sum of scalar multiples, over the shorter of the two slices. *)
Definition msm {p} {G : grp p} (bases : list (gcar G)) (scalars : list (F p)) : gcar G :=
  fold_right gadd gzero (map (fun bs : gcar G * F p => gmul (snd bs) (fst bs)) (combine bases scalars)).

(** [a - b] in a group. *)
Definition gsub {p} {G : grp p} (a b : gcar G) : gcar G := gadd a (gopp b).

(** srs.rs 40-52; [Evaluations] (24-28) is a list of group elements. *)
Record pparam {p} (E : pairing p) : Type := mkPp {
  pp_nv : nat; pp_powers : list (list (gcar (PG1 E))); pp_g : gcar (PG1 E); pp_h : gcar (PG2 E) }.
Arguments mkPp {p E} pp_nv pp_powers pp_g pp_h.
Arguments pp_nv {p E} _.
Arguments pp_powers {p E} _.
Arguments pp_g {p E} _.
Arguments pp_h {p E} _.

(** srs.rs 56-65 *)
Record vparam {p} (E : pairing p) : Type := mkVpar {
  vk_nv : nat; vk_g : gcar (PG1 E); vk_h : gcar (PG2 E); vk_mask : list (gcar (PG2 E)) }.
Arguments mkVpar {p E} vk_nv vk_g vk_h vk_mask.
Arguments vk_nv {p E} _.
Arguments vk_g {p E} _.
Arguments vk_h {p E} _.
Arguments vk_mask {p E} _.

(** srs.rs 32-37 *)
Record srs {p} (E : pairing p) : Type := mkSrs { srs_pp : pparam E; srs_mask : list (gcar (PG2 E)) }.
Arguments mkSrs {p E} srs_pp srs_mask.
Arguments srs_pp {p E} _.
Arguments srs_mask {p E} _.

(** [is_power_of_two] *)
Definition is_pow2 (n : nat) : bool := (0 <? n) && (2 ^ Nat.log2 n =? n).

(** srs.rs 224-235; [x << pad] is [x * 2^pad]; [log2 - pad] underflows (panics) when pad is too large. *)
Definition remove_dummy_variable {p} (poly : list (F p)) (pad : nat) : res (list (F p)) :=
  if pad =? 0 then Ok poly
  else
    _ <- ensure (is_pow2 (length poly)) PCSInvalidParameters ;;
    _ <- rassert (pad <=? Nat.log2_up (length poly)) ;;
    mapM (fun x => rnth poly (x * 2 ^ pad)) (seq 0 (2 ^ (Nat.log2_up (length poly) - pad))).

(** srs.rs 149-159: [i] is [k - 1], counting down; [eqs] is the linked list reversed, so that [pop_back]
    takes its head; [push_front] is cons. *)
Fixpoint srs_loop {p} (k : nat) (base : list (F p)) (eqs : list (mle p)) (eq_arr : list (list (F p)))
  : res (list (list (F p))) :=
  match k with
  | O => Ok eq_arr
  | S i =>
      e <- remove_dummy_variable base i ;;
      if i =? 0 then Ok (e :: eq_arr)
      else match eqs with
           | [] => Panic
           | m :: r => srs_loop i (map (fun ab : F p * F p => (fst ab * snd ab)%F) (combine base (evs m))) r (e :: eq_arr)
           end
  end.

(** [&v[a..b]] *)
Definition slice {A} (l : list A) (a b : nat) : res (list A) :=
  if (a <=? b) && (b <=? length l) then Ok (firstn (b - a) (skipn a l)) else Panic.

(** srs.rs 180-192: [start] runs through the flattened powers; i from nvars - k on. *)
Fixpoint srs_chunks {p} {E : pairing p} (g : gcar (PG1 E)) (t : list (F p)) (nvars : nat)
  (pp_g : list (gcar (PG1 E))) (k i start : nat) : res (list (list (gcar (PG1 E)))) :=
  match k with
  | O => Ok []
  | S k' =>
      let size := 2 ^ (nvars - i) in
      c <- slice pp_g start (start + size) ;;
      ti <- slice t i nvars ;;
      e0 <- kzg_eq_eval (repeat F0 (nvars - i)) ti ;;
      c0 <- rnth c 0 ;;
      _ <- rassert (geqb (gmul e0 g) c0) ;;
      r <- srs_chunks g t nvars pp_g k' (S i) (start + size) ;;
      Ok (c :: r)
  end.

(** srs.rs 128-220. The rng is replaced by its answers: [g], [h] and the trapdoor coordinates [rnd 0], [rnd 1], ...
    Fixed-base multiplication with window tables is scalar multiplication; normalisation to affine form is
    the identity. *)
Definition gen_srs {p} (E : pairing p) (g : gcar (PG1 E)) (h : gcar (PG2 E)) (rnd : nat -> F p) (nvars : nat) : res (srs E) :=
  if nvars =? 0 then Err PCSInvalidParameters
  else
    let t := map rnd (seq 0 nvars) in
    match rev (eq_extension t) with
    | [] => Panic
    | last :: eqs =>
        eq_arr <- srs_loop nvars (evs last) eqs [] ;;
        pows <- mapM (fun i => eq <- rnth eq_arr i ;; mapM (rnth eq) (seq 0 (2 ^ (nvars - i)))) (seq 0 nvars) ;;
        let pp_g := map (fun x => gmul x g) (concat pows) in
        chunks <- srs_chunks g t nvars pp_g nvars 0 0 ;;
        Ok (mkSrs (mkPp nvars (chunks ++ [[g]]) g h) (map (fun x => gmul x h) t))
    end.

(** srs.rs 72-81 *)
Definition extract_prover_param {p} {E : pairing p} (s : srs E) (n : nat) : res (pparam E) :=
  _ <- rassert (n <=? pp_nv (srs_pp s)) ;;
  pw <- slice_from (pp_powers (srs_pp s)) (pp_nv (srs_pp s) - n) ;;
  Ok (mkPp n pw (pp_g (srs_pp s)) (pp_h (srs_pp s))).

(** srs.rs 84-92 *)
Definition extract_verifier_param {p} {E : pairing p} (s : srs E) (n : nat) : res (vparam E) :=
  _ <- rassert (n <=? pp_nv (srs_pp s)) ;;
  m <- slice_from (srs_mask s) (pp_nv (srs_pp s) - n) ;;
  Ok (mkVpar n (pp_g (srs_pp s)) (pp_h (srs_pp s)) m).

(** srs.rs 98-123 *)
Definition srs_trim {p} {E : pairing p} (s : srs E) (n : nat) : res (pparam E * vparam E) :=
  if pp_nv (srs_pp s) <? n then Err PCSInvalidParameters
  else
    let to_reduce := pp_nv (srs_pp s) - n in
    pw <- slice_from (pp_powers (srs_pp s)) to_reduce ;;
    m <- slice_from (srs_mask s) to_reduce ;;
    Ok (mkPp n pw (pp_g (srs_pp s)) (pp_h (srs_pp s)), mkVpar n (pp_g (srs_pp s)) (pp_h (srs_pp s)) m).

(** mod.rs 75-93 *)
Definition kzg_trim {p} {E : pairing p} (s : srs E) (degree : option nat) (num_vars : option nat)
  : res (pparam E * vparam E) :=
  _ <- rassert (match degree with None => true | Some _ => false end) ;;
  match num_vars with
  | None => Err PCSInvalidParameters
  | Some n => srs_trim s n
  end.

(** mod.rs 99-124; a commitment (pcs/structs.rs 23-26) is its group element. *)
Definition kzg_commit {p} {E : pairing p} (pp : pparam E) (f : mle p) : res (gcar (PG1 E)) :=
  if pp_nv pp <? nv f then Err PCSInvalidParameters
  else
    bases <- rnth (pp_powers pp) (pp_nv pp - nv f) ;;
    Ok (msm bases (evs f)).

(** mod.rs 234-240: quotient and remainder of one round; [k] is the number of remaining variables minus one. *)
Definition open_round {p} (f : list (F p)) (k : nat) (pt : F p) : res (list (F p) * list (F p)) :=
  qr <- mapM (fun b => lo <- rnth f (2 * b) ;; hi <- rnth f (2 * b + 1) ;;
                       let q := (hi - lo)%F in Ok (q, lo + q * pt)%F) (seq 0 (2 ^ k)) ;;
  Ok (map fst qr, map snd qr).

(** mod.rs 220-257: the loop over the zipped point and powers. *)
Fixpoint open_loop {p} {E : pairing p} (f : list (F p)) (n : nat) (pg : list (F p * list (gcar (PG1 E))))
  : res (list (gcar (PG1 E))) :=
  match pg with
  | [] => Ok []
  | (pt, gi) :: r =>
      k <- (if 1 <=? n then Ok (n - 1) else Panic) ;;
      ' (q, f') <- open_round f k pt ;;
      pr <- open_loop f' (n - 1) r ;;
      Ok (msm gi q :: pr)
  end.

(** mod.rs 198-261 *)
Definition kzg_open {p} {E : pairing p} (pp : pparam E) (f : mle p) (pt : list (F p))
  : res (list (gcar (PG1 E)) * F p) :=
  if pp_nv pp <? nv f then Err PCSInvalidParameters
  else if negb (nv f =? length pt) then Err PCSInvalidParameters
  else
    let ignored := pp_nv pp - nv f + 1 in
    gs <- slice (pp_powers pp) ignored (ignored + nv f) ;;
    prs <- open_loop (evs f) (nv f) (combine pt gs) ;;
    e <- evaluate_opt f pt ;;
    Ok (prs, e).

(** ark-ec [multi_pairing]: the product of the pairings, over the zipped slices. *)
Definition multi_pairing {p} {E : pairing p} (l : list (gcar (PG1 E) * gcar (PG2 E))) : gcar (PGT E) :=
  fold_right gadd gzero (map (fun ab => pair E (fst ab) (snd ab)) l).

(** mod.rs 269-326 *)
Definition kzg_verify {p} {E : pairing p} (vk : vparam E) (comm : gcar (PG1 E)) (pt : list (F p)) (value : F p)
  (prf : list (gcar (PG1 E))) : res bool :=
  let num_var := length pt in
  if vk_nv vk <? num_var then Err PCSInvalidParameters
  else
    let h_mul := map (fun x => gmul x (vk_h vk)) pt in
    let ignored := vk_nv vk - num_var in
    h_vec <- mapM (fun i => a <- rnth (vk_mask vk) (ignored + i) ;; b <- rnth h_mul i ;; Ok (gsub a b)) (seq 0 num_var) ;;
    let pairings := combine prf h_vec ++ [(gsub (gmul value (vk_g vk)) comm, vk_h vk)] in
    Ok (geqb (multi_pairing pairings) gzero).
