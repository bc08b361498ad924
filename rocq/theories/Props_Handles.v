(** C59: programs with several trackers. *)
From Coq Require Import String List Arith Bool ZArith.
Import ListNotations.
From Verif Require Import Res Fp FSum ModelMle ModelTranscript ModelSumcheck Pairing ModelKzg ModelBatch ModelProver ModelVerifier ModelHandles HandleHist HandleProofs HandleCopies HandleFresh.
Local Open Scope string_scope.
Local Open Scope list_scope.
Local Open Scope nat_scope.

(** A program on several prover trackers runs if and only if every call names one tracker and every tracker, alone, runs the calls
    that go to it; the answers and the final state of each tracker are those of that run. *)
Theorem C59_prover : forall (p : positive) (E : pairing p) (o : oracle p (gcar (PG1 E))) sc sc' addr debug (w : list (ptrk E)) calls answers w',
  runs (hcall_do o sc sc' addr debug) w calls = Ok (answers, w') <->
  length w' = length w /\ length answers = length calls /\ (forall c, In c calls -> exists r, goes c = Some r /\ r < length w) /\
  forall r t t', nth_error w r = Some t -> nth_error w' r = Some t' ->
    runs (alone o sc sc' addr debug) t (calls_to goes r calls) = Ok (answers_from goes r calls answers, t').
Proof. exact @prover_alone. Qed.
Print Assumptions C59_prover.

(** The same for verifier trackers none of which is a copy of another (for copies see C36). *)
Theorem C59_verifier : forall (p : positive) (E : pairing p) (o : oracle p (gcar (PG1 E))) debug (w : list (nat * vtrk E)) calls answers w', NoDup (map fst w) ->
  runs (vhcall_do o debug) w calls = Ok (answers, w') <->
  length w' = length w /\ length answers = length calls /\ (forall c, In c calls -> exists r, vgoes c = Some r /\ r < length w) /\
  forall r m v m' v', nth_error w r = Some (m, v) -> nth_error w' r = Some (m', v') ->
    m' = m /\ runs (valone o debug) v (calls_to vgoes r calls) = Ok (answers_from vgoes r calls answers, v').
Proof. exact @verifier_alone. Qed.
Print Assumptions C59_verifier.

(** Operands of different trackers are refused, on both sides. *)
Theorem C59_mixed : forall (p : positive) (E : pairing p),
  (forall (w : list (ptrk E)) a b, ph_at a <> ph_at b -> hp_add w a b = Panic /\ hp_sub w a b = Panic /\ hp_mul w a b = Panic) /\
  (forall (w : list (nat * vtrk E)) a b, vh_at a <> vh_at b -> hv_add w a b = Panic /\ hv_sub w a b = Panic /\ hv_mul w a b = Panic).
Proof. intros p E. split; [exact mixed_panics|exact vmixed_panics]. Qed.
Print Assumptions C59_mixed.

(** Handles of the prover are equal only if one call returned both. *)
Theorem C59_equal : forall (p : positive) (E : pairing p) (o : oracle p (gcar (PG1 E))) sc sc' addr debug (w : list (ptrk E)) calls answers w',
  runs (hcall_do o sc sc' addr debug) w calls = Ok (answers, w') ->
  forall i j a b, nth_error answers i = Some (AHandle a) -> nth_error answers j = Some (AHandle b) -> (ph_eqb a b = true <-> i = j).
Proof. exact @handles_equal. Qed.
Print Assumptions C59_equal.

(** So are bags and tables, by which calls returned their columns and their selector. *)
Theorem C59_bags_equal : forall (p : positive) (E : pairing p) (o : oracle p (gcar (PG1 E))) sc sc' addr debug (w : list (ptrk E)) calls answers w',
  runs (hcall_do o sc sc' addr debug) w calls = Ok (answers, w') ->
  (forall i j k l a s b t, nth_error answers i = Some (AHandle a) -> nth_error answers j = Some (AHandle s) ->
    nth_error answers k = Some (AHandle b) -> nth_error answers l = Some (AHandle t) -> (hbag_eqb (mkHB a s) (mkHB b t) = true <-> i = k /\ j = l)) /\
  (forall is js k l A s B t, map (fun i => nth_error answers i) is = map (fun h => Some (AHandle h)) A -> map (fun i => nth_error answers i) js = map (fun h => Some (AHandle h)) B ->
    nth_error answers k = Some (AHandle s) -> nth_error answers l = Some (AHandle t) -> (htable_eqb (mkHT A s) (mkHT B t) = true <-> is = js /\ k = l)).
Proof. exact @bags_equal. Qed.
Print Assumptions C59_bags_equal.

(** In a debug build a bag or a table is made exactly of columns that have the size and the tracker of the selector. *)
Theorem C59_bags : forall a s cols,
  (hbag_new true a s = Ok (mkHB a s) <-> ph_nv a = ph_nv s /\ ph_at a = ph_at s) /\
  (hbag_new true a s = Panic <-> ~ (ph_nv a = ph_nv s /\ ph_at a = ph_at s)) /\
  (htable_new true cols s = Ok (mkHT cols s) <-> Forall (fun c => ph_nv c = ph_nv s /\ ph_at c = ph_at s) cols) /\
  (htable_new true cols s = Panic <-> ~ Forall (fun c => ph_nv c = ph_nv s /\ ph_at c = ph_at s) cols).
Proof. exact new_bags. Qed.
Print Assumptions C59_bags.

(** A release build makes them of any columns. *)
Theorem C59_bags_refuted : forall a s cols, hbag_new false a s = Ok (mkHB a s) /\ htable_new false cols s = Ok (mkHT cols s).
Proof. intros. split; reflexivity. Qed.
Print Assumptions C59_bags_refuted.

(** A copy of a prover tracker starts from the state of the original; after that neither sees the calls of the other. *)
Theorem C59_copies : forall (p : positive) (E : pairing p) (o : oracle p (gcar (PG1 E))) sc sc' addr debug (w : list (ptrk E)) r c w1 calls answers w',
  hp_copy w r = Ok (c, w1) -> runs (hcall_do o sc sc' addr debug) w1 calls = Ok (answers, w') ->
  exists t t1 t2, nth_error w r = Some t /\ c <> r /\ nth_error w' r = Some t1 /\ nth_error w' c = Some t2 /\
    runs (alone o sc sc' addr debug) t (calls_to goes r calls) = Ok (answers_from goes r calls answers, t1) /\
    runs (alone o sc sc' addr debug) t (calls_to goes c calls) = Ok (answers_from goes c calls answers, t2).
Proof. exact @copies_alone. Qed.
Print Assumptions C59_copies.

(** A copy of a verifier tracker shares its maps: whatever is called afterwards, both give every commitment the same value. The other trackers see nothing of it. *)
Theorem C59_verifier_copies : forall (p : positive) (E : pairing p) (o : oracle p (gcar (PG1 E))) debug (w : list (nat * vtrk E)) r c w1 calls answers w', NoDup (map fst w) ->
  hv_copy w r = Ok (c, w1) -> runs (vhcall_do o debug) w1 calls = Ok (answers, w') ->
  c <> r /\ (forall id x, hv_eval w' (mkVH id c) x = hv_eval w' (mkVH id r) x) /\
  forall q m v m' v', q <> r -> nth_error w q = Some (m, v) -> nth_error w' q = Some (m', v') ->
    runs (valone o debug) v (calls_to vgoes q calls) = Ok (answers_from vgoes q calls answers, v').
Proof. exact @vcopies_shared. Qed.
Print Assumptions C59_verifier_copies.

(** A new tracker starts empty and changes none of the others, on both sides. *)
Theorem C59_new : forall (p : positive) (E : pairing p) (o : oracle p (gcar (PG1 E))) sc sc' addr debug,
  (forall (w : list (ptrk E)) pp c w1 calls answers w',
    hp_new w pp = (c, w1) -> runs (hcall_do o sc sc' addr debug) w1 calls = Ok (answers, w') ->
    exists u, nth_error w' c = Some u /\ runs (alone o sc sc' addr debug) (pt_new pp) (calls_to goes c calls) = Ok (answers_from goes c calls answers, u) /\
    forall r t t', nth_error w r = Some t -> nth_error w' r = Some t' -> r <> c /\
      runs (alone o sc sc' addr debug) t (calls_to goes r calls) = Ok (answers_from goes r calls answers, t')) /\
  (forall (w : list (nat * vtrk E)) m vk c w1 calls answers w', NoDup (map fst w) -> ~ In m (map fst w) ->
    hv_new w m vk = (c, w1) -> runs (vhcall_do o debug) w1 calls = Ok (answers, w') ->
    exists u, nth_error w' c = Some (m, u) /\ runs (valone o debug) (vt_new vk) (calls_to vgoes c calls) = Ok (answers_from vgoes c calls answers, u) /\
    forall r k v k' v', nth_error w r = Some (k, v) -> nth_error w' r = Some (k', v') -> r <> c /\
      runs (valone o debug) v (calls_to vgoes r calls) = Ok (answers_from vgoes r calls answers, v')).
Proof. intros. split; [apply new_alone|apply vnew_alone]. Qed.
Print Assumptions C59_new.

(** Not so for the verifier: any two commitments of a tracker are equal, and any two bags of one size. *)
Theorem C59_comms_refuted : forall (p : positive) (E : pairing p) (w : list (nat * vtrk E)) r m v c d n, nth_error w r = Some (m, v) ->
  exists a b w1 w2, hv_comm w r c = Ok (a, w1) /\ hv_comm w1 r d = Ok (b, w2) /\ vh_id a <> vh_id b /\
    vh_eqb a b = true /\ hbagc_eqb (mkHBc a a n) (mkHBc b a n) = true /\ htablec_eqb (mkHTc [a; b] a n) (mkHTc [b; a] b n) = true.
Proof. exact @comms_equal_refuted. Qed.
Print Assumptions C59_comms_refuted.

(** Exactly: bags and tables of commitments are equal if their columns and selectors are in the same trackers and their
    sizes are equal. *)
Theorem C59_comm_bags : forall (a b : hbagc) (c d : htablec),
  (hbagc_eqb a b = true <-> vh_at (hbc_poly a) = vh_at (hbc_poly b) /\ vh_at (hbc_sel a) = vh_at (hbc_sel b) /\ hbc_nv a = hbc_nv b) /\
  (htablec_eqb c d = true <-> map vh_at (htc_cols c) = map vh_at (htc_cols d) /\ vh_at (htc_sel c) = vh_at (htc_sel d) /\ htc_nv c = htc_nv d).
Proof. exact comm_bags_exact. Qed.
Print Assumptions C59_comm_bags.
Example C59_ex_comm_bags : let x := mkVH 0 1 in let y := mkVH 5 1 in let z := mkVH 0 2 in
  hbagc_eqb (mkHBc x y 3) (mkHBc y y 3) = true /\ hbagc_eqb (mkHBc x y 3) (mkHBc x y 2) = false /\ hbagc_eqb (mkHBc x y 3) (mkHBc z y 3) = false /\
  htablec_eqb (mkHTc [x; y] x 3) (mkHTc [x] x 3) = false.
Proof. repeat split. Qed.

(** A claim is made through a reference and takes the number of a polynomial: with the handle of another tracker [q] it is recorded,
    without an error, for whatever polynomial has that number in the tracker [r]. *)
Theorem C59_claim_refuted : forall (p : positive) (E : pairing p) (w : list (ptrk E)) r q t u (h : phandle),
  nth_error w r = Some t -> nth_error w q = Some u -> ph_at h = q -> q <> r ->
  exists w' t', hp_zero_claim w r (ph_id h) = Ok (tt, w') /\ nth_error w' r = Some t' /\ nth_error w' q = Some u /\
    pt_zc t' = pt_zc t ++ [ph_id h] /\ forall x, tp_evaluate t' (mkTp (ph_id h) (ph_nv h)) x = tp_evaluate t (mkTp (ph_id h) (ph_nv h)) x.
Proof. exact @foreign_claim_refuted. Qed.
Print Assumptions C59_claim_refuted.

Local Notation "'i13' n" := (@ofZ 13 n%Z) (at level 9).
Definition hx_o : oracle 13 (gcar (PG1 (exp_pairing 13))) := fun h _ => ofN (4 + length h mod 9).
Definition hx_sc : nat -> nat -> sched := fun _ _ => SLeaf.
Definition hx_m (a b : Z) : mle 13 := mkMle 1 [i13 a; i13 b].
Definition hx_w : list (ptrk (exp_pairing 13)) := let t := pt_new (mkPp (E:=exp_pairing 13) 0 [] (i13 2) (i13 7)) in [t; t].
Definition hx_calls : list (hcall 13) :=
  [HTrack 0 (hx_m 1 2); HTrack 1 (hx_m 5 6); HMul (mkPH 0 1 1) (mkPH 0 1 1); HAdd (mkPH 0 1 0) (mkPH 0 1 0); HEvals (mkPH 1 1 1); HZero 0 1].
Definition hx_show (l : list (answer (exp_pairing 13))) : list (list Z) :=
  map (fun a => match a with AHandle h => [Z.of_nat (ph_id h); Z.of_nat (ph_at h)] | AList l => map (@val 13) l | _ => [] end) l.
Definition hx_run (c : list (hcall 13)) : option (list (list Z)) :=
  match runs (hcall_do hx_o hx_sc hx_sc (fun i => i) true) hx_w c with Ok (l, _) => Some (hx_show l) | _ => None end.
Example C59_ex : hx_run hx_calls = Some [[0; 0]; [0; 1]; [1; 1]; [1; 0]; [12; 10]; []]%Z /\ hx_run (hx_calls ++ [HAdd (mkPH 0 1 0) (mkPH 0 1 1)]) = None.
Proof. vm_compute. split; reflexivity. Qed.

Example C59_ex_copies : match hp_copy hx_w 0 with
  | Ok (c, w) => match runs (hcall_do hx_o hx_sc hx_sc (fun i => i) true) w [HTrack c (hx_m 1 2); HTrack 0 (hx_m 5 6); HEvals (mkPH 0 1 c); HEvals (mkPH 0 1 0)] with Ok (l, _) => Some (c, hx_show l) | _ => None end
  | _ => None end = Some (2, [[0; 2]; [0; 0]; [1; 2]; [5; 6]]%Z).
Proof. vm_compute. reflexivity. Qed.
Definition hx_vw : list (nat * vtrk (exp_pairing 13)) := let v := vt_new (mkVpar (E:=exp_pairing 13) 1 (i13 2) (i13 7) []) in [(0, v); (1, v)].
Example C59_ex_verifier_copies : NoDup (map fst hx_vw) /\ match hv_copy hx_vw 0 with
  | Ok (c, w) => match runs (vhcall_do hx_o true) w [WFun c (fun x => Ok (isum x)); WFun 1 (fun _ => Ok (i13 5)); WEval (mkVH 0 0) [i13 4; i13 3]; WEval (mkVH 0 c) [i13 4; i13 3]; WEval (mkVH 0 1) []] with
                 | Ok (l, _) => Some (c, map (fun a => match a with AScalar x => val x | _ => 0 end) l)%Z | _ => None end
  | _ => None end = Some (2, [0; 0; 7; 7; 5]%Z).
Proof. split; [repeat constructor; cbn; intuition discriminate|vm_compute; reflexivity]. Qed.
Example C59_ex_bags : hbag_new true (mkPH 0 1 1) (mkPH 1 1 1) = Ok (mkHB (mkPH 0 1 1) (mkPH 1 1 1)) /\ hbag_new true (mkPH 0 1 1) (mkPH 1 1 0) = Panic /\
  hbag_new false (mkPH 0 1 1) (mkPH 1 1 0) = Ok (mkHB (mkPH 0 1 1) (mkPH 1 1 0)) /\ htable_new true [mkPH 0 1 1; mkPH 2 2 1] (mkPH 1 1 1) = Panic.
Proof. vm_compute. repeat split. Qed.
