(** C27-C29: the prover tracker. *)
From Coq Require Import String List Arith Bool ZArith.
Import ListNotations.
From Verif Require Import Res Fp FSum SpecMle ModelMle ModelTranscript Pairing ModelKzg ModelProver ProverHist ProverExtra.
Local Open Scope string_scope.
Local Open Scope list_scope.
Local Open Scope nat_scope.

Local Notation "'i13' n" := (@ofZ 13 n%Z) (at level 9).
(** A history over F 13: two committed polynomials f, g in two variables, the polynomial f*g + 3 - f, its extension by
    one variable at each end, and claims on it. *)
Definition px_o : oracle 13 (gcar (PG1 (exp_pairing 13))) := fun h _ => ofN (length h).
Definition px_ops : list (pop 13) :=
  [OCommit 2 [i13 1; i13 2; i13 3; i13 4]; OCommit 2 [i13 0; i13 5; i13 0; i13 7]; OChal "c"; OMul 0 1; OAddS 2 (i13 3); OSub 3 0;
   OFront 4 1; OBack 4 1; OMulS 1 (i13 2); OSum 4 (i13 6); OZero 2].
Definition px_run (ops : list (pop 13)) : option (ptrk (exp_pairing 13) * list tpoly) :=
  match gen_srs (exp_pairing 13) (i13 2) (i13 7) (fun i => ofN (i + 3)) 3 with
  | Ok s => match kzg_trim s None (Some 3) with
            | Ok (ck, _) => match prun px_o ck ops with Ok w => Some w | _ => None end
            | _ => None
            end
  | _ => None
  end.
Definition px_summary (ops : list (pop 13)) : option (list (nat * nat) * nat * list nat * list nat) :=
  match px_run ops with
  | Some (s, hs) => Some (map (fun h => (tp_id h, tp_nv h)) hs, get_next_id s, sort_ids (map fst (pt_mat s)), sort_ids (map fst (pt_virt s)))
  | None => None
  end.
Definition px_evaluate (ops : list (pop 13)) (i : nat) (x : list (F 13)) : option Z :=
  match px_run ops with
  | Some (s, hs) => match nth_error hs i with
                    | Some h => match tp_evaluate s h x with Ok (Some y) => Some (val y) | _ => None end
                    | None => None
                    end
  | None => None
  end.

(** ** C27: ids are fresh, the two maps partition them, and hypercube values never change *)

Theorem C27_fresh : forall (p : positive) (E : pairing p) (o : oracle p (gcar (PG1 E))) (pp : pparam E) ops s hs, prun o pp ops = Ok (s, hs) ->
  NoDup (map tp_id hs) /\ (forall h, In h hs -> tp_id h < get_next_id s) /\
  (forall op s' hs', pstep o (s, hs) op = Ok (s', hs') ->
     hs' = hs \/ exists h, hs' = hs ++ [h] /\ get_next_id s <= tp_id h < get_next_id s').
Proof. exact @hist_fresh. Qed.
Print Assumptions C27_fresh.

Theorem C27_partition : forall (p : positive) (E : pairing p) (o : oracle p (gcar (PG1 E))) (pp : pparam E) ops s hs, prun o pp ops = Ok (s, hs) ->
  forall id,
  (get_next_id s <= id -> mget (pt_mat s) id = None /\ mget (pt_virt s) id = None) /\
  (id < get_next_id s ->
     (exists a, mget (pt_mat s) id = Some a /\ wf_mle (snd a) /\ mget (pt_virt s) id = None) \/
     (exists v n, mget (pt_mat s) id = None /\ mget (pt_virt s) id = Some v /\ v <> [] /\
        forall c pr, In (c, pr) v -> pr <> [] /\ forall i, In i pr -> exists a, mget (pt_mat s) i = Some a /\ nv (snd a) = n)).
Proof. exact @hist_invariants. Qed.
Print Assumptions C27_partition.

Theorem C27_stable : forall (p : positive) (E : pairing p) (o : oracle p (gcar (PG1 E))) (pp : pparam E) ops ops' s hs s' hs',
  prun o pp ops = Ok (s, hs) -> prun o pp (ops ++ ops') = Ok (s', hs') ->
  (exists suf, hs' = hs ++ suf) /\
  forall h, In h hs -> exists vs s1 s1', length vs = 2 ^ tp_nv h /\
    tp_evaluations s h = Ok (vs, s1) /\ tp_evaluations s' h = Ok (vs, s1').
Proof. exact @hist_stable. Qed.
Print Assumptions C27_stable.

(** The extensions materialize their operand (id 5); add_scalar uses two ids (3 and 4). *)
Example C27_ex : px_summary px_ops =
  Some ([(0, 2); (1, 2); (2, 2); (4, 2); (5, 2); (6, 3); (7, 3); (8, 2)], 9, [0; 1; 3; 5; 6; 7], [2; 4; 8]).
Proof. vm_compute. reflexivity. Qed.

(** ** C28: arithmetic *)

Theorem C28_arithmetic : forall (p : positive) (E : pairing p) (o : oracle p (gcar (PG1 E))) (pp : pparam E) ops s hs a b c,
  prun o pp ops = Ok (s, hs) -> In a hs -> In b hs ->
  exists va vb, (forall x, length x = tp_nv a -> tp_evaluate s a x = Ok (Some (va x))) /\
    (forall x, length x = tp_nv b -> tp_evaluate s b x = Ok (Some (vb x))) /\
  (tp_nv a = tp_nv b ->
    (exists h s', tp_add s a b = Ok (h, s') /\ tp_nv h = tp_nv a /\ forall x, length x = tp_nv a -> tp_evaluate s' h x = Ok (Some (va x + vb x)%F)) /\
    (exists h s', tp_sub s a b = Ok (h, s') /\ tp_nv h = tp_nv a /\ forall x, length x = tp_nv a -> tp_evaluate s' h x = Ok (Some (va x - vb x)%F)) /\
    (exists h s', tp_mul s a b = Ok (h, s') /\ tp_nv h = tp_nv a /\ forall x, length x = tp_nv a -> tp_evaluate s' h x = Ok (Some (va x * vb x)%F))) /\
  (exists h s', tp_add_scalar s a c = Ok (h, s') /\ tp_nv h = tp_nv a /\ forall x, length x = tp_nv a -> tp_evaluate s' h x = Ok (Some (va x + c)%F)) /\
  (exists h s', tp_mul_scalar s a c = Ok (h, s') /\ tp_nv h = tp_nv a /\ forall x, length x = tp_nv a -> tp_evaluate s' h x = Ok (Some (va x * c)%F)) /\
  (tp_nv a <> tp_nv b -> tp_add s a b = Panic /\ tp_sub s a b = Panic /\ tp_mul s a b = Panic).
Proof. exact @hist_arith. Qed.
Print Assumptions C28_arithmetic.

(** Adding variables gives the multilinear extension of the operand's hypercube values, constant in the new variables. *)
Theorem C28_increase : forall (p : positive) (E : pairing p) (o : oracle p (gcar (PG1 E))) (pp : pparam E) ops s hs a k,
  prun o pp ops = Ok (s, hs) -> In a hs ->
  exists vs s0, tp_evaluations s a = Ok (vs, s0) /\
  (exists h s', tp_front s a k = Ok (h, s') /\ tp_nv h = tp_nv a + k /\
     forall y x, length y = k -> length x = tp_nv a -> tp_evaluate s' h (y ++ x) = Ok (Some (mle_ext (tp_nv a) (tab vs) x))) /\
  (exists h s', tp_back s a k = Ok (h, s') /\ tp_nv h = tp_nv a + k /\
     forall x y, length y = k -> length x = tp_nv a -> tp_evaluate s' h (x ++ y) = Ok (Some (mle_ext (tp_nv a) (tab vs) x))).
Proof. exact @hist_increase. Qed.
Print Assumptions C28_increase.

Theorem C28_unknown : forall (p : positive) (E : pairing p) (o : oracle p (gcar (PG1 E))) (pp : pparam E) ops s hs id id' c k x,
  prun o pp ops = Ok (s, hs) -> get_next_id s <= id ->
  evaluate s id x = Panic /\ evaluations s id = Panic /\ add_polys s id id' = Panic /\ add_polys s id' id = Panic /\
  sub_polys s id id' = Panic /\ sub_polys s id' id = Panic /\ mul_polys s id id' = Panic /\ mul_polys s id' id = Panic /\
  add_scalar s id c = Panic /\ mul_scalar s id c = Panic /\ increase_nv_front s id k = Panic /\ increase_nv_back s id k = Panic.
Proof. exact @unknown_panics. Qed.
Print Assumptions C28_unknown.

(** f*g + 3 - f at (5,6) is 3 + f(5,6)(g(5,6) - 1). *)
Example C28_ex : map (fun i => px_evaluate (firstn 6 px_ops) i [i13 5; i13 6]) [0; 1; 2; 3; 4] = [Some 5; Some 7; Some 9; Some 12; Some 7]%Z.
Proof. vm_compute. reflexivity. Qed.

(** ** C29: reading the evaluations *)

Theorem C29_boolean : forall (p : positive) (E : pairing p) (o : oracle p (gcar (PG1 E))) (pp : pparam E) ops s hs a b vs s',
  prun o pp ops = Ok (s, hs) -> In a hs -> In b hs -> tp_evaluations s a = Ok (vs, s') ->
  (forall k, k < 2 ^ tp_nv b -> tp_evaluate s' b (bpoint (tp_nv b) k) = tp_evaluate s b (bpoint (tp_nv b) k)) /\
  (forall x, length x = tp_nv b -> tp_id b <> tp_id a -> tp_evaluate s' b x = tp_evaluate s b x).
Proof. exact @evals_boolean. Qed.
Print Assumptions C29_boolean.

Theorem C29_linear : forall (p : positive) (E : pairing p) (o : oracle p (gcar (PG1 E))) (pp : pparam E) ops s hs a vs s',
  prun o pp ops = Ok (s, hs) -> In a hs -> tp_evaluations s a = Ok (vs, s') ->
  (forall v c pr, mget (pt_virt s) (tp_id a) = Some v -> In (c, pr) v -> length pr = 1) ->
  forall b x, In b hs -> length x = tp_nv b -> tp_evaluate s' b x = tp_evaluate s b x.
Proof. exact @evals_linear. Qed.
Print Assumptions C29_linear.

(** The property as stated is false, in every field with more than two elements. *)
Theorem C29_evaluations_refuted : forall (p : positive) (E : pairing p), (3 <= Zpos p)%Z -> forall (o : oracle p (gcar (PG1 E))) (pp : pparam E),
  exists s hs a vs s' x u u', prun o pp [OTrack 1 [F0; F1]; OMul 0 0] = Ok (s, hs) /\ In a hs /\ length x = tp_nv a /\
    tp_evaluations s a = Ok (vs, s') /\
    tp_evaluate s a x = Ok (Some u) /\ tp_evaluate s' a x = Ok (Some u') /\ u <> u'.
Proof. exact @evals_change. Qed.
Print Assumptions C29_evaluations_refuted.

(** The product f*g at (5,6) and at the boolean point (1,1), before and after; the sum f + g is unaffected. *)
Example C29_ex : map (fun ops => (px_evaluate ops 2 [i13 5; i13 6], px_evaluate ops 2 [i13 1; i13 1])) [firstn 4 px_ops; firstn 4 px_ops ++ [OEvals 2]]
    = [(Some 9, Some 2); (Some 5, Some 2)]%Z /\
  map (fun ops => px_evaluate ops 3 [i13 5; i13 6]) [firstn 4 px_ops ++ [OAdd 0 1]; firstn 4 px_ops ++ [OAdd 0 1; OEvals 3]] = [Some 12; Some 12]%Z.
Proof. split; vm_compute; reflexivity. Qed.
