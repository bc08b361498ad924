(** Histories of builder calls on virtual polynomials, each with the polynomial expression it stands for. *)
From Coq Require Import List Arith Bool ZArith.
Import ListNotations.
From Verif Require Import Res Fp FSum SpecMle SpecVp ModelMle ModelVp.

(** Live pointers: equal addresses hold equal tables. *)
Definition coherent {p} (l : list (arc p)) : Prop :=
  forall m1 m2, In m1 l -> In m2 l -> fst m1 = fst m2 -> snd m1 = snd m2.

Definition wf_arcs {p} (l : list (arc p)) : Prop := forall m, In m l -> wf_mle (snd m).

Definition mexpr {p} (m : mle p) : pexpr p := PMle (nv m) (evs m).
Definition aexpr {p} (m : arc p) : pexpr p := mexpr (snd m).

(** Table of eq(., r). *)
Definition eq_expr {p} (r : list (F p)) : pexpr p :=
  PMle (length r) (map (fun k => eqf (bpoint (length r) k) r) (seq 0 (2 ^ length r))).

(** [built v e]: some history of calls (successful or rejected) produced [v], and [e] is the expression
    that the successful calls describe. *)
Inductive built {p} : vp p -> pexpr p -> Prop :=
| B_new : forall n, built (vp_new n) PZero
| B_from : forall m c, wf_mle (snd m) -> built (vp_new_from_mle m c) (PScale c (aexpr m))
| B_add : forall v e l c v', built v e -> wf_arcs l -> coherent (flat v ++ l) ->
    add_mle_list v l c = (v', Ok tt) ->
    built v' (PAdd e (PScale c (PProd (map (fun m => (nv (snd m), evs (snd m))) l))))
| B_add_rejected : forall v e l c v' er, built v e -> wf_arcs l -> coherent (flat v ++ l) ->
    add_mle_list v l c = (v', Err er) -> built v' e
| B_mul : forall v e m c v', built v e -> wf_mle (snd m) -> coherent (flat v ++ [m]) ->
    mul_by_mle v m c = Ok v' -> built v' (PScale c (PMul e (aexpr m)))
| B_plus : forall v w u e e', built v e -> built w e' -> coherent (flat v ++ flat w) ->
    vp_add v w = Ok u -> built u (PAdd e e')
| B_fhat : forall v e r a u, built v e -> (forall m, In m (flat v) -> fst m <> a) ->
    build_f_hat v r a = Ok u -> built u (PMul e (eq_expr r)).
