(** Sessions: a verifier's tracker is handed from one protocol to the next, with calls of its own in between. Nothing here
    models code: the calls are those of VerifierHist.v and ModelIop.v. *)
From Coq Require Import List ZArith.
Import ListNotations.
From Verif Require Import Res Fp ModelTranscript Pairing ModelKzg ModelBatch ModelProver ModelVerifier ModelAdvice ModelIop VerifierHist.

Section S.
Context {p : positive} {E : pairing p}.
Variable o : oracle p (gcar (PG1 E)).
Implicit Types (v : vtrk E).

(** One call that succeeds: a call of the tracker on any handles, or the verifier's side of any protocol of src/ (the
    modules that appear in ModelIop.v), in a debug or a release build. *)
Inductive vcall : vtrk E -> vtrk E -> Prop :=
| vc_tracker : forall debug ids ids' op v v', vstep o debug (v, ids) op = Ok (v', ids') -> vcall v v'
| vc_selector : forall v v' sel, selector_valid_verify v sel = Ok v' -> vcall v v'
| vc_no_zeros : forall debug v v' b, no_zeros_verify debug v b = Ok v' -> vcall v v'
| vc_multitool : forall debug v v' fx gx mf mg, multitool_verify o debug v fx gx mf mg = Ok v' -> vcall v v'
| vc_bag_eq : forall debug v v' fx gx, bag_eq_verify o debug v fx gx = Ok v' -> vcall v v'
| vc_bag_sum : forall debug v v' f0 f1 gx, bag_sum_verify o debug v f0 f1 gx = Ok v' -> vcall v v'
| vc_inclusion : forall debug v v' a b, inclusion_verify o debug v a b = Ok v' -> vcall v v'
| vc_inclusion_wa : forall debug v v' a b m, inclusion_verify_with_advice o debug v a b m = Ok v' -> vcall v v'
| vc_presc_perm : forall debug v v' fx gx perm, presc_perm_verify o debug v fx gx perm = Ok v' -> vcall v v'
| vc_sort : forall debug v v' b r, strict_sort_verify o debug v b r = Ok v' -> vcall v v'
| vc_supp : forall debug v v' b sup r, supp_verify o debug v b sup r = Ok v' -> vcall v v'
| vc_supp_wa : forall debug v v' b sup m r, supp_verify_with_advice o debug v b sup m r = Ok v' -> vcall v v'
| vc_disjoint : forall debug v v' a b r, bag_disjoint_verify o debug v a b r = Ok v' -> vcall v v'
| vc_disjoint_wa : forall debug v v' a b c ma mb r, bag_disjoint_verify_with_advice o debug v a b c ma mb r = Ok v' -> vcall v v'
| vc_set_disjoint : forall debug v v' a b r, set_disjoint_verify o debug v a b r = Ok v' -> vcall v v'
| vc_set_union : forall debug v v' a b un r, set_union_verify o debug v a b un r = Ok v' -> vcall v v'
| vc_set_diff : forall debug v v' a b l m bm r, set_diff_verify o debug v a b l m bm r = Ok v' -> vcall v v'
| vc_set_intersect : forall debug v v' a b l m r rx, set_intersect_verify o debug v a b l m r rx = Ok v' -> vcall v v'
| vc_cross : forall v v' a b t, cross_verify v a b = (t, v') -> vcall v v'
| vc_row_agg : forall v v' t rs b, row_agg_verify v t rs = Ok (b, v') -> vcall v v'
| vc_index_transform : forall debug v v' ti to, index_transform_verify o debug v ti to = Ok v' -> vcall v v'
| vc_join_reduction : forall debug v v' a b ls rs r, join_reduction_verify o debug v a b ls rs r = Ok v' -> vcall v v'
| vc_final_join : forall debug v v' a b ai bi t, final_join_verify o debug v a b ai bi = Ok (t, v') -> vcall v v'
| vc_final_join_wa : forall debug v v' a b ai bi ta t, final_join_verify_with_advice o debug v a b ai bi ta = Ok (t, v') -> vcall v v'
| vc_group_by : forall debug v v' t gi r res, group_by_verify o debug v t gi r = Ok (res, v') -> vcall v v'.

(** Any number of calls lead from one tracker to another. *)
Inductive vcalls : vtrk E -> vtrk E -> Prop :=
| vcs_nil : forall v, vcalls v v
| vcs_more : forall v v' v'', vcalls v v' -> vcall v' v'' -> vcalls v v''.

(** A tracker that some session reaches: it is new, is given a proof, and makes calls. *)
Definition in_session v : Prop := exists vk cp, vcalls (set_compiled_proof (vt_new vk) cp) v.
End S.
