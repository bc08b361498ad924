(** A client that computes the support of a bag, commits to it and proves it. There is no such function in /repo (group_by.rs 80-90 has it in a comment); the calls are those of
    ModelIop.v: utils.rs 7-68 (calc_bag_supp_advice), the commitment of the three columns, and bag_supp.rs 40-74 and 94-120 with the advice. *)
From Coq Require Import String List ZArith.
Import ListNotations.
From Verif Require Import Res Fp ModelMle ModelTranscript Pairing ModelKzg ModelProver ModelVerifier ModelAdvice ModelIop IopRes PlanHist.

Section H.
Context {p : positive} {E : pairing p}.
Notation comm := (gcar (PG1 E)).
(** The support that was committed, its multiplicities, and the tracker. *)
Definition prove_support (o : oracle p comm) (dbg : bool) (s : ptrk E) (b rx : bag) : res (bag * tpoly * ptrk E) :=
  ' (vals, sel, m, s) <- supp_advice_bag s b ;;
  ' (sup, s) <- commit_bag dbg s (vals, sel) ;;
  ' (m, s) <- tp_commit s m ;;
  s <- supp_prove_with_advice o dbg s b sup m rx ;;
  Ok (sup, m, s).
(** The verifier takes over the three columns. *)
Definition verify_support (o : oracle p comm) (b rx : bagc) (debug : bool) (v : vtrk E) : res (vtrk E) :=
  ' (vals, v) <- v_transfer debug v ;;
  ' (sel, v) <- v_transfer debug v ;;
  ' (m, v) <- v_transfer debug v ;;
  supp_verify_with_advice o debug v b (mkBagc vals sel (bc_nv b)) m rx.
End H.
