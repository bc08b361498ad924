(** Whole runs of the KZG scheme, as functions of the trapdoor. *)
From Coq Require Import List Arith Bool ZArith.
Import ListNotations.
From Verif Require Import Res Fp FSum SpecKzg ModelMle Pairing ModelKzg.
Local Open Scope nat_scope.

(** Two polynomials have the same commitment under the trapdoor t. *)
Definition commits_equal {p} {E : pairing p} (g : gcar (PG1 E)) (h : gcar (PG2 E)) n (f1 f2 : mle p) (t : list (F p)) : bool :=
  match gen_srs E g h (tape t) n with
  | Ok s => match kzg_trim s None (Some n) with
            | Ok (ck, _) => match kzg_commit ck f1, kzg_commit ck f2 with
                            | Ok c1, Ok c2 => geqb c1 c2
                            | _, _ => false
                            end
            | _ => false
            end
  | _ => false
  end.

(** An algebraic opening of f at x to the value v, against the trapdoor t. *)
Definition algebraic_accepts {p} {E : pairing p} (g : gcar (PG1 E)) (h : gcar (PG2 E)) n (f : mle p) x v (qs : list (list (F p) -> F p)) (t : list (F p)) : bool :=
  match gen_srs E g h (tape t) n with
  | Ok s => match kzg_trim s None (Some n) with
            | Ok (ck, vk) => match kzg_commit ck f with
                             | Ok c => match kzg_verify vk c x v (map (fun q => gmul (q t) g) qs) with
                                       | Ok b => b
                                       | _ => false
                                       end
                             | _ => false
                             end
            | _ => false
            end
  | _ => false
  end.

