(** C30, C31, C35: the two trackers run in lockstep, virtual commitments, equalizing the numbers of variables. *)
From Coq Require Import String List Arith Bool ZArith.
Import ListNotations.
From Verif Require Import Res Fp FSum SpecMle SpecTracker ModelMle ModelTranscript ModelSumcheck Pairing ModelKzg ModelBatch ModelProver ModelVerifier
  ProverHist VerifierHist ProverExtra VerifierExtra EqualizeProofs.
Local Open Scope string_scope.
Local Open Scope list_scope.
Local Open Scope nat_scope.

Local Notation "'i13' n" := (@ofZ 13 n%Z) (at level 9).
(** A history over F 13: two committed polynomials f, g and an uncommitted one in two variables, a challenge, f*g + 3 - f,
    extensions at both ends, and claims. The verifier's program is its mirror image. *)
Definition vx_o : oracle 13 (gcar (PG1 (exp_pairing 13))) := fun h _ => ofN (length h).
Definition vx_tab : list (F 13) := [i13 4; i13 0; i13 1; i13 1].
Definition vx_ops : list (pop 13) :=
  [OCommit 2 [i13 1; i13 2; i13 3; i13 4]; OTrack 2 vx_tab; OCommit 2 [i13 0; i13 5; i13 0; i13 7]; OChal "c"; OMul 0 2; OAddS 3 (i13 3); OSub 4 0;
   OFront 1 1; OBack 0 2; OMulS 1 (i13 2); OSum 5 (i13 6); OZero 2; OEvals 2].
Definition vx_vops : list (vop (exp_pairing 13)) :=
  [VONext; VOFun (fun x => a <- ark_evaluate (mkMle 2 vx_tab) x ;; ounwrap a); VOTransferEvals; VONext; VOChal "c"; VOMul 0 2; VOAddS 3 (i13 3); VOSub 4 0;
   VOFront 1 1; VOBack 0 2; VOMulS 1 (i13 2); VOClaimed 5; VOZero 2].
(** Values of f and g at (5,6), as the proof would carry them. *)
Definition vx_query : list ((nat * list (F 13)) * F 13) := [((0, [i13 5; i13 6]), i13 5); ((2, [i13 5; i13 6]), i13 7)].
Definition vx_run (ops : list (pop 13)) (vops : list (vop (exp_pairing 13))) : option ((ptrk (exp_pairing 13) * list tpoly) * (vtrk (exp_pairing 13) * list nat)) :=
  match gen_srs (exp_pairing 13) (i13 2) (i13 7) (fun i => ofN (i + 3)) 3 with
  | Ok s => match kzg_trim s None (Some 3) with
            | Ok (ck, vk) => match prun vx_o ck ops with
                             | Ok (s, hs) => match vrun vx_o true vk (mkCproof (pt_comm s) (pt_sc s) (mkProof [] []) 0 0 vx_query []) vops with
                                             | Ok w => Some ((s, hs), w)
                                             | _ => None
                                             end
                             | _ => None
                             end
            | _ => None
            end
  | _ => None
  end.
(** Ids, next ids, lengths of the transcripts and the next challenge on both sides. *)
Definition vx_summary ops vops : option (list nat * nat * nat * option Z * (list nat * nat * nat * option Z)) :=
  match vx_run ops vops with
  | Some ((s, hs), (v, cs)) =>
      Some (map tp_id hs, get_next_id s, length (hist (pt_tr s)), match pt_challenge vx_o "n" s with Ok (c, _) => Some (val c) | _ => None end,
            (cs, v_get_next_id v, length (hist (vt_tr v)), match vt_challenge vx_o "n" v with Ok (c, _) => Some (val c) | _ => None end))
  | None => None
  end.
(** Values of handle [i] at [x] on both sides. *)
Definition vx_eval ops vops (i : nat) (x : list (F 13)) : option Z * option Z :=
  match vx_run ops vops with
  | Some ((s, hs), (v, cs)) =>
      match nth_error hs i with
      | Some h => (match tp_evaluate s h x with Ok (Some y) => Some (val y) | _ => None end,
                   match eval_virtual_comm v (tp_id h) x with Ok y => Some (val y) | _ => None end)
      | None => (None, None)
      end
  | None => (None, None)
  end.

(** ** C30: lockstep *)

Theorem C30_lockstep : forall (p : positive) (E : pairing p) (o : oracle p (gcar (PG1 E))) debug exact (pp : pparam E) vk cp ops vops s hs,
  mirror exact pp ops vops -> prun o pp ops = Ok (s, hs) -> proof_covers cp s ->
  exists v, vrun o debug vk cp vops = Ok (v, map tp_id hs) /\
    v_get_next_id v = get_next_id s /\ vt_tr v = pt_tr s /\ vt_mat v = pt_comm s /\ vt_zc v = pt_zc s /\ map fst (vt_sc v) = map fst (pt_sc s) /\
    (forall l c s', pt_challenge o l s = Ok (c, s') -> exists v', vt_challenge o l v = Ok (c, v') /\ vt_tr v' = pt_tr s').
Proof. exact @hist_lockstep. Qed.
Print Assumptions C30_lockstep.

Example C30_ex_mirror : forall pp : pparam (exp_pairing 13), mirror false pp vx_ops vx_vops.
Proof. intros pp. unfold vx_ops, vx_vops. repeat (constructor; try discriminate). Qed.
Example C30_ex : vx_summary vx_ops vx_vops = Some ([0; 1; 2; 3; 5; 6; 7; 8; 9], 10, 5, Some 5%Z, ([0; 1; 2; 3; 5; 6; 7; 8; 9], 10, 5, Some 5%Z)).
Proof. vm_compute. reflexivity. Qed.

(** ** C31: evaluating virtual commitments *)

Theorem C31_agree : forall (p : positive) (E : pairing p) (o : oracle p (gcar (PG1 E))) debug (pp : pparam E) vk cp ops vops s hs v cs i h x,
  mirror true pp ops vops -> prun o pp ops = Ok (s, hs) -> proof_covers cp s -> back_calls [] ops ->
  vrun o debug vk cp vops = Ok (v, cs) -> nth_error hs i = Some h -> length x = tp_nv h ->
  (linear_calls [] ops \/ exists k, k < 2 ^ tp_nv h /\ x = bpoint (tp_nv h) k) ->
  query_holds v (vt_query v) cs (denote ops) x ->
  exists y, tp_evaluate s h x = Ok (Some y) /\ eval_virtual_comm v (tp_id h) x = Ok y.
Proof. exact @hist_agree. Qed.
Print Assumptions C31_agree.

(** The property as stated is false: after increase_nv_back by a number of variables other than the operand's own, the
    verifier's commitment cannot be evaluated at any point. *)
Theorem C31_back_refuted : forall (p : positive) (E : pairing p) (o : oracle p (gcar (PG1 E))) debug (pp : pparam E) vk cp n k (l : list (F p)),
  length l = 2 ^ n -> k <> n ->
  exists s hs h v, prun o pp [OTrack n l; OBack 0 k] = Ok (s, hs) /\
    vrun o debug vk cp [VOFun (fun x => a <- ark_evaluate (mkMle n l) x ;; ounwrap a); VOBack 0 k] = Ok (v, map tp_id hs) /\
    nth_error hs 1 = Some h /\ tp_nv h = n + k /\
    forall x, length x = n + k -> (exists y, tp_evaluate s h x = Ok (Some y)) /\ eval_virtual_comm v (tp_id h) x = Panic.
Proof. exact @back_mismatch. Qed.
Print Assumptions C31_back_refuted.

(** f, f*g + 3 - f, twice the uncommitted table at (5,6); the extensions of the table at the front and of f at the back. *)
Example C31_ex : map (fun i => vx_eval vx_ops vx_vops i [i13 5; i13 6]) [0; 1; 2; 3; 4; 5; 8]
    = [(Some 5, Some 5); (Some 8, Some 8); (Some 7, Some 7); (Some 9, Some 9); (Some 12, Some 12); (Some 7, Some 7); (Some 3, Some 3)]%Z /\
  vx_eval vx_ops vx_vops 6 [i13 9; i13 5; i13 6] = (Some 8, Some 8)%Z /\
  vx_eval vx_ops vx_vops 7 [i13 5; i13 6; i13 9; i13 1] = (Some 5, Some 5)%Z.
Proof. repeat split; vm_compute; reflexivity. Qed.

(** ** C35: equalizing the numbers of variables *)

Theorem C35_equalize : forall (p : positive) (E : pairing p) (o : oracle p (gcar (PG1 E))) (pp : pparam E) ops s hs, prun o pp ops = Ok (s, hs) -> hs <> [] ->
  exists n s', equalize_materialized_poly_nv s = Ok (n, s') /\
    (exists id a, mget (pt_mat s) id = Some a /\ nv (snd a) = n) /\
    (forall h, In h hs -> tp_nv h <= n /\ exists vs vs' s1 s1', tp_evaluations s h = Ok (vs, s1) /\ evaluations s' (tp_id h) = Ok (vs', s1') /\
       length vs' = 2 ^ n /\ (forall k, k < 2 ^ n -> nth k vs' F0 = nth (k mod 2 ^ tp_nv h) vs F0) /\
       (Forall (fun y => y = F0) vs' <-> Forall (fun y => y = F0) vs) /\
       Fsum vs' = (ofN (2 ^ (n - tp_nv h)) * Fsum vs)%F /\
       (forall c, In (tp_id h, c) (pt_sc s') -> c = Fsum vs')) /\
    map fst (pt_sc s') = map fst (pt_sc s) /\ pt_zc s' = pt_zc s /\ pt_comm s' = pt_comm s /\ pt_tr s' = pt_tr s.
Proof. exact @hist_equalize. Qed.
Print Assumptions C35_equalize.

(** The false sum claim 6 on f*f becomes twice its true sum 5. *)
Definition vx_equal (ops : list (pop 13)) : option (nat * list (nat * Z) * list (list Z)) :=
  match vx_run ops [] with
  | Some ((s, hs), _) => match equalize_materialized_poly_nv s with
                         | Ok (n, s') => Some (n, map (fun c => (fst c, val (snd c))) (pt_sc s'),
                             map (fun h => match evaluations s' (tp_id h) with Ok (l, _) => map val l | _ => [] end) hs)
                         | _ => None
                         end
  | None => None
  end.
Example C35_ex : vx_equal [OCommit 1 [i13 1; i13 2]; OCommit 2 [i13 0; i13 5; i13 0; i13 7]; OMul 0 0; OSum 2 (i13 6); OZero 0]
  = Some (2, [(2, 10%Z)], [[1; 2; 1; 2]; [0; 5; 0; 7]; [1; 4; 1; 4]]%Z).
Proof. vm_compute. reflexivity. Qed.
