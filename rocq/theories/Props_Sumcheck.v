(** C13-C21: transcript, sum check, zero check. *)
From Coq Require Import String List Arith ZArith Znumtheory Bool.
Import ListNotations.
From Verif Require Import Res Fp FSum SpecMle SpecVp SpecPoly SpecSumcheck ModelMle ModelVp VpHist ModelTranscript ModelSumcheck SumcheckHist
  InterpProofs ZerocheckProofs TranscriptProofs SumcheckExtra RoundHist RoundProofs Props_Vp.
Local Open Scope string_scope.
Local Open Scope list_scope.
Local Open Scope nat_scope.

(** ** C13: transcript *)
(** [trun o label cs] is the transcript after the user calls [cs] with challenges from the oracle [o]. Equal
    histories give equal answers now and after any further calls. *)
Theorem C13_same_history : forall (p : positive) (C : Type) (o o1 o2 : oracle p C) l1 l2 cs1 cs2 more,
  hist (trun o1 l1 cs1) = hist (trun o2 l2 cs2) ->
  (forall l, draw o l (trun o1 l1 cs1) = draw o l (trun o2 l2 cs2)) /\
  (forall l n, draw_vec o l n (trun o1 l1 cs1) = draw_vec o l n (trun o2 l2 cs2)) /\
  fold_left (tstep o) more (trun o1 l1 cs1) = fold_left (tstep o) more (trun o2 l2 cs2).
Proof. exact @same_future. Qed.
Print Assumptions C13_same_history.

(** A draw before the first append fails and leaves the transcript as created; afterwards it succeeds, its
    answer depends on the history and the label, and the answer is absorbed. *)
Theorem C13_draw : forall (p : positive) (C : Type) (o o' : oracle p C) label cs l, let t := trun o label cs in
  (existsb (fun c => match c with TAppend _ _ => true | _ => false end) cs = false ->
     draw o' l t = (t, Err TranscriptInvalid) /\ t = tr_new label) /\
  (existsb (fun c => match c with TAppend _ _ => true | _ => false end) cs = true ->
     exists t', draw o' l t = (t', Ok (o' (hist t) l)) /\ hist t' = hist t ++ [EChal l; EMsg l (PF (o' (hist t) l))]).
Proof. exact @draw_spec. Qed.
Print Assumptions C13_draw.

Theorem C13_vector_is_single_draws : forall (p : positive) (C : Type) (o : oracle p C) l n t, is_empty t = false ->
  draw_vec o l n t = (fst (draws o l n t), Ok (snd (draws o l n t))) /\ length (snd (draws o l n t)) = n.
Proof. exact @draw_vec_draws. Qed.
Print Assumptions C13_vector_is_single_draws.

(** The history is the ordered list of appended messages. *)
Theorem C13_appends_recorded : forall (p : positive) (C : Type) (o : oracle p C) label cs,
  (forall c, In c cs -> match c with TAppend _ _ => True | _ => False end) ->
  hist (trun o label cs) = ENew label :: map (fun lx => EMsg (fst lx) (snd lx))
     (flat_map (fun c => match c with TAppend l x => [(l, x)] | _ => [] end) cs).
Proof. exact @appends_recorded. Qed.
Print Assumptions C13_appends_recorded.

Definition exo : oracle 101 unit := fun h l => ofN (50 + 3 * length h + String.length l).
Example C13_ex :
  hist (trun exo "a" [TAppend "x" (PF (ofN 3)); TDrawVec "c" 2; TDraw "c"]) =
  hist (trun exo "a" [TAppend "x" (PF (ofN 3)); TDraw "c"; TDrawVec "c" 2]) /\
  snd (draw exo "c" (trun exo "a" [TAppend "x" (PF (ofN 3)); TDraw "c"])) = Ok (ofN 63) /\
  snd (draw exo "c" (trun exo "a" [TDraw "c"])) = Err TranscriptInvalid.
Proof. repeat (split; [vm_compute; reflexivity|]); vm_compute; reflexivity. Qed.

(** ** C14: completeness of the sum check *)
Theorem C14_complete : forall (p : positive) (C : Type), prime (Zpos p) ->
  forall (o : oracle p C) sc (v : vp p) e t, built v e -> max_degree v < fsize p ->
  0 < num_variables v -> products v <> [] ->
  exists pf t', sc_prove o sc v t = Ok (pf, t') /\ length (pf_point pf) = num_variables v /\
    extract_sum pf = Ok (cube_sum (num_variables v) (pden e)) /\
    ((forall c, In c (pf_point pf) -> nonnode (max_degree v + 1) c) ->
     sc_verify o (cube_sum (num_variables v) (pden e)) pf (max_degree v) (num_variables v) t =
       Ok (mkSub (pf_point pf) (pden e (pf_point pf)), t') /\
     vp_evaluate v (pf_point pf) = Ok (pden e (pf_point pf))).
Proof. intros p C Hp. exact (sc_complete_built Hp). Qed.
Print Assumptions C14_complete.

(** A polynomial over F_101: 3 m1^2 m2. *)
Definition ey1 : arc 101 := (7, mkMle 2 (map ofN [3; 1; 4; 1])).
Definition ey2 : arc 101 := (8, mkMle 2 (map ofN [2; 7; 1; 8])).
Definition eyv : vp 101 := fst (add_mle_list (vp_new 2) [ey1; ey1; ey2] (ofN 3)).
Definition eye : pexpr 101 :=
  PAdd PZero (PScale (ofN 3) (PProd (map (fun m => (nv (snd m), evs (snd m))) [ey1; ey1; ey2]))).
Lemma eyv_built : built eyv eye.
Proof.
  apply (B_add (vp_new 2) PZero [ey1; ey1; ey2] (ofN 3)).
  - apply B_new.
  - intros m [<-|[<-|[<-|[]]]]; reflexivity.
  - intros m1 m2 H1 H2. cbn in H1, H2.
    destruct H1 as [<-|[<-|[<-|[]]]]; destruct H2 as [<-|[<-|[<-|[]]]]; intros E; try reflexivity; discriminate E.
  - vm_compute. reflexivity.
Qed.
Definition exsc : nat -> nat -> sched := fun i k => SSplit (1 + i) (SSplit 1 SLeaf SLeaf) SLeaf.
Definition ext : tr 101 unit := append "start" (PBytes [1; 2]) (tr_new "t").
Definition node_free (n : nat) (l : list (F 101)) : bool := forallb (fun c => forallb (fun i => negb (Feqb c (ofN i))) (seq 0 n)) l.

Example C14_ex : built eyv eye /\ max_degree eyv < fsize 101 /\ products eyv <> [] /\
  exists pf t', sc_prove exo exsc eyv ext = Ok (pf, t') /\
    node_free (max_degree eyv + 1) (pf_point pf) = true /\
    sc_verify exo (ofN 46) pf (max_degree eyv) (num_variables eyv) ext = Ok (mkSub (pf_point pf) (pden eye (pf_point pf)), t') /\
    cube_sum 2 (pden eye) = ofN 46.
Proof.
  split; [exact eyv_built|]. split; [apply Nat.ltb_lt; vm_compute; reflexivity|]. split; [vm_compute; discriminate|].
  eexists; eexists. split; [vm_compute; reflexivity|]. split; [vm_compute; reflexivity|]. (split; [vm_compute; reflexivity|]); vm_compute; reflexivity.
Qed.

(** An oracle that draws an interpolation node makes the verifier panic on an honest proof. *)
Theorem C14_complete_any_oracle_refuted : exists (o : oracle 101 unit) pf t', built eyv eye /\
  sc_prove o (fun _ _ => SLeaf) eyv ext = Ok (pf, t') /\
  sc_verify o (cube_sum 2 (pden eye)) pf (max_degree eyv) (num_variables eyv) ext = Panic.
Proof.
  exists (fun _ _ => ofN 2). eexists; eexists. split; [exact eyv_built|]. (split; [vm_compute; reflexivity|]); vm_compute; reflexivity.
Qed.
Print Assumptions C14_complete_any_oracle_refuted.

(** ** C15: round messages *)
(** For every schedule: the prover's j-th message is the true round polynomial at 0..deg for the challenges drawn before. *)
Theorem C15_messages : forall (p : positive) (C : Type), prime (Zpos p) ->
  forall (o : oracle p C) sc (v : vp p) e t, built v e -> max_degree v < fsize p -> 0 < num_variables v ->
  exists cs t', sc_prove o sc v t = Ok (mkProof cs
    (map (fun j => round_msg (num_variables v) (max_degree v) (pden e) (firstn j cs)) (seq 0 (num_variables v))), t') /\
    length cs = num_variables v.
Proof. intros p C Hp. exact (sc_messages Hp). Qed.
Print Assumptions C15_messages.

Theorem C15_schedule_free : forall (p : positive) (C : Type), prime (Zpos p) ->
  forall (o : oracle p C) sc1 sc2 (v : vp p) e t, built v e -> max_degree v < fsize p ->
  sc_prove o sc1 v t = sc_prove o sc2 v t.
Proof. intros p C Hp. exact (sc_schedule_free Hp). Qed.
Print Assumptions C15_schedule_free.

Example C15_ex : exists pf t', sc_prove exo exsc eyv ext = Ok (pf, t') /\ sc_prove exo (fun _ _ => SLeaf) eyv ext = Ok (pf, t') /\
  nth 0 (pf_msgs pf) [] = round_msg 2 3 (pden eye) [] /\ nth 0 (pf_msgs pf) [] = map ofN [1; 45; 14; 89].
Proof. eexists; eexists. split; [vm_compute; reflexivity|]. repeat (split; [vm_compute; reflexivity|]); vm_compute; reflexivity. Qed.

(** ** C16: interpolation *)
(** Off the nodes the result is the value of every polynomial of degree below the number of evaluations that takes
    these evaluations at 0, 1, 2, ...; there is one. *)
Theorem C16_interpolates : forall p : positive, prime (Zpos p) ->
  forall (ys : list (F p)) x, ys <> [] -> length ys <= fsize p -> nonnode (length ys) x ->
  exists y, interpolate_uni_poly ys x = Ok y /\
  forall f, polyfun (length ys - 1) f -> (forall i, i < length ys -> f (ofN i) = nth i ys F0) -> y = f x.
Proof. intros p Hp. exact (interpolate_is_polynomial Hp). Qed.
Print Assumptions C16_interpolates.

Theorem C16_interpolant_exists : forall p : positive, prime (Zpos p) ->
  forall (ys : list (F p)), ys <> [] -> length ys <= fsize p ->
  exists f, polyfun (length ys - 1) f /\ (forall i, i < length ys -> f (ofN i) = nth i ys F0).
Proof. intros p Hp. exact (interpolant_exists Hp). Qed.
Print Assumptions C16_interpolant_exists.

(** On every node, and on an empty slice, the code panics. *)
Theorem C16_total_refuted : forall p : positive, prime (Zpos p) ->
  (forall (ys : list (F p)) k, k < length ys -> interpolate_uni_poly ys (ofN k) = Panic) /\
  (forall x : F p, interpolate_uni_poly [] x = Panic).
Proof. intros p Hp. split; [exact (interpolate_node Hp)|reflexivity]. Qed.
Print Assumptions C16_total_refuted.

(** The three branches: i64 (up to 20 points), i128 (up to 33), field (more). x^2 + 1 at 60. *)
Example C16_ex : forall n, In n [3; 20; 21; 33; 34; 50] ->
  nonnode n (ofN (p:=101) 60) /\ interpolate_uni_poly (map (fun i => (ofN i * ofN i + F1)%F) (seq 0 n)) (ofN (p:=101) 60) = Ok (ofN 3601).
Proof.
  intros n Hn.
  assert (G : node_free n [ofN 60] = true -> nonnode n (ofN (p:=101) 60)).
  { intros H i Hi E. unfold node_free in H. cbn [forallb] in H. rewrite andb_true_r in H. rewrite forallb_forall in H.
    specialize (H i). rewrite E, Feqb_refl in H. discriminate H. apply in_seq. split; [apply Nat.le_0_l|exact Hi]. }
  destruct Hn as [<-|[<-|[<-|[<-|[<-|[<-|[]]]]]]]; (split; [apply G|]; vm_compute; reflexivity).
Qed.

(** ** C17: soundness of the sum check *)
(** Every accepted claim with a correct final evaluation is true, or some round's challenge is one of at most deg points
    where the prover's wrong round polynomial agrees with the true one. Holds for every proof, oracle and transcript. *)
Theorem C17_dichotomy : forall (p : positive) (C : Type), prime (Zpos p) ->
  forall (o : oracle p C) claimed pf (v : vp p) e t s t', built v e -> max_degree v < fsize p -> products v <> [] ->
  sc_verify o claimed pf (max_degree v) (num_variables v) t = Ok (s, t') ->
  vp_evaluate v (sub_point s) = Ok (sub_eval s) ->
  claimed = cube_sum (num_variables v) (pden e) \/
  exists j, j < num_variables v /\
    lucky (num_variables v) (max_degree v) (pden e) (nth j (pf_msgs pf) []) (firstn j (sub_point s)) (nth j (sub_point s) F0).
Proof. intros p C Hp. exact (sc_sound_built Hp). Qed.
Print Assumptions C17_dichotomy.

(** [st] maps the challenges seen so far to the next message. Of all vectors of n challenges, at most n*deg*p^(n-1) make
    the verifier accept a false sum with a correct final evaluation. *)
Theorem C17_count : forall (p : positive) (C : Type), prime (Zpos p) ->
  forall (v : vp p) e claimed (st : list (F p) -> list (F p)) pt (t : tr p C), built v e -> max_degree v < fsize p -> products v <> [] ->
  claimed <> cube_sum (num_variables v) (pden e) ->
  count (fun ch => match sc_verify (script (nchal (hist t)) ch) claimed (mkProof pt (play st ch)) (max_degree v) (num_variables v) t with
                   | Ok (s, _) => Feqb (sub_eval s) (pden e (sub_point s))
                   | _ => false
                   end) (allV p (num_variables v)) <=
  num_variables v * max_degree v * fsize p ^ (num_variables v - 1).
Proof. intros p C Hp. exact (sc_sound_count_built Hp). Qed.
Print Assumptions C17_count.

(** A cheating strategy for one variable: it claims 1 for the zero polynomial 0*m and wins on some challenges only. *)
Definition ez1 : arc 13 := (7, mkMle 1 (map ofN [1; 1])).
Definition ezv : vp 13 := vp_new_from_mle ez1 F0.
Definition eze : pexpr 13 := PScale F0 (aexpr ez1).
Definition cheat (ch : list (F 13)) : list (F 13) := map ofN [9; 5].
Example C17_ex : built ezv eze /\ ofN 1 <> cube_sum 1 (pden eze) /\
  count (fun ch => match sc_verify (script 0 ch) (ofN 1) (mkProof [] (play cheat ch)) 1 1 (tr_new (C:=unit) "t") with
                   | Ok (s, _) => Feqb (sub_eval s) (pden eze (sub_point s)) | _ => false end) (allV 13 1) = 1.
Proof.
  split; [apply B_from; reflexivity|]. split; [apply Feqb_neq; vm_compute; reflexivity|]. vm_compute. reflexivity.
Qed.

(** ** C18: malformed proofs *)
(** A message of the wrong length is never accepted, and is an error unless one of the challenges met hits a node. *)
Theorem C18_wrong_message_length : forall (p : positive) (C : Type), prime (Zpos p) ->
  forall (o : oracle p C) c pt ms d n t, d < fsize p -> n <= length ms ->
  (exists m, In m (firstn n ms) /\ length m <> d + 1) ->
  (forall s, sc_verify o c (mkProof pt ms) d n t <> Ok s) /\
  (Forall (nonnode (d + 1)) (met o d n ms t) -> sc_verify o c (mkProof pt ms) d n t = Err IOPInvalidVerifier).
Proof. intros p C Hp. exact (round_bad_length Hp). Qed.
Print Assumptions C18_wrong_message_length.

Theorem C18_missing_message : forall (p : positive) (C : Type) (o : oracle p C) c pt ms d n t,
  length ms < n -> sc_verify o c (mkProof pt ms) d n t = Panic.
Proof. exact @sc_verify_short. Qed.
Print Assumptions C18_missing_message.

Theorem C18_surplus_messages : forall (p : positive) (C : Type) (o : oracle p C) c pt ms extra d n t,
  length ms = n -> sc_verify o c (mkProof pt (ms ++ extra)) d n t = sc_verify o c (mkProof pt ms) d n t.
Proof. exact @sc_verify_surplus. Qed.
Print Assumptions C18_surplus_messages.

(** The point stored in the proof is never read. *)
Theorem C18_point_ignored : forall (p : positive) (C : Type) (o : oracle p C) c pt pt' ms d n t,
  sc_verify o c (mkProof pt ms) d n t = sc_verify o c (mkProof pt' ms) d n t.
Proof. exact @sc_verify_point_irrelevant. Qed.
Print Assumptions C18_point_ignored.

Theorem C18_zero_variables : forall (p : positive) (C : Type) (o : oracle p C) sc c pf d t (v : vp p), num_variables v = 0 ->
  sc_prove o sc v t = Err IOPInvalidParameters /\ sc_verify o c pf d 0 t = Err IOPInvalidVerifier.
Proof. exact @sc_zero_vars. Qed.
Print Assumptions C18_zero_variables.

(** Degree 0: nothing is accepted, and well-sized messages make the verifier panic. *)
Theorem C18_degree_zero : forall (p : positive) (C : Type), prime (Zpos p) ->
  forall (o : oracle p C) c pt ms n t, 1 < fsize p -> 0 < n ->
  (forall s, sc_verify o c (mkProof pt ms) 0 n t <> Ok s) /\
  (n <= length ms -> (forall m, In m (firstn n ms) -> length m = 1) -> sc_verify o c (mkProof pt ms) 0 n t = Panic).
Proof. intros p C Hp. exact (round_deg0 Hp). Qed.
Print Assumptions C18_degree_zero.

Definition exo7 : oracle 13 unit := fun _ _ => ofN 7.
Example C18_ex :
  sc_verify exo7 (ofN 1) (mkProof [] [map ofN [9; 5; 1]]) 1 1 (tr_new "t") = Err IOPInvalidVerifier /\
  sc_verify exo7 (ofN 1) (mkProof [] []) 1 1 (tr_new "t") = Panic /\
  sc_verify exo7 (ofN 1) (mkProof [] [map ofN [9]]) 0 1 (tr_new "t") = Panic /\
  (exists s t', sc_verify exo7 (ofN 1) (mkProof [] [map ofN [9; 5]; [ofN 4]]) 1 1 (tr_new "t") = Ok (s, t')) /\
  Forall (nonnode 2) (met exo7 1 1 [map ofN [9; 5; 1]] (tr_new "t")).
Proof.
  repeat split; try (vm_compute; reflexivity).
  - eexists; eexists. vm_compute. reflexivity.
  - constructor; [|constructor]. intros [|[|i]] Hi; [apply Feqb_neq; reflexivity|apply Feqb_neq; reflexivity|].
    exfalso. do 2 apply Nat.succ_lt_mono in Hi. exact (Nat.nlt_0_r _ Hi).
Qed.

(** ** C19: round discipline *)
(** Any sequence of prover calls, with or without a challenge: accepted calls return the round polynomial, the others
    are rejected and change nothing. [expected_calls] is the reference automaton. *)
Theorem C19_prover : forall p : positive, prime (Zpos p) ->
  forall sc (v : vp p) e st calls, built v e -> max_degree v < fsize p -> prover_init v = Ok st ->
  prover_calls sc 0 st calls = expected_calls (num_variables v) (max_degree v) (pden e) 0 [] calls.
Proof. intros p Hp. exact (prover_calls_init Hp). Qed.
Print Assumptions C19_prover.

(** The verifier accepts exactly the first num_variables rounds, rejects the others, and makes no subclaim before. *)
Theorem C19_verifier : forall (p : positive) (C : Type) (o : oracle p C) n d ms t, 0 < n ->
  let (l, s) := verifier_calls o (verifier_init d n) t ms in
  map is_ok l = map (fun k => k <? n) (seq 0 (length ms)) /\
  (forall r, In r l -> is_ok r = false -> r = Err IOPInvalidVerifier) /\
  (length ms < n -> forall c, check_and_generate_subclaim s c = Err IOPInvalidVerifier) /\
  (n <= length ms -> vs_finished s = true).
Proof. exact @verifier_discipline. Qed.
Print Assumptions C19_verifier.

Theorem C19_verifier_zero_variables : forall (p : positive) (C : Type) (o : oracle p C) d ms t,
  let (l, s) := verifier_calls o (verifier_init d 0) t ms in forall c, check_and_generate_subclaim s c = Err IOPInvalidVerifier.
Proof. exact @verifier_zero_vars. Qed.
Print Assumptions C19_verifier_zero_variables.

Example C19_ex : exists st m0 m1, prover_init eyv = Ok st /\
  prover_calls exsc 0 st [Some (ofN 9); None; None; Some (ofN 70); Some (ofN 71)] =
    [Err IOPInvalidProver; Ok m0; Err IOPInvalidProver; Ok m1; Err IOPInvalidProver] /\
  map is_ok (fst (verifier_calls exo (verifier_init 3 2) ext [m0; m1; m1])) = [true; true; false].
Proof. eexists; eexists; eexists. split; [vm_compute; reflexivity|]. (split; [vm_compute; reflexivity|]); vm_compute; reflexivity. Qed.

(** ** C20: completeness of the zero check *)
Theorem C20_complete : forall (p : positive) (C : Type), prime (Zpos p) ->
  forall (o : oracle p C) sc (v : vp p) e a t, built v e -> (forall m, In m (flat v) -> fst m <> a) ->
  max_degree v + 1 < fsize p -> 0 < num_variables v -> is_empty t = false ->
  (forall k, k < 2 ^ num_variables v -> pden e (bpoint (num_variables v) k) = F0) ->
  exists r t1 pf t', draw_vecT o "0check r" (num_variables v) t = Ok (r, t1) /\ length r = num_variables v /\
    zc_prove o sc v a t = Ok (pf, t') /\ length (pf_point pf) = num_variables v /\
    ((forall c, In c (pf_point pf) -> nonnode (max_degree v + 2) c) ->
     zc_verify o pf (max_degree v) (num_variables v) t =
     if Feqb (eqf (pf_point pf) r) F0 then Panic else Ok (mkZsub (pf_point pf) (pden e (pf_point pf)) r, t')).
Proof. intros p C Hp. exact (zc_complete Hp). Qed.
Print Assumptions C20_complete.

Theorem C20_empty_transcript : forall (p : positive) (C : Type) (o : oracle p C) sc (v : vp p) a t,
  is_empty t = true -> zc_prove o sc v a t = Err TranscriptInvalid.
Proof. exact @zc_empty. Qed.
Print Assumptions C20_empty_transcript.

(** m1*m2 with disjoint supports. *)
Definition ew1 : arc 101 := (7, mkMle 2 (map ofN [3; 0; 4; 0])).
Definition ew2 : arc 101 := (8, mkMle 2 (map ofN [0; 7; 0; 8])).
Definition ewv : vp 101 := fst (add_mle_list (vp_new 2) [ew1; ew2] (ofN 3)).
Definition ewe : pexpr 101 := PAdd PZero (PScale (ofN 3) (PProd (map (fun m => (nv (snd m), evs (snd m))) [ew1; ew2]))).
Lemma ewv_built : built ewv ewe.
Proof.
  apply (B_add (vp_new 2) PZero [ew1; ew2] (ofN 3)).
  - apply B_new.
  - intros m [<-|[<-|[]]]; reflexivity.
  - intros m1 m2 H1 H2. cbn in H1, H2.
    destruct H1 as [<-|[<-|[]]]; destruct H2 as [<-|[<-|[]]]; intros E; try reflexivity; discriminate E.
  - vm_compute. reflexivity.
Qed.
Example C20_ex : built ewv ewe /\
  forallb (fun k => Feqb (pden ewe (bpoint 2 k)) F0) (seq 0 4) = true /\ pden ewe (map ofN [2; 3]) <> F0 /\
  exists pf t' z t2, zc_prove exo exsc ewv 99 ext = Ok (pf, t') /\ node_free 4 (pf_point pf) = true /\
    zc_verify exo pf 2 2 ext = Ok (z, t2) /\ t2 = t'.
Proof.
  split; [exact ewv_built|]. split; [vm_compute; reflexivity|]. split; [apply Feqb_neq; vm_compute; reflexivity|].
  eexists; eexists; eexists; eexists. split; [vm_compute; reflexivity|]. split; [vm_compute; reflexivity|]. (split; [vm_compute; reflexivity|]); vm_compute; reflexivity.
Qed.

(** ** C21: soundness of the zero check *)
Theorem C21_dichotomy : forall (p : positive) (C : Type), prime (Zpos p) ->
  forall (o : oracle p C) pf (v : vp p) e t z t', built v e -> max_degree v + 1 < fsize p ->
  zc_verify o pf (max_degree v) (num_variables v) t = Ok (z, t') ->
  vp_evaluate v (z_point z) = Ok (z_eval z) ->
  (forall k, k < 2 ^ num_variables v -> vp_evaluate v (bpoint (num_variables v) k) = Ok F0) \/
  unlucky_r (num_variables v) (pden e) (z_init z) \/
  exists j, j < num_variables v /\
    lucky (num_variables v) (max_degree v + 1) (fun x => pden e x * eqf x (z_init z))%F (nth j (pf_msgs pf) []) (firstn j (z_point z)) (nth j (z_point z) F0).
Proof. intros p C Hp. exact (zc_sound_built Hp). Qed.
Print Assumptions C21_dichotomy.

Theorem C21_count : forall (p : positive) (C : Type), prime (Zpos p) ->
  forall (v : vp p) e (st : list (F p) -> list (F p) -> list (F p)) pt (t : tr p C), built v e -> max_degree v + 1 < fsize p ->
  (exists k, k < 2 ^ num_variables v /\ vp_evaluate v (bpoint (num_variables v) k) <> Ok F0) ->
  count (fun rc => let r := firstn (num_variables v) rc in let ch := skipn (num_variables v) rc in
      match zc_verify (script (nchal (hist t)) rc) (mkProof pt (play (st r) ch)) (max_degree v) (num_variables v) t with
      | Ok (z, _) => Feqb (z_eval z) (pden e (z_point z))
      | _ => false
      end) (allV p (num_variables v + num_variables v)) <=
  (num_variables v + num_variables v * (max_degree v + 1)) * fsize p ^ (2 * num_variables v - 1).
Proof. intros p C Hp. exact (zc_sound_count_built Hp). Qed.
Print Assumptions C21_count.

(** The honest strategy for a non-zero polynomial over F_13 is accepted for some choices only. *)
Definition eq1 : arc 13 := (7, mkMle 1 (map ofN [1; 2])).
Definition eqv : vp 13 := vp_new_from_mle eq1 F1.
Definition eqe : pexpr 13 := PScale F1 (aexpr eq1).
Definition qstrat (r ch : list (F 13)) : list (F 13) := round_msg 1 2 (fun x => pden eqe x * eqf x r)%F ch.
Example C21_ex : built eqv eqe /\ vp_evaluate eqv (bpoint 1 0) <> Ok F0 /\
  count (fun rc => match zc_verify (script 0 rc) (mkProof [] (play (qstrat (firstn 1 rc)) (skipn 1 rc))) 1 1 (append "x" (PF F0) (tr_new (C:=unit) "t")) with
                   | Ok (z, _) => Feqb (z_eval z) (pden eqe (z_point z)) | _ => false end) (allV 13 2) = 9.
Proof.
  split; [apply B_from; reflexivity|]. split; [vm_compute; discriminate|]. vm_compute. reflexivity.
Qed.
