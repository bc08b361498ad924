(** C58: query plans, in which protocols and tracker calls follow one another. *)
From Coq Require Import String List Arith Bool ZArith Znumtheory Permutation.
Import ListNotations.
From Verif Require Import Res Fp FSum SpecMle SpecPoly SpecTracker SpecIop SpecRel SpecJoin ModelMle ModelTranscript Pairing ModelKzg ModelProver ModelVerifier ModelAdvice ModelIop
  ProverHist VerifierHist SessHist CompileHist IopHist IopRes IopFix IopEx SessProofs PlanHist PlanProofs PlanVer.
Local Open Scope list_scope.
Local Open Scope nat_scope.

(** The honest prover runs a plan whose steps can be run. The run reports, for every step, the challenges drawn and what the step claims. If no challenge is one that the prover
    cannot answer and all claims are true, the verifier that runs the same plan accepts the one proof. If some claim is false, the proof is not obtained or the verifier turns it
    down, unless a challenge is unlucky; and no proof is obtained after a challenge that cannot be answered. *)
Theorem C58_prover : forall (p : positive) (E : pairing p), pairing_laws E -> prime (Zpos p) ->
  forall (o : oracle p (gcar (PG1 E))) addr k ck vk ops vops s hs d D, setting o addr k ck vk ops vops s hs d D -> 1 <= D -> d <= D ->
  forall dbg pl, posed dbg k D (at_start ops hs d) pl ->
  exists s' outs, prove_plan o dbg s pl = Ok s' /\ told dbg k D (at_start ops hs d) pl outs /\ drawn (pt_tr s) (pt_tr s') = concat (map drew outs) /\
    (Forall avoided outs -> Forall holds outs -> accepted o addr vk vops s' (verify_plan o pl)) /\
    (~ Forall holds outs -> Forall fair outs -> turned_down o addr k vk vops s' (verify_plan o pl)) /\
    (~ Forall avoided outs -> refused addr k s').
Proof. intros p E HE Hp. exact (plan_check HE Hp). Qed.
Print Assumptions C58_prover.

(** Whoever made the proof: the verifier's run of a plan is a session. Every step starts from a tracker of the session, and the calls after it lead to the last tracker, so the
    theorems about the single protocols (C38 to C54, with suffix _verifier) hold for every step once the claims of the last tracker do. *)
Theorem C58_verifier : forall (p : positive) (E : pairing p) (o : oracle p (gcar (PG1 E))) debug pl v v', in_session o v -> verify_plan o pl debug v = Ok v' ->
  exists l, walk o debug pl v l v' /\ Forall (fun x => let '(u, t, hs, u') := x in in_session o u /\ verify1 o debug u t = Ok (hs, u') /\ vcalls o u' v') l.
Proof. exact @plan_walk. Qed.
Print Assumptions C58_verifier.

(** A handle keeps its table through the rest of the session. *)
Theorem C58_kept : forall (p : positive) (E : pairing p) (o : oracle p (gcar (PG1 E))), prime (Zpos p) -> 2 < fsize p ->
  forall v v', in_session o v -> vcalls o v v' -> forall A N id n l, reads A N v id n l -> reads A N v' id n l.
Proof. exact @reads_later. Qed.
Print Assumptions C58_kept.

(** The columns that a verifier computes from its handles. *)
Theorem C58_columns : forall (p : positive) (E : pairing p) (o : oracle p (gcar (PG1 E))), prime (Zpos p) -> 2 < fsize p ->
  forall debug v, in_session o v -> forall A N a b la lb c, tp_nv a = tp_nv b -> reads A N v (tp_id a) (tp_nv a) la -> reads A N v (tp_id b) (tp_nv b) lb ->
  let column_at t l := exists h v', verify1 o debug v t = Ok ([h], v') /\ tp_nv h = tp_nv a /\ reads A N v' (tp_id h) (tp_nv h) l in
  column_at (TAdd a b) (pointwise Fadd la lb) /\ column_at (TSub a b) (pointwise Fsub la lb) /\ column_at (TMul a b) (pointwise Fmul la lb) /\
  column_at (TAddS a c) (map (fun x => Fadd x c) la) /\ column_at (TMulS a c) (map (fun x => Fmul x c) la).
Proof. exact @columns_read. Qed.
Print Assumptions C58_columns.

(** A step that claims a column to be zero: true claims make it so. *)
Theorem C58_zero : forall (p : positive) (E : pairing p) (o : oracle p (gcar (PG1 E))), prime (Zpos p) -> 2 < fsize p ->
  forall debug v v' v'', in_session o v -> vcalls o v' v'' -> forall A N, claims_hold A N v'' ->
  forall a hs l, verify1 o debug v (TZero a) = Ok (hs, v') -> reads A N v (tp_id a) (tp_nv a) l -> Forall (fun y => y = F0) l.
Proof. exact @zero_read. Qed.
Print Assumptions C58_zero.

(** Join a table with keys (1,2,3,4) and entries (5,6,7,8) to one with keys (x,3) and entries (5,y); then claim that the selected keys agree, that the joined entries are
    those of the second table, and that the keys of the result and of the second table are the same bag. *)
Definition qp_tabs (x y : Z) : list (nat * list Z) := [(2, [1; 2; 3; 4]%Z); (2, [5; 6; 7; 8]%Z); (2, [1; 1; 1; 1]%Z); (1, [x; 3]%Z); (1, [5; y]%Z); (1, [1; 1]%Z)].
Definition qp (hs : list tpoly) : plan (p:=101) :=
  Then (TJoin (ptab hs [0; 1] 2) (ptab hs [3; 4] 5) 0 0) (fun js =>
  Then (TSub (th js 0) (th js 2)) (fun ds =>
  Then (TMul (th ds 0) (th js 4)) (fun zs =>
  Then (TZero (th zs 0)) (fun _ =>
  Then (TBagEq (mkBag (th js 1) (th js 4)) (mkBag (th js 3) (th js 4))) (fun _ =>
  Then (TBagEq (mkBag (th js 0) (th js 4)) (mkBag (th js 2) (th js 4))) (fun _ => Finish)))))).
(** The debug build runs it and the verifier accepts; with another entry [y] the verifier turns the proof down. *)
Definition qp_run (x y : Z) : option IopFix.outcome :=
  ix_run 2 (commits (qp_tabs x y)) (nexts (qp_tabs x y)) (fun s hs => prove_plan ix_o true s (qp hs))
    (fun v ids => verify_plan ix_o (qp (map (fun it => mkTp (fst it) (fst (snd it))) (combine ids (qp_tabs x y)))) true v) (columns (qp_tabs x y)).
Example C58_ex : qp_run 1 7 = Some Fine /\ qp_run 1 8 = Some NotVerified /\ qp_run 9 7 = Some NoProof.
Proof. vm_compute. repeat split; reflexivity. Qed.
Print Assumptions C58_ex.

(** The verifier of that run makes the six steps in a session, its claims are true and its handles stand for the six tables. *)
Example C58_ex_verifier : exists v pl v' A N l, in_session ix_o v /\ verify_plan ix_o pl true v = Ok v' /\ walk ix_o true pl v l v' /\ length l = 6 /\ claims_hold A N v' /\
  (forall id n c, In (id, n, c) (columns (qp_tabs 1 7)) -> reads A N v id n c) /\
  exists u u' a hs, nth_error l 3 = Some (u, TZero a, hs, u') /\ in_session ix_o u /\ verify1 ix_o true u (TZero a) = Ok (hs, u') /\ vcalls ix_o u' v'.
Proof.
  destruct (ix_fine _ _ _ _ _ _ (proj1 C58_ex)) as [vk [cp [v [ids [v' [A [N [H1 [H2 [H3 H4]]]]]]]]]]. pose proof (run_session _ _ _ _ _ _ _ H1) as S. destruct (C58_verifier _ _ _ _ _ _ _ S H2) as [l [W L]].
  eexists v, _, v', A, N, l. split; [exact S|]. split; [exact H2|]. split; [exact W|].
  inversion W as [|? ? ? ? ? r1 ? _ W1]; subst. inversion W1 as [|? ? ? ? ? r2 ? _ W2]; subst. inversion W2 as [|? ? ? ? ? r3 ? _ W3]; subst. inversion W3 as [|? ? ? ? ? r4 ? _ W4]; subst. inversion W4 as [|? ? ? ? ? r5 ? _ W5]; subst.
  inversion W5 as [|? ? ? ? ? r6 ? _ W6]; subst. inversion W6; subst. split; [reflexivity|]. split; [exact H3|]. split; [exact H4|]. do 4 eexists. split; [reflexivity|].
  do 3 apply Forall_inv_tail in L. exact (Forall_inv L).
Qed.
Print Assumptions C58_ex_verifier.

(** The plan can be run from the history of six commitments, whatever the entry [y]. *)
Example C58_ex_prover : forall y, exists ck vk s hs, setting ix_o (fun n => n) 2 ck vk (commits (qp_tabs 1 y)) (nexts (qp_tabs 1 y)) s hs 1 30 /\ posed true 2 30 (at_start (commits (qp_tabs 1 y)) hs 1) (qp hs).
Proof.
  intros y. destruct (ex_tabs 2 (qp_tabs 1 y) ltac:(vm_compute; reflexivity)) as [ck [vk [s [hs [H1 [H0 [_ H2]]]]]]]. exists ck, vk, s, hs. split; [exact H1|]. clear H1.
  destruct (H2 [0; 1] 2 2 [[1; 2; 3; 4]; [5; 6; 7; 8]]%Z [1; 1; 1; 1]%Z ltac:(repeat constructor) ltac:(reflexivity)) as [[A1 A2] A3]. destruct (H2 [3; 4] 5 1 [[1; 3]; [5; y]]%Z [1; 1]%Z ltac:(repeat constructor) ltac:(reflexivity)) as [[B1 B2] B3]. clear H2.
  assert (One : forall n, boolean (repeat (@F1 101) n)) by (intros n; apply Forall_forall; intros z Hz; right; exact (repeat_spec _ _ _ Hz)).
  assert (Kt : forall t cols sl, Forall2 (fun c l => stands (commits (qp_tabs 1 y)) hs c l /\ tp_nv c = t_nv t) (t_cols t) cols -> stands (commits (qp_tabs 1 y)) hs (t_sel t) sl -> table_known (at_start (commits (qp_tabs 1 y)) hs 1) t cols sl 1).
  { intros t cols sl X Y. split; [|split; [exact Y|constructor]]. clear -X. induction X as [|c l cs ls [X1 X2] _ IH]; constructor; [|exact IH]. split; [split; [exact X1|constructor]|exact X2]. }
  eapply p_then.
  - eapply c_join with (ac := map (map ofZ) [[1; 2; 3; 4]; [5; 6; 7; 8]]%Z) (asl := repeat F1 4) (bc := map (map ofZ) [[1; 3]; [5; y]]%Z) (bsl := repeat F1 2) (d := 1).
    + exact (Kt _ _ _ A1 A2).
    + exact (Kt _ _ _ B1 B2).
    + apply One.
    + apply One.
    + cbn; repeat constructor.
    + cbn; repeat constructor.
    + constructor.
    + cbn; repeat constructor.
    + rewrite B3. vm_compute; repeat constructor.
    + intros [|[|i]] Hi [_ Q]; [apply (Q 0)|apply (Q 2)|do 2 apply le_S_n in Hi; inversion Hi]; try reflexivity; cbn; repeat constructor.
    + intros _. cbn [nth map]. repeat (apply NoDup_cons; [|]); [| | | |apply NoDup_nil]; cbn [In]; intros Q; repeat (destruct Q as [Q|Q]; [apply (f_equal val) in Q; vm_compute in Q; discriminate|]); exact Q.
  - cbv beta zeta. intros js rs out [ta [tcs [r [h [-> [L1 [N1 [-> [L2 [N2 [_ _]]]]]]]]]]]. rewrite B3 in N1, N2. cbn [ptab t_cols t_sel map length] in L1 |- *. destruct ta as [|t0 [|t1 [|t2 ta]]]; try discriminate L1. destruct tcs as [|x0 [|x1 [|x2 tcs]]]; try discriminate L2.
    clear L1 L2. inversion N1 as [|? ? T0 N1']; subst. inversion N1' as [|? ? T1 _]; subst. clear N1 N1'. inversion N2 as [|? ? X0 N2']; subst. inversion N2' as [|? ? X1 _]; subst. clear N2 N2' Kt out r h.
    destruct (H0 3 1 [1; 3]%Z eq_refl) as [_ V3]. destruct (H0 4 1 [5; y]%Z eq_refl) as [_ V4]. destruct (H0 5 1 [1; 1]%Z eq_refl) as [_ V5]. clear H0.
    set (js := [t0; t1] ++ [th hs 3; th hs 4] ++ [th hs 5]). set (K := learn _ js _).
    assert (K0 : K t0 x0 1) by (right; exists 1; split; [left; reflexivity|constructor]). assert (K1 : K t1 x1 1) by (right; exists 1; split; [right; left; reflexivity|constructor]).
    assert (K2 : K (th hs 3) (map ofZ [1; 3]%Z) 1) by (right; exists 1; split; [do 2 right; left; reflexivity|constructor]). assert (K3 : K (th hs 4) (map ofZ [5; y]%Z) 1) by (right; exists 1; split; [do 3 right; left; reflexivity|constructor]).
    assert (K4 : K (th hs 5) (repeat F1 2) 1) by (right; exists 1; split; [do 4 right; left; reflexivity|constructor]).
    assert (Mo : forall (K' : known (p:=101)) h rs a l d, K' a l d -> learn K' h rs a l d) by (intros; left; assumption).
    eapply p_then; [eapply c_sub; [exact K0|exact K2|cbn; congruence|cbn; repeat constructor]|]. intros ds rs out [c [-> [NC [-> _]]]].
    eapply p_then; [eapply c_mul; [right; exists 1; split; [left; reflexivity|constructor]|apply Mo; exact K4|cbn in NC |- *; congruence|cbn; repeat constructor]|]. intros zs rs out' [z [-> [NZ [-> _]]]].
    eapply p_then; [eapply c_zero; right; eexists; split; [left; reflexivity|constructor]|]. intros ? ? ? [-> [-> _]].
    eapply p_then; [eapply c_bag_eq with (l := x1) (sl := repeat F1 2) (l' := map ofZ [5; y]%Z) (sl' := repeat F1 2) (d := 1)|].
    + split; [do 3 apply Mo; exact K1|]. split; [do 3 apply Mo; exact K4|cbn; congruence].
    + split; [do 3 apply Mo; exact K3|]. split; [do 3 apply Mo; exact K4|cbn; congruence].
    + unfold b_nv; cbn; congruence.
    + constructor.
    + cbn; repeat constructor.
    + apply One.
    + apply One.
    + rewrite X1. vm_compute; repeat constructor.
    + intros ? ? ? [-> [-> _]]. eapply p_then; [eapply c_bag_eq with (l := x0) (sl := repeat F1 2) (l' := map ofZ [1; 3]%Z) (sl' := repeat F1 2) (d := 1)|intros; constructor].
      * split; [do 4 apply Mo; exact K0|]. split; [do 4 apply Mo; exact K4|cbn; congruence].
      * split; [do 4 apply Mo; exact K2|]. split; [do 4 apply Mo; exact K4|cbn; congruence].
      * unfold b_nv; cbn; congruence.
      * constructor.
      * cbn; repeat constructor.
      * apply One.
      * apply One.
      * rewrite X0. vm_compute; repeat constructor.
Qed.

(** The cross product of a column (1,2), whose second row is not selected, with (3,4); then claim that the selected rows are (1,3) and (1,z). *)
Definition xp_tabs (z : Z) : list (nat * list Z) := [(1, [1; 2]%Z); (1, [1; 0]%Z); (1, [3; 4]%Z); (1, [1; 1]%Z); (2, [9; z; 3; 9]%Z); (2, [0; 1; 1; 0]%Z)].
Definition xp (hs : list tpoly) : plan (p:=101) :=
  Then (TCross (ptab hs [0] 1) (ptab hs [2] 3)) (fun cs =>
  Then (TBagEq (mkBag (th cs 1) (th cs 2)) (mkBag (th hs 4) (th hs 5))) (fun _ => Finish)).
Definition xp_run (z : Z) : option IopFix.outcome :=
  ix_run 2 (commits (xp_tabs z)) (nexts (xp_tabs z)) (fun s hs => prove_plan ix_o true s (xp hs))
    (fun v ids => verify_plan ix_o (xp (map (fun it => mkTp (fst it) (fst (snd it))) (combine ids (xp_tabs z)))) true v) (columns (xp_tabs z)).
Example C58_ex_cross : xp_run 4 = Some Fine /\ xp_run 5 = Some NotVerified.
Proof. vm_compute. split; reflexivity. Qed.
Print Assumptions C58_ex_cross.

(** That plan can be run, whatever [z]. *)
Example C58_ex_cross_prover : forall z, exists ck vk s hs, setting ix_o (fun n => n) 2 ck vk (commits (xp_tabs z)) (nexts (xp_tabs z)) s hs 1 30 /\ posed true 2 30 (at_start (commits (xp_tabs z)) hs 1) (xp hs).
Proof.
  intros z. destruct (ex_tabs 2 (xp_tabs z) ltac:(vm_compute; reflexivity)) as [ck [vk [s [hs [H1 [H0 [_ H2]]]]]]]. exists ck, vk, s, hs. split; [exact H1|]. clear H1.
  destruct (H2 [0] 1 1 [[1; 2]]%Z [1; 0]%Z ltac:(repeat constructor) ltac:(reflexivity)) as [[A1 A2] A3]. destruct (H2 [2] 3 1 [[3; 4]]%Z [1; 1]%Z ltac:(repeat constructor) ltac:(reflexivity)) as [[B1 B2] B3]. destruct (H0 4 2 [9; z; 3; 9]%Z eq_refl) as [V4 W4]. destruct (H0 5 2 [0; 1; 1; 0]%Z eq_refl) as [V5 W5]. clear H0 H2.
  assert (Kt : forall t cols sl, Forall2 (fun c l => stands (commits (xp_tabs z)) hs c l /\ tp_nv c = t_nv t) (t_cols t) cols -> stands (commits (xp_tabs z)) hs (t_sel t) sl -> table_known (at_start (commits (xp_tabs z)) hs 1) t cols sl 1).
  { intros t cols sl X Y. split; [|split; [exact Y|constructor]]. clear -X. induction X as [|c l cs ls [X1 X2] _ IH]; constructor; [|exact IH]. split; [split; [exact X1|constructor]|exact X2]. }
  eapply p_then; [eapply c_cross with (d := 1); [exact (Kt _ _ _ A1 A2)|exact (Kt _ _ _ B1 B2)|rewrite A3, B3; constructor|rewrite A3, B3; constructor|repeat constructor]|].
  rewrite A3, B3. intros cs rs out [cc [sel [-> [L [N [-> _]]]]]]. cbn [ptab t_cols map length] in L. destruct cc as [|c0 [|c1 [|c2 cc]]]; try discriminate L. clear L. inversion N as [|? ? N0 N']; subst. inversion N' as [|? ? N1 N'']; subst. inversion N'' as [|? ? N2 _]; subst. clear N N' N''.
  eapply p_then; [|intros; constructor]. eapply c_bag_eq with (l := repeat_all 2 (map ofZ [3; 4]%Z)) (sl := cross_sel 1 1 (map ofZ [1; 0]%Z) (map ofZ [1; 1]%Z)) (l' := map ofZ [9; z; 3; 9]%Z) (sl' := map ofZ [0; 1; 1; 0]%Z) (d := 2).
  - split; [right; exists 1; split; [right; left; reflexivity|repeat constructor]|]. split; [right; exists 2; split; [right; right; left; reflexivity|constructor]|]. exact (eq_trans N1 (eq_sym N2)).
  - split; [left; split; [exact V4|repeat constructor]|]. split; [left; split; [exact V5|repeat constructor]|]. exact (eq_trans W4 (eq_sym W5)).
  - exact (eq_trans N1 (eq_sym W4)).
  - repeat constructor.
  - cbn; repeat constructor.
  - repeat (constructor; [first [left; apply Fp.val_inj; vm_compute; reflexivity|right; apply Fp.val_inj; vm_compute; reflexivity]|]); constructor.
  - repeat (constructor; [first [left; apply Fp.val_inj; vm_compute; reflexivity|right; apply Fp.val_inj; vm_compute; reflexivity]|]); constructor.
  - cbn; vm_compute; repeat constructor.
Qed.
Print Assumptions C58_ex_cross_prover.
