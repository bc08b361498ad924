(** C50: the cross product of two tables. *)
From Coq Require Import String List Arith Bool ZArith Znumtheory.
Import ListNotations.
From Verif Require Import Res Fp FSum SpecMle SpecPoly SpecTracker SpecIop SpecRel ModelMle ModelTranscript ModelSumcheck Pairing ModelKzg ModelProver ModelVerifier ModelAdvice ModelIop
  ProverHist VerifierHist SessHist SessProofs CompileHist IopHist IopFix IopEx CrossProofs CrossEval.
Local Open Scope list_scope.
Local Open Scope nat_scope.

(** The prover's table: every entry of a left column repeated in place, every right column repeated as a whole, the selectors multiplied. Nothing is committed, claimed
    or drawn, and a verifier at the same id counter that makes its call gets the same ids. *)
Theorem C50_prover : forall (p : positive) (E : pairing p) (o : oracle p (gcar (PG1 E))) pp ops s hs debug a b ca cb sa sb, prun o pp ops = Ok (s, hs) -> 1 <= commit_calls ops ->
  table_stands ops hs a ca sa -> table_stands ops hs b cb sb ->
  exists t s' more hs', cross_prove debug s a b = Ok (t, s') /\ prun o pp (ops ++ more) = Ok (s', hs ++ hs') /\
    t_nv t = t_nv a + t_nv b /\ table_stands (ops ++ more) (hs ++ hs') t (cross_cols (t_nv a) (t_nv b) ca cb) (cross_sel (t_nv a) (t_nv b) sa sb) /\
    pt_tr s' = pt_tr s /\ pt_comm s' = pt_comm s /\ pt_zc s' = pt_zc s /\ pt_sc s' = pt_sc s /\
    forall v : vtrk E, vt_next v = pt_next s -> exists v', cross_verify v (tcomm_of a) (tcomm_of b) = (tcomm_of t, v') /\ vt_next v' = pt_next s' /\
      vt_tr v' = vt_tr v /\ vt_mat v' = vt_mat v /\ vt_zc v' = vt_zc v /\ vt_sc v' = vt_sc v.
Proof. exact @cross_prover. Qed.
Print Assumptions C50_prover.

(** Such a table is the cross product: row [i * 2 ^ nb + j] is row [i] of the left table followed by row [j] of the right one, selected by the product of the two
    selector entries; so its selected rows are exactly the pairs of selected rows, each once. *)
Theorem C50_rows : forall (p : positive), prime (Zpos p) -> forall na nb (ca cb : list (list (F p))) sa sb,
  Forall (fun l => length l = 2 ^ na) ca -> Forall (fun l => length l = 2 ^ nb) cb -> length sa = 2 ^ na -> length sb = 2 ^ nb ->
  let cols := cross_cols na nb ca cb in let sel := cross_sel na nb sa sb in
  length sel = 2 ^ (na + nb) /\
  (forall i j, i < 2 ^ na -> j < 2 ^ nb -> row cols (i * 2 ^ nb + j) = row ca i ++ row cb j /\ nth (i * 2 ^ nb + j) sel F0 = (nth i sa F0 * nth j sb F0)%F) /\
  table_rows cols sel = cross_rows (table_rows ca sa) (table_rows cb sb).
Proof. exact @cross_is. Qed.
Print Assumptions C50_rows.

(** The verifier's table is read as the same columns, if the right table has no more variables than the left one. *)
Theorem C50_verifier : forall (p : positive) (E : pairing p) (o : oracle p (gcar (PG1 E))), prime (Zpos p) -> 2 < fsize p -> forall v, in_session o v ->
  forall a b t v', cross_verify v a b = (t, v') -> tc_nv b <= tc_nv a ->
  forall A ca cb sa sb, (forall M, tc_nv a <= M -> table_reads A M v a ca sa) -> (forall M, tc_nv b <= M -> table_reads A M v b cb sb) ->
  tc_nv t = tc_nv a + tc_nv b /\ forall M, tc_nv t <= M -> table_reads A M v' t (cross_cols (tc_nv a) (tc_nv b) ca cb) (cross_sel (tc_nv a) (tc_nv b) sa sb).
Proof. intros p E o Hp H2 v HV. exact (cross_reads v (session_ready o Hp H2 v HV)). Qed.
Print Assumptions C50_verifier.

(** If it has more, the property is false: the verifier's commitment for a committed column of the right table has no value at any corner of any cube. *)
Theorem C50_verifier_refuted : forall (p : positive) (E : pairing p) (o : oracle p (gcar (PG1 E))), prime (Zpos p) -> 2 < fsize p -> forall v, in_session o v ->
  forall a b t v', cross_verify v a b = (t, v') -> tc_nv a < tc_nv b ->
  forall A i c, nth_error (tc_cols b) i = Some c -> mget (vt_virt v) c = Some (VQuery c) -> fst (A c) = tc_nv b ->
  exists id, nth_error (tc_cols t) (length (tc_cols a) + i) = Some id /\ forall M j y, ~ means A (vt_virt v') id M j y.
Proof. intros p E o Hp H2 v HV. exact (cross_no_value v (session_ready o Hp H2 v HV)). Qed.
Print Assumptions C50_verifier_refuted.

(** What the verifier evaluates at a point: a left column at the point without its first coordinates, a right column at the first coordinates, the new selector as the product. *)
Theorem C50_evaluates : forall (p : positive) (E : pairing p) (o : oracle p (gcar (PG1 E))), prime (Zpos p) -> 2 < fsize p -> forall v, in_session o v ->
  forall a b t v', cross_verify v a b = (t, v') -> forall x, tc_nv a <= length x -> tc_nv b <= length x ->
  (forall i c y, nth_error (tc_cols a) i = Some c -> eval_virtual_comm v c (skipn (tc_nv b) x) = Ok y -> exists id, nth_error (tc_cols t) i = Some id /\ eval_virtual_comm v' id x = Ok y) /\
  (forall i c y, nth_error (tc_cols b) i = Some c -> eval_virtual_comm v c (firstn (tc_nv a) x) = Ok y -> exists id, nth_error (tc_cols t) (length (tc_cols a) + i) = Some id /\ eval_virtual_comm v' id x = Ok y) /\
  (forall y z, eval_virtual_comm v (tc_sel a) (skipn (tc_nv b) x) = Ok y -> eval_virtual_comm v (tc_sel b) (firstn (tc_nv a) x) = Ok z -> eval_virtual_comm v' (tc_sel t) x = Ok (y * z)%F).
Proof. intros p E o Hp H2 v HV. exact (cross_evaluates v (session_ready o Hp H2 v HV)). Qed.
Print Assumptions C50_evaluates.

(** The helper functions front_alias_tracked_poly and back_alias_tracked_poly build the same columns. *)
Theorem C50_alias : forall (p : positive) (E : pairing p) (o : oracle p (gcar (PG1 E))) pp ops s hs a l k, prun o pp ops = Ok (s, hs) -> stands ops hs a l ->
  (exists h s', front_alias s a k = Ok (h, s') /\ tp_nv h = tp_nv a + k /\ exists s'', tp_evaluations s' h = Ok (repeat_each (2 ^ k) l, s'')) /\
  (exists h s', back_alias s a k = Ok (h, s') /\ tp_nv h = tp_nv a + k /\ exists s'', tp_evaluations s' h = Ok (repeat_all (2 ^ k) l, s'')).
Proof. exact @alias_tables. Qed.
Print Assumptions C50_alias.

(** A table with two columns and four rows, and one with a column and two rows. *)
Definition cr_tabs : list (nat * list Z) := [(2, [1; 2; 3; 4]%Z); (2, [5; 6; 7; 8]%Z); (2, [1; 1; 0; 1]%Z); (1, [10; 20]%Z); (1, [0; 1]%Z)].
Definition cr_run (f : ptrk E101 -> list tpoly -> res (table * ptrk E101)) : option (list (list Z) * list Z) :=
  match (' (ck, _) <- ix_keys 3 ;; prun ix_o ck (commits cr_tabs)) with
  | Ok (s, hs) =>
      match (' (t, s) <- f s hs ;; ls <- mapM (fun c => ' (l, _) <- tp_evaluations s c ;; Ok l) (t_cols t) ;; ' (sl, _) <- tp_evaluations s (t_sel t) ;; Ok (ls, sl)) with
      | Ok (ls, sl) => Some (map (map val) ls, map val sl)
      | _ => None
      end
  | _ => None
  end.
Example C50_ex : cr_run (fun s hs => cross_prove true s (ptab hs [0; 1] 2) (ptab hs [3] 4)) =
  Some ([[1; 1; 2; 2; 3; 3; 4; 4]; [5; 5; 6; 6; 7; 7; 8; 8]; [10; 20; 10; 20; 10; 20; 10; 20]]%Z, [0; 1; 0; 1; 0; 0; 0; 1]%Z).
Proof. vm_compute. reflexivity. Qed.

(** The verifier's side: tables of two and one variables whose columns are closures, evaluated at a point of three coordinates. *)
Definition cr_fun (f : list (F 101) -> F 101) : vop E101 := VOFun (fun x => Ok (f x)).
Definition cr_verify (x : list Z) : option (list Z) :=
  match vrun (E:=E101) ix_o true (mkVpar (E:=E101) 3 F1 F1 []) (mkCproof (E:=E101) [] [] (mkProof [] []) 0 0 [] [])
      [cr_fun (fun x => nth 0 x F0); cr_fun (fun x => nth 1 x F0); cr_fun (fun x => nth 0 x F0 + F1)%F; cr_fun (fun x => nth 0 x F0 + nth 1 x F0)%F] with
  | Ok (v, _) => let '(t, v') := cross_verify v (mkTablec [0] 1 2) (mkTablec [2] 3 1) in
      match mapM (fun id => eval_virtual_comm v' id (map ofZ x)) (tc_cols t ++ [tc_sel t]) with Ok l => Some (map val l) | _ => None end
  | _ => None
  end.
Example C50_ex_evaluates : cr_verify [3; 5; 7]%Z = Some [5; 4; 56]%Z.
Proof. vm_compute. reflexivity. Qed.

(** The hypotheses of the prover's theorem are met by this history. *)
Example C50_ex_prover : exists ck s hs, prun ix_o ck (commits cr_tabs) = Ok (s, hs) /\ 1 <= commit_calls (commits cr_tabs) /\
  table_stands (commits cr_tabs) hs (ptab hs [0; 1] 2) [map ofZ [1; 2; 3; 4]%Z; map ofZ [5; 6; 7; 8]%Z] (map ofZ [1; 1; 0; 1]%Z) /\ table_stands (commits cr_tabs) hs (ptab hs [3] 4) [map ofZ [10; 20]%Z] (map ofZ [0; 1]%Z).
Proof.
  destruct (ex_setting 2 cr_tabs ltac:(vm_compute; reflexivity)) as [ck [vk [s [hs [H1 H2]]]]]. exists ck, s, hs. split; [exact (st_run _ _ _ _ _ _ _ _ _ _ _ H1)|]. split; [repeat constructor|].
  destruct (H2 0 _ eq_refl) as [A0 B0]. destruct (H2 1 _ eq_refl) as [A1 B1]. destruct (H2 2 _ eq_refl) as [A2 B2]. destruct (H2 3 _ eq_refl) as [A3 B3]. destruct (H2 4 _ eq_refl) as [A4 B4]. clear H1 H2.
  cbn [fst snd] in *. unfold table_stands, t_nv. cbn [ptab map t_cols t_sel]. rewrite B2, B4. split; (split; [|assumption]); repeat (apply Forall2_cons; [split; assumption|]); apply Forall2_nil.
Qed.

(** All selected pairs of rows of a table (5,5) and a table (5,y) have equal entries: the claim (left - right) * selector = 0 on the cross product. The first tables only
    make the cube large enough. Both tables have one variable; then the left one has two; then the right one. *)
Definition eq_tabs (na nb : nat) (y : Z) : list (nat * list Z) := [(3, [0; 1; 2; 3; 4; 5; 6; 7]%Z);
  (na, repeat 5%Z (2 ^ na)); (na, repeat 1%Z (2 ^ na)); (nb, 5%Z :: repeat y (2 ^ nb - 1)); (nb, 1%Z :: repeat 0%Z (2 ^ nb - 2) ++ [1%Z])].
Definition eq_prove (s : ptrk E101) (a b : table) : res (ptrk E101) :=
  ' (t, s) <- cross_prove true s a b ;; ' (d, s) <- tp_sub s (th (t_cols t) 0) (th (t_cols t) 1) ;; ' (d, s) <- tp_mul s d (t_sel t) ;; Ok (add_zerocheck_claim s (tp_id d)).
Definition eq_verify (v : vtrk E101) (a b : tablec) : res (vtrk E101) :=
  let '(t, v) := cross_verify v a b in let '(d, v) := sub_comms v (vth (tc_cols t) 0) (vth (tc_cols t) 1) in let '(d, v) := mul_comms v d (tc_sel t) in Ok (v_add_zerocheck_claim v d).
Definition eq_run (na nb : nat) (y : Z) : option outcome :=
  ix_run 3 (commits (eq_tabs na nb y)) (nexts (eq_tabs na nb y)) (fun s hs => eq_prove s (ptab hs [1] 2) (ptab hs [3] 4)) (fun v ids => eq_verify v (vtab ids [1] 2 na) (vtab ids [3] 4 nb)) (columns (eq_tabs na nb y)).
Example C50_ex_verifier : eq_run 1 1 5 = Some Fine /\ eq_run 2 1 5 = Some Fine /\ eq_run 1 1 6 = Some NotCompiled.
Proof. vm_compute. repeat split. Qed.
(** With the larger table on the right the honest proof is accepted, but the verifier's claim has no value. *)
Example C50_ex_refuted : eq_run 1 2 5 = Some Untrue.
Proof. vm_compute. reflexivity. Qed.
(** Committed columns meet the hypotheses of the verifier's theorem, over every cube. *)
Example C50_ex_reads : forall vk cp c0 c1 c2 c3, exists v ids, vrun ix_o true vk cp [VOComm c0; VOComm c1; VOComm c2; VOComm c3] = Ok (v, ids) /\
  let A := fun i => (1, fun j => nth j (nth i [map ofZ [5; 5]; map ofZ [1; 1]; map ofZ [5; 6]; map ofZ [1; 0]]%Z []) F0) in
  (forall M, 1 <= M -> table_reads A M v (vtab ids [0] 1 1) [map ofZ [5; 5]%Z] (map ofZ [1; 1]%Z)) /\ (forall M, 1 <= M -> table_reads A M v (vtab ids [2] 3 1) [map ofZ [5; 6]%Z] (map ofZ [1; 0]%Z)).
Proof.
  intros vk cp c0 c1 c2 c3. destruct (four_comms ix_o vk cp c0 c1 c2 c3) as [v [H1 H2]]. exists v, [0; 1; 2; 3]. split; [exact H1|]. cbv zeta. unfold table_reads, vtab, vth. cbn [map nth tc_cols tc_sel tc_nv].
  split; intros M HM; (split; [apply Forall2_cons; [|apply Forall2_nil]|]); (apply committed_reads; [apply H2; repeat constructor|reflexivity|reflexivity|exact HM]).
Qed.
