(** C51, C52, C53, C54: folded rows, joins and grouping. *)
From Coq Require Import String List Arith Bool ZArith Znumtheory Permutation.
Import ListNotations.
From Verif Require Import Res Fp FSum SpecMle SpecPoly SpecTracker SpecIop SpecRel SpecJoin ModelMle ModelTranscript Pairing ModelKzg ModelProver ModelVerifier ModelAdvice ModelIop
  ProverHist VerifierHist SessHist CompileHist IopHist IopRes IopFix IopEx CompClaims RelClaims CompCheck2 SessProofs CoefProofs.
Local Open Scope list_scope.
Local Open Scope nat_scope.

(** The range 0 to 7 that the examples commit to first. *)
Definition to7 : list (nat * list Z) := [(3, [0; 1; 2; 3; 4; 5; 6; 7]%Z); (3, [1; 1; 1; 1; 1; 1; 1; 1]%Z)].

(** ** C51: folding rows *)

(** The verifier's folded column: in every row, the product of the selector and the entries, each times its coefficient. *)
Theorem C51_folded : forall (p : positive) (E : pairing p) (o : oracle p (gcar (PG1 E))), prime (Zpos p) -> 2 < fsize p ->
  forall v, in_session o v -> forall A N t rs b v' cols sl, row_agg_verify v t rs = Ok (b, v') -> table_reads A N v t cols sl ->
  bc_sel b = tc_sel t /\ bc_nv b = tc_nv t /\ reads A N v' (bc_poly b) (tc_nv t) (aggregated rs cols sl).
Proof. intros p E o Hp H2 v HV. exact (row_agg_reads Hp H2 v (session_ready o Hp H2 v HV)). Qed.
Print Assumptions C51_folded.
(** Too few coefficients panic. *)
Theorem C51_short : forall (p : positive) (E : pairing p) (v : vtrk E) t rs, length rs < length (tc_cols t) -> row_agg_verify v t rs = Panic.
Proof. exact @row_agg_short. Qed.
Print Assumptions C51_short.
(** Where the coefficients come from. With the same transcript the prover and the verifier draw the same ones, as many as asked for: one challenge each, or the powers of one challenge.
    Nothing but the transcript changes, and it stays the same on both sides. *)
Theorem C51_coefficients : forall (p : positive) (E : pairing p) (o : oracle p (gcar (PG1 E))) n (s : ptrk E) (v : vtrk E), pt_tr s = vt_tr v -> is_empty (pt_tr s) = false ->
  (exists rs t, sample_rands_prove o n s = Ok (rs, set_tr s t) /\ sample_rands_verify o n v = Ok (rs, set_vtr v t) /\ length rs = n /\ drawn (pt_tr s) t = rs) /\
  (exists r rs t, rand_powers_prove o n s = Ok (rs, set_tr s t) /\ rand_powers_verify o n v = Ok (rs, set_vtr v t) /\ drawn (pt_tr s) t = [r] /\
    length rs = n /\ forall i, i < n -> nth_error rs i = Some (Fpow r i)).
Proof. exact @coefficients. Qed.
Print Assumptions C51_coefficients.
(** Before anything was appended to the transcript both fail. *)
Theorem C51_no_coefficients : forall (p : positive) (E : pairing p) (o : oracle p (gcar (PG1 E))) n (s : ptrk E) (v : vtrk E),
  (is_empty (pt_tr s) = true -> rand_powers_prove o n s = Err TranscriptInvalid /\ sample_rands_prove o (S n) s = Err TranscriptInvalid) /\
  (is_empty (vt_tr v) = true -> rand_powers_verify o n v = Err TranscriptInvalid /\ sample_rands_verify o (S n) v = Err TranscriptInvalid).
Proof. exact @no_coefficients. Qed.
Print Assumptions C51_no_coefficients.
Example C51_ex_coefficients :
  let t := pt_new (mkPp (E:=exp_pairing 13) 0 [] (ofZ 2) (ofZ 7)) in let o : oracle 13 (gcar (PG1 (exp_pairing 13))) := fun h _ => ofN (3 + length h) in
  let s := set_tr t (append "x"%string (PBytes [1]) (pt_tr t)) in
  match sample_rands_prove o 3 s, rand_powers_prove o 3 s with Ok (a, _), Ok (b, _) => Some (map val a, map val b) | _, _ => None end = Some ([5; 7; 9], [1; 5; 12])%Z.
Proof. vm_compute. reflexivity. Qed.
(** Refuted: "different rows are folded into different values for most coefficients". Rows with the same entries in another order are folded into the same value for
    all coefficients. *)
Theorem C51_distinct_refuted : forall (p : positive) rs (cols : list (list (F p))) sl j k, length rs = length cols -> j < length sl -> k < length sl -> nth j sl F0 = nth k sl F0 ->
  Permutation (row cols j) (row cols k) -> nth j (aggregated rs cols sl) F0 = nth k (aggregated rs cols sl) F0.
Proof. exact @agg_collide. Qed.
Print Assumptions C51_distinct_refuted.
(** What true claims of the index transform prove: every selected row of the output has the product of its entries in common with a selected row of the input. *)
Theorem C51_transform : forall (p : positive) (E : pairing p) (o : oracle p (gcar (PG1 E))), prime (Zpos p) -> 2 < fsize p ->
  forall v v' v'', in_session o v -> vcalls o v' v'' ->
  forall A N, claims_hold A N v'' -> forall dbg ti to ic isl oc osl, index_transform_verify o dbg v ti to = Ok v' -> 2 ^ N < fsize p -> length (tc_cols to) = length (tc_cols ti) ->
  table_reads A N v ti ic isl -> table_reads A N v to oc osl -> boolean isl -> boolean osl ->
  exists m r h, drawn (vt_tr v) (vt_tr v') = [r; h] /\ received v v' m /\
    let rs := powers r (length (tc_cols ti)) in
    (r <> F0 -> ~ unlucky (combine (aggregated rs oc osl) osl) (wcol (aggregated rs ic isl) isl (averaged A N m (tc_nv ti))) h ->
      forall k, k < 2 ^ tc_nv to -> nth k osl F0 <> F0 -> exists k', k' < 2 ^ tc_nv ti /\ nth k' isl F0 <> F0 /\ Fprod (row oc k) = Fprod (row ic k')).
Proof. intros p E o Hp H2 v v' v'' HV HL A N HC. exact (index_transform_claims o Hp H2 v v' v'' A N (session_ready o Hp H2 v HV) (vcalls_go o Hp H2 v' v'' HL) HC). Qed.
Print Assumptions C51_transform.

(** The table with the rows (1,5), (2,6), (3,7), (4,8), the third selected or not, and the output table with the rows (x,y), (1,5). *)
Definition it_tabs (t x y : Z) : list (nat * list Z) := [(2, [1; 2; 3; 4]%Z); (2, [5; 6; 7; 8]%Z); (2, [1; 1; t; 1]%Z); (1, [x; 1]%Z); (1, [y; 5]%Z); (1, [1; 1]%Z)].
Definition it_prove (s : ptrk E101) (hs : list tpoly) := index_transform_prove ix_o true s (ptab hs [0; 1] 2) (ptab hs [3; 4] 5).
Definition it_verify (v : vtrk E101) (ids : list nat) := index_transform_verify ix_o true v (vtab ids [0; 1] 2 2) (vtab ids [3; 4] 5 1).
Definition it_run (t x y : Z) : option outcome := ix_run 2 (commits (it_tabs t x y)) (nexts (it_tabs t x y)) it_prove it_verify (columns (it_tabs t x y)).
Example C51_ex : it_run 1 3 7 = Some Fine /\ it_run 1 3 6 = Some NotVerified /\ it_run 0 3 7 = Some NotVerified /\ it_run 1 7 3 = Some Fine.
Proof. vm_compute. repeat split. Qed.
Example C51_ex_transform : exists vk cp v ids v' A N, vrun ix_o true vk cp (nexts (it_tabs 1 3 7)) = Ok (v, ids) /\ it_verify v ids = Ok v' /\ claims_hold A N v' /\
  forall id n l, In (id, n, l) (columns (it_tabs 1 3 7)) -> reads A N v id n l.
Proof. exact (ix_fine _ _ _ _ _ _ (proj1 C51_ex)). Qed.
(** Refuted: "an accepted index transform outputs rows of the input". The row (7,3) is not in the input; the honest prover's proof is accepted. *)
Theorem C51_transform_refuted : good_run 2 (commits (it_tabs 1 7 3)) (nexts (it_tabs 1 7 3)) it_prove it_verify (columns (it_tabs 1 7 3)).
Proof. exact (ix_good _ _ _ _ _ _ (proj2 (proj2 (proj2 C51_ex)))). Qed.
Print Assumptions C51_transform_refuted.

(** The honest prover, whose multiplicities are [ml]. Off the bad challenges, an output whose selected rows have products of the input's is accepted, and another is not. *)
Theorem C51_prover : forall (p : positive) (E : pairing p), pairing_laws E -> prime (Zpos p) ->
  forall (o : oracle p (gcar (PG1 E))) addr k ck vk ops vops s hs d D, setting o addr k ck vk ops vops s hs d D -> 1 <= D -> d <= D ->
  forall dbg ti to ic isl oc osl, table_stands ops hs ti ic isl -> table_stands ops hs to oc osl -> boolean isl -> boolean osl -> length (t_cols to) = length (t_cols ti) ->
  1 <= d -> 2 * (d + length (t_cols ti) * d) + 1 <= D -> 2 ^ t_nv to < fsize p ->
  exists s' r h ml, index_transform_prove o dbg s ti to = Ok s' /\ drawn (pt_tr s) (pt_tr s') = [r; h] /\
    let rs := powers r (length (t_cols ti)) in let il := aggregated rs ic isl in let ol := aggregated rs oc osl in length ml = length il /\ counts_of (rows ol osl) (rows il isl) (wcol il isl ml) /\
    let verify debug v := index_transform_verify o debug v (tcomm_of ti) (tcomm_of to) in
    let avoid := ~ In h (ol ++ il) in
    let right := same_products oc osl ic isl in
    (avoid -> right -> accepted o addr vk vops s' verify) /\
    (r <> F0 -> ~ right -> ~ unlucky (combine ol osl) (wcol il isl ml) h -> turned_down o addr k vk vops s' verify) /\
    (~ avoid -> refused addr k s').
Proof. intros p E HE Hp. exact (index_check HE Hp). Qed.
Print Assumptions C51_prover.

(** Its hypotheses are met by the example's tables. *)
Example C51_ex_prover : exists ck vk s hs, setting ix_o (fun n => n) 2 ck vk (commits (it_tabs 1 3 7)) (nexts (it_tabs 1 3 7)) s hs 1 30 /\
  table_stands (commits (it_tabs 1 3 7)) hs (ptab hs [0; 1] 2) [map ofZ [1; 2; 3; 4]%Z; map ofZ [5; 6; 7; 8]%Z] (map ofZ [1; 1; 1; 1]%Z) /\
  table_stands (commits (it_tabs 1 3 7)) hs (ptab hs [3; 4] 5) [map ofZ [3; 1]%Z; map ofZ [7; 5]%Z] (map ofZ [1; 1]%Z) /\ t_nv (ptab hs [3; 4] 5) = 1 /\
  boolean (map (@ofZ 101) [1; 1; 1; 1]%Z) /\ boolean (map (@ofZ 101) [1; 1]%Z) /\ 2 ^ 1 < fsize 101.
Proof.
  destruct (ex_tabs 2 (it_tabs 1 3 7) ltac:(vm_compute; reflexivity)) as [ck [vk [s [hs [H1 [_ [_ H2]]]]]]]. exists ck, vk, s, hs. split; [exact H1|]. clear H1.
  split; [apply (H2 _ _ 2 [[1; 2; 3; 4]; [5; 6; 7; 8]]%Z [1; 1; 1; 1]%Z); repeat constructor|]. split; [apply (H2 _ _ 1 [[3; 1]; [7; 5]]%Z [1; 1]%Z); repeat constructor|]. split; [apply (H2 _ _ 1 [[3; 1]; [7; 5]]%Z [1; 1]%Z); repeat constructor|]. clear H2.
  repeat split; try (repeat (constructor; [(left; reflexivity) || (right; reflexivity)|]); constructor); vm_compute; repeat constructor.
Qed.

(** ** C52: the reduction of a join *)

(** Whatever else the prover committed to: true claims make the marks boolean and exact on both sides, unless the challenges are unlucky. *)
Theorem C52_verifier : forall (p : positive) (E : pairing p) (o : oracle p (gcar (PG1 E))), prime (Zpos p) -> 2 < fsize p ->
  forall v v' v'', in_session o v -> vcalls o v' v'' ->
  forall A N, claims_hold A N v'' -> forall dbg a b ls rs rx al asl bl bsl lsl rsl rl, join_reduction_verify o dbg v a b ls rs rx = Ok v' ->
  let na := bc_nv a in let nb := bc_nv b in let n := Nat.max na nb + 1 in 2 ^ N < fsize p -> n <= N ->
  bag_reads A N v a al asl -> bag_reads A N v b bl bsl -> reads A N v ls na lsl -> reads A N v rs nb rsl -> reads A N v (bc_poly rx) (bc_nv rx) rl -> boolean asl -> boolean bsl -> small_range rl n ->
  exists got1 got2 got3 m1 m2 ds1 ds2 ds3 h1 h2, drawn (vt_tr v) (vt_tr v') = ds1 ++ ds2 ++ ds3 ++ [h1; h2] /\ Forall (received v v') (got1 ++ got2 ++ got3 ++ [m1; m2]) /\
    let al' := both asl lsl in let bl' := both bsl rsl in let am := both asl (opposite lsl) in let bm := both bsl (opposite rsl) in
    (disjoint_sized A n got1 -> disjoint_sized A (na + 1) got2 -> disjoint_sized A (nb + 1) got3 ->
      disjoint_lucky A N n (bc_nv rx) al al' bl bl' rl got1 ds1 -> disjoint_lucky A N (na + 1) (bc_nv rx) al al' al am rl got2 ds2 -> disjoint_lucky A N (nb + 1) (bc_nv rx) bl bl' bl bm rl got3 ds3 ->
      ~ unlucky (combine al am) (wcol bl bm (averaged A N m1 nb)) h1 -> ~ unlucky (combine bl bm) (wcol al am (averaged A N m2 na)) h2 ->
      boolean lsl /\ boolean rsl /\ marks al asl lsl bl bsl /\ marks bl bsl rsl al asl).
Proof. intros p E o Hp H2 v v' v'' HV HL A N HC. exact (join_reduction_claims o Hp H2 v v' v'' A N (session_ready o Hp H2 v HV) (vcalls_go o Hp H2 v' v'' HL) HC). Qed.
Print Assumptions C52_verifier.

(** The keys (1,2) and (2,3): the rows 0 on the left and 1 on the right have no partner. *)
Definition jr_tabs (l r : list Z) : list (nat * list Z) := to7 ++ [(1, [1; 2]%Z); (1, [1; 1]%Z); (1, [2; 3]%Z); (1, [1; 1]%Z); (1, l); (1, r)].
Definition jr_prove (s : ptrk E101) (hs : list tpoly) := join_reduction_prove ix_o true s (pbag hs 2) (pbag hs 4) (th hs 6) (th hs 7) (pbag hs 0).
Definition jr_verify (v : vtrk E101) (ids : list nat) := join_reduction_verify ix_o true v (vbag ids 2 1) (vbag ids 4 1) (vth ids 6) (vth ids 7) (vbag ids 0 3).
Definition jr_run (l r : list Z) : option outcome := ix_run 3 (commits (jr_tabs l r)) (nexts (jr_tabs l r)) jr_prove jr_verify (columns (jr_tabs l r)).
Example C52_ex : jr_run [1; 0]%Z [0; 1]%Z = Some Fine /\ jr_run [1; 0]%Z [0; 0]%Z = Some NotVerified /\ jr_run [1; 1]%Z [1; 1]%Z = Some NotCompiled.
Proof. vm_compute. repeat split. Qed.
Example C52_ex_verifier : exists vk cp v ids v' A N, vrun ix_o true vk cp (nexts (jr_tabs [1; 0]%Z [0; 1]%Z)) = Ok (v, ids) /\ jr_verify v ids = Ok v' /\ claims_hold A N v' /\
  forall id n l, In (id, n, l) (columns (jr_tabs [1; 0]%Z [0; 1]%Z)) -> reads A N v id n l.
Proof. exact (ix_fine _ _ _ _ _ _ (proj1 C52_ex)). Qed.

(** The honest prover, with boolean marks. Its advice is the merged values [x1], [x2], [x3] of the three disjointness checks, their range multiplicities, and the multiplicities [m4],
    [m5] of the two inclusions. Off the bad challenges, exact marks are accepted if the steps of the merged values are in the range, and other marks are not. *)
Theorem C52_prover : forall (p : positive) (E : pairing p), pairing_laws E -> prime (Zpos p) ->
  forall (o : oracle p (gcar (PG1 E))) addr k ck vk ops vops s hs d D, setting o addr k ck vk ops vops s hs d D -> 1 <= D -> d <= D ->
  forall dbg a b ls rs rx al asl bl bsl lsl rsl rl rrl, bag_stands ops hs a al asl -> bag_stands ops hs b bl bsl -> stands ops hs ls lsl -> tp_nv ls = b_nv a -> stands ops hs rs rsl -> tp_nv rs = b_nv b -> bag_stands ops hs rx rl rrl ->
  boolean asl -> boolean bsl -> boolean lsl -> boolean rsl -> let na := b_nv a in let nb := b_nv b in let n := Nat.max na nb + 1 in n <= k -> 1 <= d -> 4 * d + 3 <= D -> 2 ^ n < fsize p ->
  let al' := both asl lsl in let bl' := both bsl rsl in let am := both asl (opposite lsl) in let bm := both bsl (opposite rsl) in
  exists s' x1 u1 x2 u2 x3 u3 m4 m5 ds1 ds2 ds3 h4 h5, join_reduction_prove o dbg s a b ls rs rx = Ok s' /\ drawn (pt_tr s) (pt_tr s') = ds1 ++ ds2 ++ ds3 ++ [h4; h5] /\
    disjoint_advised n al al' bl bl' rl x1 u1 /\ disjoint_advised (na + 1) al al' al am rl x2 u2 /\ disjoint_advised (nb + 1) bl bl' bl bm rl x3 u3 /\
    length m4 = length bl /\ counts_of (rows al am) (rows bl bm) (wcol bl bm m4) /\ length m5 = length al /\ counts_of (rows bl bm) (rows al am) (wcol al am m5) /\
    let verify debug v := join_reduction_verify o debug v (comm_of a) (comm_of b) (tp_id ls) (tp_id rs) (comm_of rx) in
    let avoid := disjoint_avoids n al bl rl x1 ds1 /\ disjoint_avoids (na + 1) al al rl x2 ds2 /\ disjoint_avoids (nb + 1) bl bl rl x3 ds3 /\ ~ In h4 (al ++ bl) /\ ~ In h5 (al ++ bl) in
    let exact := marks al asl lsl bl bsl /\ marks bl bsl rsl al asl in
    let fit := incl (steps (merged n x1)) rl /\ incl (steps (merged (na + 1) x2)) rl /\ incl (steps (merged (nb + 1) x3)) rl in
    (avoid -> exact -> fit -> accepted o addr vk vops s' verify) /\
    (~ exact -> ~ unlucky (combine al am) (wcol bl bm m4) h4 -> ~ unlucky (combine bl bm) (wcol al am m5) h5 -> turned_down o addr k vk vops s' verify) /\
    (~ fit -> ~ steps_unlucky n rl x1 u1 ds1 -> ~ steps_unlucky (na + 1) rl x2 u2 ds2 -> ~ steps_unlucky (nb + 1) rl x3 u3 ds3 -> turned_down o addr k vk vops s' verify) /\
    (~ avoid -> refused addr k s').
Proof. intros p E HE Hp. exact (reduction_check HE Hp). Qed.
Print Assumptions C52_prover.

(** Marks that are not boolean, even at rows that are not selected: the prover ends, and no check can be compiled. *)
Theorem C52_marks : forall (p : positive) (E : pairing p), pairing_laws E -> prime (Zpos p) ->
  forall (o : oracle p (gcar (PG1 E))) addr k ck vk ops vops s hs d D, setting o addr k ck vk ops vops s hs d D -> 1 <= D -> d <= D ->
  forall dbg a b ls rs rx al asl bl bsl lsl rsl rl rrl, bag_stands ops hs a al asl -> bag_stands ops hs b bl bsl -> stands ops hs ls lsl -> tp_nv ls = b_nv a -> stands ops hs rs rsl -> tp_nv rs = b_nv b -> bag_stands ops hs rx rl rrl ->
  Nat.max (b_nv a) (b_nv b) + 1 <= k -> 1 <= d -> 4 * d + 3 <= D -> ~ (boolean lsl /\ boolean rsl) ->
  exists s', join_reduction_prove o dbg s a b ls rs rx = Ok s' /\ refused addr k s'.
Proof. intros p E HE Hp. exact (reduction_marks HE Hp). Qed.
Print Assumptions C52_marks.
(** The value 2 among the marks. *)
Example C52_ex_marks : jr_run [1; 2]%Z [0; 1]%Z = Some NotCompiled /\ ~ boolean (map (@ofZ 101) [1; 2]%Z).
Proof.
  split; [vm_compute; reflexivity|]. intros H. inversion H as [|x l Hx Hl]; subst. inversion Hl as [|y l' Hy Hl']; subst. destruct Hy as [Hy|Hy]; apply (f_equal Fp.val) in Hy; vm_compute in Hy; discriminate.
Qed.

(** Its hypotheses are met by the example's tables and marks. *)
Example C52_ex_prover : let ts := jr_tabs [1; 0]%Z [0; 1]%Z in exists ck vk s hs, setting ix_o (fun n => n) 3 ck vk (commits ts) (nexts ts) s hs 1 30 /\
  bag_stands (commits ts) hs (pbag hs 2) (map ofZ [1; 2]%Z) (map ofZ [1; 1]%Z) /\ bag_stands (commits ts) hs (pbag hs 4) (map ofZ [2; 3]%Z) (map ofZ [1; 1]%Z) /\
  stands (commits ts) hs (th hs 6) (map ofZ [1; 0]%Z) /\ tp_nv (th hs 6) = b_nv (pbag hs 2) /\ stands (commits ts) hs (th hs 7) (map ofZ [0; 1]%Z) /\ tp_nv (th hs 7) = b_nv (pbag hs 4) /\
  bag_stands (commits ts) hs (pbag hs 0) (map ofZ [0; 1; 2; 3; 4; 5; 6; 7]%Z) (map ofZ [1; 1; 1; 1; 1; 1; 1; 1]%Z) /\ Nat.max (b_nv (pbag hs 2)) (b_nv (pbag hs 4)) + 1 = 2 /\
  boolean (map (@ofZ 101) [1; 1]%Z) /\ boolean (map (@ofZ 101) [1; 0]%Z) /\ boolean (map (@ofZ 101) [0; 1]%Z) /\ 2 ^ 2 < fsize 101.
Proof.
  intros ts. destruct (ex_tabs 3 ts ltac:(vm_compute; reflexivity)) as [ck [vk [s [hs [H1 [H3 [H2 _]]]]]]]. exists ck, vk, s, hs. split; [exact H1|]. clear H1.
  split; [exact (proj1 (H2 2 1 _ _ eq_refl eq_refl))|]. split; [exact (proj1 (H2 4 1 _ _ eq_refl eq_refl))|]. rewrite (proj2 (H2 2 1 _ _ eq_refl eq_refl)), (proj2 (H2 4 1 _ _ eq_refl eq_refl)).
  split; [exact (proj1 (H3 6 1 _ eq_refl))|]. split; [exact (proj2 (H3 6 1 _ eq_refl))|]. split; [exact (proj1 (H3 7 1 _ eq_refl))|]. split; [exact (proj2 (H3 7 1 _ eq_refl))|]. split; [exact (proj1 (H2 0 3 _ _ eq_refl eq_refl))|]. clear H2 H3.
  split; [reflexivity|]. repeat split; try (repeat (constructor; [(left; reflexivity) || (right; reflexivity)|]); constructor); vm_compute; repeat constructor.
Qed.

(** ** C53: the one-to-many join *)

(** The result has the received columns [ta], one per column of [a], followed by the columns of [b]. True claims make the keys agree in every selected row, and
    the row of [ta] has the product of its entries in common with a selected row of [a], unless the challenges are unlucky. *)
Theorem C53_verifier : forall (p : positive) (E : pairing p) (o : oracle p (gcar (PG1 E))), prime (Zpos p) -> 2 < fsize p ->
  forall v v' v'', in_session o v -> vcalls o v' v'' ->
  forall A N, claims_hold A N v'' -> forall dbg a b ai bi res ac asl bc bsl, final_join_verify o dbg v a b ai bi = Ok (res, v') -> 2 ^ N < fsize p ->
  table_reads A N v a ac asl -> table_reads A N v b bc bsl -> boolean asl -> boolean bsl ->
  exists ta m r h, length ta = length (tc_cols a) /\ res = mkTablec (ta ++ tc_cols b) (tc_sel b) (tc_nv b) /\ drawn (vt_tr v) (vt_tr v') = [r; h] /\ Forall (received v v') (ta ++ [m]) /\
    let rs := powers r (length ac) in let tc := map (column A (tc_nv b)) ta in
    (Forall (fun id => fst (A id) <= tc_nv b) ta -> r <> F0 -> ~ unlucky (combine (aggregated rs tc bsl) bsl) (wcol (aggregated rs ac asl) asl (averaged A N m (tc_nv a))) h ->
      forall k, k < 2 ^ tc_nv b -> nth k bsl F0 <> F0 ->
        nth k (nth ai (tc ++ bc) []) F0 = nth k (nth (length tc + bi) (tc ++ bc) []) F0 /\
        exists k', k' < 2 ^ tc_nv a /\ nth k' asl F0 <> F0 /\ Fprod (row tc k) = Fprod (row ac k')).
Proof. intros p E o Hp H2 v v' v'' HV HL A N HC. exact (final_join_claims o Hp H2 v v' v'' A N (session_ready o Hp H2 v HV) (vcalls_go o Hp H2 v' v'' HL) HC). Qed.
Print Assumptions C53_verifier.

(** The table with the rows (1,5), (2,6), (3,7), (4,8), joined on the first columns with the rows (x,7), (3,6), the first selected or not. *)
Definition fj_tabs (x t : Z) : list (nat * list Z) := [(2, [1; 2; 3; 4]%Z); (2, [5; 6; 7; 8]%Z); (2, [1; 1; 1; 1]%Z); (1, [x; 3]%Z); (1, [7; 6]%Z); (1, [t; 1]%Z)].
Definition fj_prove (s : ptrk E101) (hs : list tpoly) := r <- final_join_prove ix_o true s (ptab hs [0; 1] 2) (ptab hs [3; 4] 5) 0 0 ;; Ok (snd r).
Definition fj_verify (v : vtrk E101) (ids : list nat) := r <- final_join_verify ix_o true v (vtab ids [0; 1] 2 2) (vtab ids [3; 4] 5 1) 0 0 ;; Ok (snd r).
Definition fj_run (x t : Z) : option outcome := ix_run 2 (commits (fj_tabs x t)) (nexts (fj_tabs x t)) fj_prove fj_verify (columns (fj_tabs x t)).
Example C53_ex : fj_run 1 1 = Some Fine /\ fj_run 3 1 = Some Fine /\ fj_run 9 0 = Some Fine /\ fj_run 9 1 = Some NoProof.
Proof. vm_compute. repeat split. Qed.
Example C53_ex_verifier : exists vk cp v ids v' A N, vrun ix_o true vk cp (nexts (fj_tabs 1 1)) = Ok (v, ids) /\ fj_verify v ids = Ok v' /\ claims_hold A N v' /\
  forall id n l, In (id, n, l) (columns (fj_tabs 1 1)) -> reads A N v id n l.
Proof. exact (ix_fine _ _ _ _ _ _ (proj1 C53_ex)). Qed.
(** Refuted: "an accepted join pairs every row of [b] with a row of [a]". A prover that is not the code's joins the row (5,7) of [b], whose key is not in [a], with the row
    (5,1): the entries of the row (1,5) in the other order. *)
Definition fjc_prove (s : ptrk E101) (hs : list tpoly) : res (ptrk E101) :=
  m <- from_evaluations 1 (map ofZ [5; 3]%Z) ;; m' <- from_evaluations 1 (map ofZ [1; 7]%Z) ;; ' (x, s) <- tp_commit s m ;; ' (y, s) <- tp_commit s m' ;;
  r <- final_join_prove_with_advice ix_o true s (ptab hs [0; 1] 2) (ptab hs [3; 4] 5) 0 0 [x; y] ;; Ok (snd r).
Example fjc_run_fine : ix_run 2 (commits (fj_tabs 5 1)) (nexts (fj_tabs 5 1)) fjc_prove fj_verify (columns (fj_tabs 5 1)) = Some Fine.
Proof. vm_compute. reflexivity. Qed.
Theorem C53_verifier_refuted : good_run 2 (commits (fj_tabs 5 1)) (nexts (fj_tabs 5 1)) fjc_prove fj_verify (columns (fj_tabs 5 1)).
Proof. exact (ix_good _ _ _ _ _ _ fjc_run_fine). Qed.
Print Assumptions C53_verifier_refuted.

(** The honest prover. It fails if a selected row of [b] has no partner, and in debug mode if a key of [a] occurs twice, selected or not. Otherwise every selected row of [b] is joined with
    the entries of a selected row of [a] that has its key, and off the bad challenges the verifier accepts and has the same result. *)
Theorem C53_prover : forall (p : positive) (E : pairing p), pairing_laws E -> prime (Zpos p) ->
  forall (o : oracle p (gcar (PG1 E))) addr k ck vk ops vops s hs d D, setting o addr k ck vk ops vops s hs d D -> 1 <= D -> d <= D ->
  forall dbg a b ai bi ac asl bc bsl, table_stands ops hs a ac asl -> table_stands ops hs b bc bsl -> boolean asl -> boolean bsl -> ai < length (t_cols a) -> bi < length (t_cols b) ->
  1 <= d -> 2 * (d + length (t_cols a) * d) + 1 <= D -> 2 ^ t_nv b < fsize p ->
  let ka := nth ai ac [] in let kb := nth bi bc [] in
  ((exists i, i < length bsl /\ missing ka asl kb bsl i) -> final_join_prove o dbg s a b ai bi = Err IOPInvalidParameters) /\
  (dbg = true -> ~ NoDup ka -> final_join_prove o dbg s a b ai bi = Err IOPInvalidParameters) /\
  ((forall i, i < length bsl -> ~ missing ka asl kb bsl i) -> (dbg = true -> NoDup ka) ->
    exists s' ta tcs r h, let res := mkTable (ta ++ t_cols b) (t_sel b) in
      final_join_prove o dbg s a b ai bi = Ok (res, s') /\ length ta = length (t_cols a) /\ Forall2 (fun c l => exists s1, tp_evaluations s' c = Ok (l, s1)) (t_cols res) (tcs ++ bc) /\
      joined_rows ac ka asl kb bsl tcs /\ drawn (pt_tr s) (pt_tr s') = [r; h] /\
      let rs := powers r (length (t_cols a)) in
      let avoid := ~ In h (aggregated rs tcs bsl ++ aggregated rs ac asl) in
      let verify debug v := returning (tcomm_of res) (final_join_verify o debug v (tcomm_of a) (tcomm_of b) ai bi) in
      (avoid -> accepted o addr vk vops s' verify) /\ (~ avoid -> refused addr k s')).
Proof. intros p E HE Hp. exact (join_check HE Hp). Qed.
Print Assumptions C53_prover.

(** Its hypotheses are met: with a partner for every row, without one, and with a duplicate key. *)
Example C53_ex_prover : forall x, exists ck vk s hs, setting ix_o (fun n => n) 2 ck vk (commits (fj_tabs x 1)) (nexts (fj_tabs x 1)) s hs 1 30 /\
  table_stands (commits (fj_tabs x 1)) hs (ptab hs [0; 1] 2) [map ofZ [1; 2; 3; 4]%Z; map ofZ [5; 6; 7; 8]%Z] (map ofZ [1; 1; 1; 1]%Z) /\
  table_stands (commits (fj_tabs x 1)) hs (ptab hs [3; 4] 5) [map ofZ [x; 3]%Z; map ofZ [7; 6]%Z] (map ofZ [1; 1]%Z) /\ t_nv (ptab hs [3; 4] 5) = 1 /\
  boolean (map (@ofZ 101) [1; 1; 1; 1]%Z) /\ boolean (map (@ofZ 101) [1; 1]%Z) /\ 2 ^ 1 < fsize 101 /\ NoDup (map (@ofZ 101) [1; 2; 3; 4]%Z).
Proof.
  intros x. destruct (ex_tabs 2 (fj_tabs x 1) ltac:(vm_compute; reflexivity)) as [ck [vk [s [hs [H1 [_ [_ H2]]]]]]]. exists ck, vk, s, hs. split; [exact H1|]. clear H1.
  split; [apply (H2 _ _ 2 [[1; 2; 3; 4]; [5; 6; 7; 8]]%Z [1; 1; 1; 1]%Z); repeat constructor|]. split; [apply (H2 _ _ 1 [[x; 3]; [7; 6]]%Z [1; 1]%Z); repeat constructor|]. split; [apply (H2 _ _ 1 [[x; 3]; [7; 6]]%Z [1; 1]%Z); repeat constructor|]. clear H2.
  split; [repeat (constructor; [right; reflexivity|]); constructor|]. split; [repeat (constructor; [right; reflexivity|]); constructor|]. split; [vm_compute; repeat constructor|].
  cbn [map]. repeat (apply NoDup_cons; [|]); [| | | |apply NoDup_nil]; cbn [In]; intros Q; repeat (destruct Q as [Q|Q]; [apply (f_equal val) in Q; vm_compute in Q; discriminate|]); exact Q.
Qed.
Example C53_ex_missing : missing (p:=101) (map ofZ [1; 2; 3; 4]%Z) (map ofZ [1; 1; 1; 1]%Z) (map ofZ [9; 3]%Z) (map ofZ [1; 1]%Z) 0 /\
  (forall i, i < 2 -> ~ missing (p:=101) (map ofZ [1; 2; 3; 4]%Z) (map ofZ [1; 1; 1; 1]%Z) (map ofZ [1; 3]%Z) (map ofZ [1; 1]%Z) i).
Proof.
  split.
  - split; [reflexivity|]. intros [|[|[|[|k]]]] Hk _ Q; try (apply (f_equal val) in Q; vm_compute in Q; discriminate). cbn in Hk. repeat apply le_S_n in Hk. inversion Hk.
  - intros [|[|i]] Hi [_ Q]; [apply (Q 0)|apply (Q 2)|do 2 apply le_S_n in Hi; inversion Hi]; try reflexivity; cbn; repeat constructor.
Qed.

(** ** C54: grouping *)

(** The result has the keys and a column of multiplicities for every count. True claims make the keys distinct and exactly the selected keys, the multiplicities the
    numbers of occurrences, and every column of sums (none of which is in the result) the sums of the groups, unless the challenges are unlucky. *)
Theorem C54_verifier : forall (p : positive) (E : pairing p) (o : oracle p (gcar (PG1 E))), prime (Zpos p) -> 2 < fsize p ->
  forall v v' v'', in_session o v -> vcalls o v' v'' ->
  forall A N, claims_hold A N v'' -> forall dbg t gi rx res tcs sl sup sl' ml rl, group_by_verify o dbg v t gi rx = Ok (res, v') -> 2 ^ N < fsize p ->
  table_reads A N v t tcs sl -> Forall (fun id => reads A N v id (tc_nv t) sup) (firstn 1 (gv_supp gi)) -> reads A N v (gv_sel gi) (tc_nv t) sl' -> reads A N v (gv_mult gi) (tc_nv t) ml -> reads A N v (bc_poly rx) (bc_nv rx) rl ->
  boolean sl -> boolean sl' -> small_range rl (tc_nv t) ->
  exists c sp q mm h g g1 g2 hs, gv_cols gi = [c] /\ c < length tcs /\ nth_error (gv_supp gi) 0 = Some sp /\ Forall agg_ok (gv_agg gi) /\
    res = mkTablec (sp :: repeat (gv_mult gi) (counts_in (gv_agg gi))) (gv_sel gi) (tc_nv t) /\
    drawn (vt_tr v) (vt_tr v') = [h; g; g1; g2] ++ hs /\ length hs = length (sums_in (gv_agg gi)) /\ Forall (received v v') [q; mm] /\
    let keys := nth c tcs [] in
    (~ unlucky (combine keys sl) (wcol sup sl' ml) h -> sort_lucky A N (tc_nv t) (bc_nv rx) q mm sup rl g g1 g2 ->
      NoDup (rows sup sl') /\ (forall x, In x (rows sup sl') <-> In x (rows keys sl)) /\
      (forall k, k < length sup -> nth k sl' F0 <> F0 -> nth k ml F0 = ofN (count_occ F_dec (rows keys sl) (nth k sup F0))) /\
      Forall2 (fun ca hh => forall al, reads A N v (snd ca) (tc_nv t) al -> ~ unlucky (wcol keys sl (nth (fst ca) tcs [])) (wcol sup sl' al) hh ->
        forall k, k < length sup -> nth k sl' F0 <> F0 -> nth k al F0 = weight (wcol keys sl (nth (fst ca) tcs [])) (nth k sup F0)) (sums_in (gv_agg gi)) hs).
Proof. intros p E o Hp H2 v v' v'' HV HL A N HC. exact (group_by_claims o Hp H2 v v' v'' A N (session_ready o Hp H2 v HV) (vcalls_go o Hp H2 v' v'' HL) HC). Qed.
Print Assumptions C54_verifier.
(** Refuted: "every requested aggregate has a column". A requested sum has none, on either side; and no grouping with another aggregate than counts and sums succeeds. *)
Theorem C54_sum_refuted : forall (p : positive) (E : pairing p) (o : oracle p (gcar (PG1 E))) debug (s : ptrk E) t gi range res s',
  group_by_prove o debug s t gi range = Ok (res, s') -> In AggSum (map (fun i => snd (fst i)) (gp_agg gi)) -> length (t_cols res) < 1 + length (gp_agg gi).
Proof. exact @group_by_prover_cols. Qed.
Print Assumptions C54_sum_refuted.
Theorem C54_sum_verifier_refuted : forall (p : positive) (E : pairing p) (o : oracle p (gcar (PG1 E))) debug (v : vtrk E) t gi range res v',
  group_by_verify o debug v t gi range = Ok (res, v') -> In AggSum (map (fun i => snd (fst i)) (gv_agg gi)) -> length (tc_cols res) < 1 + length (gv_agg gi).
Proof. exact @group_by_verifier_cols. Qed.
Print Assumptions C54_sum_verifier_refuted.
Theorem C54_supported : forall (p : positive) (E : pairing p) (o : oracle p (gcar (PG1 E))) debug (v : vtrk E) t gi range res v',
  group_by_verify o debug v t gi range = Ok (res, v') -> Forall agg_ok (gv_agg gi).
Proof. exact @group_by_unsupported. Qed.
Print Assumptions C54_supported.

(** The rows (4,10), (6,20), (4,30) grouped by the first column: counts (2,1) and sums (40,20). *)
Definition gb_tabs (mul al : Z) : list (nat * list Z) :=
  to7 ++ [(2, [4; 6; 4; 4]%Z); (2, [10; 20; 30; 5]%Z); (2, [1; 1; 1; 0]%Z); (2, [0; 0; 4; 6]%Z); (2, [0; 0; 1; 1]%Z); (2, [0; 0; 2; mul]%Z); (2, [0; 0; 40; al]%Z)].
Definition gb_prove (aggs : list agg) (s : ptrk E101) (hs : list tpoly) :=
  r <- group_by_prove ix_o true s (ptab hs [2; 3] 4) (mkGp [0] [th hs 5] (th hs 6) (th hs 7) (map (fun a => (1, a, th hs 8)) aggs)) (pbag hs 0) ;; Ok (snd r).
Definition gb_verify (aggs : list agg) (v : vtrk E101) (ids : list nat) :=
  r <- group_by_verify ix_o true v (vtab ids [2; 3] 4 2) (mkGv [0] [vth ids 5] (vth ids 6) (vth ids 7) (map (fun a => (1, a, vth ids 8)) aggs)) (vbag ids 0 3) ;; Ok (snd r).
Definition gb_run (aggs : list agg) (mul al : Z) : option outcome :=
  ix_run 3 (commits (gb_tabs mul al)) (nexts (gb_tabs mul al)) (gb_prove aggs) (gb_verify aggs) (columns (gb_tabs mul al)).
Example C54_ex : gb_run [AggCount; AggSum] 1 20 = Some Fine /\ gb_run [AggCount; AggSum] 1 21 = Some NotVerified /\ gb_run [AggCount; AggSum] 2 20 = Some NotVerified /\ gb_run [AggCount; AggMin] 1 20 = Some NoProof.
Proof. vm_compute. repeat split. Qed.
Example C54_ex_verifier : exists vk cp v ids v' A N, vrun ix_o true vk cp (nexts (gb_tabs 1 20)) = Ok (v, ids) /\ gb_verify [AggCount; AggSum] v ids = Ok v' /\ claims_hold A N v' /\
  forall id n l, In (id, n, l) (columns (gb_tabs 1 20)) -> reads A N v id n l.
Proof. exact (ix_fine _ _ _ _ _ _ (proj1 C54_ex)). Qed.

(** The honest prover, given the keys [sup], the multiplicities [ml] and the columns of sums [als], with range multiplicities [wl]. Off the bad challenges, keys in order with the right
    multiplicities and sums are accepted, with the same result on both sides, and others are not. *)
Theorem C54_prover : forall (p : positive) (E : pairing p), pairing_laws E -> prime (Zpos p) ->
  forall (o : oracle p (gcar (PG1 E))) addr k ck vk ops vops s hs d D, setting o addr k ck vk ops vops s hs d D -> 1 <= D -> d <= D ->
  forall dbg t g sp sps sel mult ags rx tcs sl sup sl' ml als rl rsl, table_stands ops hs t tcs sl -> g < length (t_cols t) -> stands ops hs sp sup -> tp_nv sp = t_nv t -> stands ops hs sel sl' -> tp_nv sel = t_nv t ->
  stands ops hs mult ml -> tp_nv mult = t_nv t -> bag_stands ops hs rx rl rsl ->
  Forall2 (fun (i : nat * agg * tpoly) al => fst (fst i) < length (t_cols t) /\ (snd (fst i) = AggCount \/ snd (fst i) = AggSum) /\ stands ops hs (snd i) al /\ tp_nv (snd i) = t_nv t) ags als ->
  1 <= d -> 2 * d + 3 <= D -> boolean sl -> boolean sl' -> 2 ^ t_nv t < fsize p -> small_range rl (t_nv t) ->
  let gi := mkGp [g] (sp :: sps) sel mult ags in let keys := nth g tcs [] in let res := mkTable (sp :: repeat mult (counts_in (gb_ids ags))) sel in
  exists s' h q q1 q2 wl zs, group_by_prove o dbg s t gi rx = Ok (res, s') /\ drawn (pt_tr s) (pt_tr s') = [h; q; q1; q2] ++ zs /\ length zs = length (sums_asked ags als) /\
    length wl = length rl /\ counts_of (steps sup) rl (combine rl wl) /\
    let verify debug v := returning (tcomm_of res) (group_by_verify o debug v (tcomm_of t) (gp_ids gi) (comm_of rx)) in
    let avoid := ~ In h (keys ++ sup) /\ sort_avoids (t_nv t) sup rl q q1 q2 /\ Forall (fun z => ~ In z (keys ++ sup)) zs in
    let right := sorted_by rl sup sl' /\ grouped tcs keys sl sup sl' ml (sums_asked ags als) in
    (avoid -> right -> accepted o addr vk vops s' verify) /\
    (~ right -> ~ unlucky (combine keys sl) (wcol sup sl' ml) h -> ~ unlucky (unit_bag (steps sup)) (combine rl wl) q2 ->
      Forall2 (fun x z => ~ unlucky (wcol keys sl (nth (fst x) tcs [])) (wcol sup sl' (snd x)) z) (sums_asked ags als) zs -> turned_down o addr k vk vops s' verify) /\
    (~ avoid -> refused addr k s').
Proof. intros p E HE Hp. exact (group_check HE Hp). Qed.
Print Assumptions C54_prover.

(** Its hypotheses are met by the example's tables. *)
Example C54_ex_prover : let ts := gb_tabs 1 20 in exists ck vk s hs, setting ix_o (fun n => n) 3 ck vk (commits ts) (nexts ts) s hs 1 30 /\
  table_stands (commits ts) hs (ptab hs [2; 3] 4) [map ofZ [4; 6; 4; 4]%Z; map ofZ [10; 20; 30; 5]%Z] (map ofZ [1; 1; 1; 0]%Z) /\ t_nv (ptab hs [2; 3] 4) = 2 /\
  stands (commits ts) hs (th hs 5) (map ofZ [0; 0; 4; 6]%Z) /\ stands (commits ts) hs (th hs 6) (map ofZ [0; 0; 1; 1]%Z) /\ stands (commits ts) hs (th hs 7) (map ofZ [0; 0; 2; 1]%Z) /\ stands (commits ts) hs (th hs 8) (map ofZ [0; 0; 40; 20]%Z) /\
  Forall (fun i => tp_nv (th hs i) = 2) [5; 6; 7; 8] /\ bag_stands (commits ts) hs (pbag hs 0) (map ofZ [0; 1; 2; 3; 4; 5; 6; 7]%Z) (map ofZ [1; 1; 1; 1; 1; 1; 1; 1]%Z) /\ small_range (map (@ofZ 101) [0; 1; 2; 3; 4; 5; 6; 7]%Z) 2 /\
  boolean (map (@ofZ 101) [1; 1; 1; 0]%Z) /\ boolean (map (@ofZ 101) [0; 0; 1; 1]%Z) /\ 2 ^ 2 < fsize 101.
Proof.
  intros ts. destruct (ex_tabs 3 ts ltac:(vm_compute; reflexivity)) as [ck [vk [s [hs [H1 [H3 [H2 H4]]]]]]]. exists ck, vk, s, hs. split; [exact H1|]. clear H1.
  split; [apply (H4 _ _ 2 [[4; 6; 4; 4]; [10; 20; 30; 5]]%Z [1; 1; 1; 0]%Z); repeat constructor|]. split; [apply (H4 _ _ 2 [[4; 6; 4; 4]; [10; 20; 30; 5]]%Z [1; 1; 1; 0]%Z); repeat constructor|]. clear H4.
  split; [exact (proj1 (H3 5 2 _ eq_refl))|]. split; [exact (proj1 (H3 6 2 _ eq_refl))|]. split; [exact (proj1 (H3 7 2 _ eq_refl))|]. split; [exact (proj1 (H3 8 2 _ eq_refl))|].
  split; [repeat (constructor; [eapply H3; reflexivity|]); constructor|]. split; [exact (proj1 (H2 0 3 _ _ eq_refl eq_refl))|]. clear H2 H3. split; [apply to7_small; repeat constructor|]. repeat split; try (repeat (constructor; [(left; reflexivity) || (right; reflexivity)|]); constructor); vm_compute; repeat constructor.
Qed.
(** The example's grouping is right. *)
Example C54_ex_grouped : grouped (p:=101) [map ofZ [4; 6; 4; 4]%Z; map ofZ [10; 20; 30; 5]%Z] (map ofZ [4; 6; 4; 4]%Z) (map ofZ [1; 1; 1; 0]%Z) (map ofZ [0; 0; 4; 6]%Z) (map ofZ [0; 0; 1; 1]%Z) (map ofZ [0; 0; 2; 1]%Z)
  [(1, map ofZ [0; 0; 40; 20]%Z)].
Proof.
  assert (R1 : rows (p:=101) (map ofZ [0; 0; 4; 6]%Z) (map ofZ [0; 0; 1; 1]%Z) = [ofZ 4; ofZ 6]) by (vm_compute; reflexivity). assert (R2 : rows (p:=101) (map ofZ [4; 6; 4; 4]%Z) (map ofZ [1; 1; 1; 0]%Z) = [ofZ 4; ofZ 6; ofZ 4]) by (vm_compute; reflexivity).
  unfold grouped. rewrite R1, R2. split; [|split; [|split]].
  - repeat constructor; cbn [In]; intros Q; repeat (destruct Q as [Q|Q]; [apply (f_equal val) in Q; vm_compute in Q; discriminate|]); exact Q.
  - intros x. cbn [In]. tauto.
  - assert (C : count_occ F_dec [ofZ (p:=101) 4; ofZ 6; ofZ 4] (ofZ 4) = 2 /\ count_occ F_dec [ofZ (p:=101) 4; ofZ 6; ofZ 4] (ofZ 6) = 1).
    { cbn [count_occ]. repeat (let Q := fresh in destruct (F_dec _ _) as [Q|Q]; [try (apply (f_equal val) in Q; vm_compute in Q; discriminate Q)|try (exfalso; apply Q; reflexivity)]). split; reflexivity. }
    intros [|[|[|[|i]]]] Hi Hs; try (exfalso; apply Hs; reflexivity); cbn [nth map]; [rewrite (proj1 C); vm_compute; reflexivity|rewrite (proj2 C); vm_compute; reflexivity|]. cbn in Hi. do 4 apply le_S_n in Hi. inversion Hi.
  - constructor; [|constructor]. intros [|[|[|[|i]]]] Hi Hs; try (exfalso; apply Hs; reflexivity); [vm_compute; reflexivity|vm_compute; reflexivity|]. cbn in Hi. do 4 apply le_S_n in Hi. inversion Hi.
Qed.
