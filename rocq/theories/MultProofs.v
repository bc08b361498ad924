(** The middle part of the split with multiplicities, and the split on the prover's tracker. *)
From Coq Require Import List Arith Lia Bool ZArith Znumtheory Permutation Sorted.
Import ListNotations.
From Verif Require Import Res ResLemmas Fp FSum SpecMle MleLemmas SpecPoly PolyLemmas SpecIop SpecRel ModelMle ModelAdvice IopBasic LogDeriv BagLemmas AdviceProofs AdviceProofs2 AdviceProofs3 AdviceProofs4 AdviceProofs5 AdviceProofs6.
Local Open Scope list_scope.
Local Open Scope nat_scope.

Section A.
Context {p : positive}.
Notation F := (F p).
Ltac bd H := match type of H with bind ?r _ = Ok _ => let q := fresh "q" in let Q := fresh "Q" in destruct r as [q| |] eqn:Q; [|discriminate H|discriminate H]; cbn [bind] in H end.

Lemma rnth_is : forall (e : list F) c v, rnth e c = Ok v -> c < length e /\ nth c e F0 = v.
Proof. intros e c v H. unfold rnth, ounwrap in H. destruct (nth_error e c) eqn:Q; [|discriminate]. injection H as <-. split; [apply nth_error_Some; congruence|apply nth_error_nth; exact Q]. Qed.
Lemma open_run_is : forall fuel (e : list F) c x m c' k, open_run fuel e c x m = Ok (c', k) -> c <= c' /\ c' < length e /\ (forall j, c <= j -> j < c' -> nth j e F0 = x) /\ nth c' e F0 <> x.
Proof.
  induction fuel as [|fuel IH]; intros e c x m c' k H; [discriminate|]. cbn [open_run] in H. bd H. apply rnth_is in Q. destruct Q as [Q1 Q2]. destruct (Feqb q x) eqn:Qx.
  - apply Feqb_eq in Qx. subst q. destruct (IH _ _ _ _ _ _ H) as [A [B [C X]]]. split; [lia|]. split; [exact B|]. split; [|exact X]. intros j Hj Hj'. destruct (Nat.eq_dec j c) as [->|N]; [exact Qx|apply C; lia].
  - injection H as <- _. split; [lia|]. split; [exact Q1|]. split; [intros; lia|]. rewrite Q2. apply Feqb_neq. exact Qx.
Qed.
Lemma count_run_is : forall fuel (e : list F) bound c x m c' k, count_run fuel e bound c x m = Ok (c', k) -> c <= bound -> c <= c' /\ c' <= bound /\ (forall j, c <= j -> j < c' -> nth j e F0 = x) /\ (c' < bound -> nth c' e F0 <> x) /\ k = m + (c' - c).
Proof.
  induction fuel as [|fuel IH]; intros e bound c x m c' k H Hc; [discriminate|]. cbn [count_run] in H. destruct (Nat.ltb_spec c bound) as [L|L].
  - bd H. apply rnth_is in Q. destruct Q as [Q1 Q2]. destruct (Feqb q x) eqn:Qx.
    + apply Feqb_eq in Qx. subst q. destruct (IH _ _ _ _ _ _ _ H L) as [A [B [C [X Y]]]]. split; [lia|]. split; [exact B|]. split; [|split; [exact X|lia]]. intros j Hj Hj'. destruct (Nat.eq_dec j c) as [->|N]; [exact Qx|apply C; lia].
    + injection H as <- <-. split; [lia|]. split; [lia|]. split; [intros; lia|]. split; [|lia]. intros _. rewrite Q2. apply Feqb_neq. exact Qx.
  - injection H as <- <-. split; [lia|]. split; [lia|]. split; [intros; lia|]. split; lia.
Qed.

(** What is left of the first [n] entries from position [c] on. *)
Definition rest (e : list F) (n c : nat) : list F := skipn c (firstn n e).
Lemma rest_cons : forall e n c, n <= length e -> c < n -> rest e n c = nth c e F0 :: rest e n (S c).
Proof.
  intros e n c. revert e n. induction c as [|c IH]; intros [|x e] [|n] Hn Hc; cbn in Hn; try lia; [reflexivity|]. exact (IH e n ltac:(lia) ltac:(lia)).
Qed.
Lemma rest_nil : forall e n c, n <= c -> rest e n c = []. Proof. intros e n c H. unfold rest. apply skipn_all2. rewrite firstn_length. lia. Qed.
Lemma rest_run : forall e n x d c, n <= length e -> (forall j, c <= j -> j < c + d -> nth j e F0 = x) -> exists k, rest e n c = repeat x k ++ rest e n (c + d) /\ (c + d <= n -> k = d).
Proof.
  intros e n x. induction d as [|d IH]; intros c Hn H; [exists 0; rewrite Nat.add_0_r; split; [reflexivity|reflexivity]|].
  destruct (IH (S c) Hn ltac:(intros; apply H; lia)) as [k [A B]]. destruct (Nat.lt_ge_cases c n) as [L|L].
  - exists (S k). rewrite (rest_cons e n c Hn L), (H c) by lia. replace (c + S d) with (S c + d) by lia. rewrite A. split; [reflexivity|]. intros X. rewrite B by lia. reflexivity.
  - exists 0. rewrite !rest_nil by lia. split; [reflexivity|lia].
Qed.
Notation sorted l := (StronglySorted (fun a b : F => (val a <= val b)%Z) l).
Lemma above : forall e n (x : F) c, n <= length e -> sorted (rest e n c) -> (c < n -> (val x < val (nth c e F0))%Z) -> forall z, In z (rest e n c) -> (val x < val z)%Z.
Proof.
  intros e n x c Hn S H z Hz. destruct (Nat.lt_ge_cases c n) as [L|L]; [|rewrite rest_nil in Hz by exact L; destruct Hz]. rewrite (rest_cons e n c Hn L) in S, Hz. specialize (H L). inversion S as [|? ? S1 S2]; subst. destruct Hz as [<-|Hz]; [exact H|]. rewrite Forall_forall in S2. specialize (S2 z Hz). lia.
Qed.
Lemma sorted_app : forall a b : list F, sorted (a ++ b) -> sorted b.
Proof. induction a as [|x a IH]; intros b H; [exact H|]. cbn [app] in H. inversion H; subst. apply IH. assumption. Qed.
Lemma sorted_head : forall e n c, n <= length e -> sorted (rest e n c) -> forall z, In z (rest e n c) -> (val (nth c e F0) <= val z)%Z.
Proof.
  intros e n c Hn S z Hz. destruct (Nat.lt_ge_cases c n) as [L|L]; [|rewrite rest_nil in Hz by exact L; destruct Hz]. rewrite (rest_cons e n c Hn L) in S, Hz. inversion S as [|? ? S1 S2]; subst. destruct Hz as [<-|Hz]; [lia|]. rewrite Forall_forall in S2. exact (S2 z Hz).
Qed.
(** A run [x ... x] from [c] to [c']. *)
Lemma run_rest : forall e n (x : F) c c', n <= length e -> sorted (rest e n c) -> c < n -> c <= c' -> nth c e F0 = x -> (forall j, c <= j -> j < c' -> nth j e F0 = x) -> (c' < n -> nth c' e F0 <> x) ->
  exists k, rest e n c = repeat x k ++ rest e n c' /\ sorted (rest e n c') /\ (forall z, In z (rest e n c') -> (val x < val z)%Z) /\ (c' <= n -> k = c' - c).
Proof.
  intros e n x c c' Hn S Hc L H0 H H1. destruct (rest_run e n x (c' - c) c Hn) as [k [A B]]; [intros; apply H; lia|]. replace (c + (c' - c)) with c' in A, B by lia. exists k. split; [exact A|].
  assert (S' : sorted (rest e n c')) by (rewrite A in S; exact (sorted_app _ _ S)). split; [exact S'|]. split; [|exact B].
  apply above; [exact Hn|exact S'|]. intros L'. specialize (H1 L'). assert (X : In (nth c' e F0) (rest e n c)) by (rewrite A; apply in_or_app; right; rewrite (rest_cons e n c' Hn L'); left; reflexivity).
  pose proof (sorted_head e n c Hn S _ X) as Y. rewrite H0 in Y. assert (val x <> val (nth c' e F0)) by (intros Q; apply H1; apply val_inj; congruence). lia.
Qed.
Lemma count_rep : forall (x z : F) k l, z <> x -> count_occ F_dec (repeat x k ++ l) z = count_occ F_dec l z.
Proof. intros x z k l N. rewrite count_occ_app. rewrite (proj1 (count_occ_not_In F_dec (repeat x k) z)); [reflexivity|]. intros H. apply repeat_spec in H. congruence. Qed.
Lemma count_same : forall (x : F) k l, ~ In x l -> count_occ F_dec (repeat x k ++ l) x = k.
Proof. intros x k l N. rewrite count_occ_app, (proj1 (count_occ_not_In F_dec l x) N), Nat.add_0_r. clear. induction k as [|k IH]; [reflexivity|]. cbn [repeat count_occ]. destruct (F_dec x x) as [_|N]; [f_equal; exact IH|contradiction]. Qed.

Definition common (A B : list F) (vals : list F) : Prop := ascending vals /\ forall x, In x vals <-> In x A /\ In x B.
Definition counted (A B : list F) (vals : list F) : list (F * F * F) := map (fun x => (x, ofN (count_occ F_dec A x), ofN (count_occ F_dec B x))) vals.
Lemma drop_left : forall A B A' (x : F) k vals, A = repeat x k ++ A' -> (forall z, In z A' -> (val x < val z)%Z) -> ~ In x B -> common A' B vals -> common A B vals /\ counted A B vals = counted A' B vals.
Proof.
  intros A B A' x k vals -> Ha Hb [C1 C2]. split; [split; [exact C1|]|].
  - intros z. rewrite C2, in_app_iff. split; [intros [X Y]; auto|]. intros [[X|X] Y]; [|auto]. apply repeat_spec in X. subst z. contradiction.
  - unfold counted. apply map_ext_in. intros z Hz. rewrite count_rep; [reflexivity|]. apply C2 in Hz. intros ->. specialize (Ha x (proj1 Hz)). lia.
Qed.
Lemma drop_right : forall A B B' (x : F) k vals, B = repeat x k ++ B' -> (forall z, In z B' -> (val x < val z)%Z) -> ~ In x A -> common A B' vals -> common A B vals /\ counted A B vals = counted A B' vals.
Proof.
  intros A B B' x k vals -> Ha Hb [C1 C2]. split; [split; [exact C1|]|].
  - intros z. rewrite C2, in_app_iff. split; [intros [X Y]; auto|]. intros [X [Y|Y]]; [|auto]. apply repeat_spec in Y. subst z. contradiction.
  - unfold counted. apply map_ext_in. intros z Hz. rewrite count_rep; [reflexivity|]. apply C2 in Hz. intros ->. specialize (Ha x (proj2 Hz)). lia.
Qed.
Lemma lmrm_middle : forall fuel a b na nb s s', na <= length a -> nb <= length b -> sorted (rest a na (mm_a s)) -> sorted (rest b nb (mm_b s)) -> lmrm_loop fuel a b na nb s = Ok s' ->
  exists vals, common (rest a na (mm_a s)) (rest b nb (mm_b s)) vals /\ mm_m s' = mm_m s ++ counted (rest a na (mm_a s)) (rest b nb (mm_b s)) vals.
Proof.
  induction fuel as [|fuel IH]; intros a b na nb s s' La Lb Sa Sb H; cbn [lmrm_loop] in H; destruct (Nat.ltb_spec (mm_a s) na) as [Q1|Q1], (Nat.ltb_spec (mm_b s) nb) as [Q2|Q2]; cbn [andb] in H; try discriminate H;
    try (injection H as <-; exists []; split; [|cbn; rewrite app_nil_r; reflexivity]; split; [constructor|]; intros x; split; [intros []|];
         rewrite ?(rest_nil a na), ?(rest_nil b nb) by lia; intros [X Y]; [exact X || exact Y]).
  all: try (injection H as <-; exists []; split; [|cbn; rewrite app_nil_r; reflexivity]; split; [constructor|]; intros x; split; [intros []|]; try rewrite (rest_nil b nb) by lia; try rewrite (rest_nil a na) by lia; intros [X Y]; (destruct X || destruct Y)).
  bd H. bd H. apply rnth_is in Q, Q0. destruct Q as [_ Qx], Q0 as [_ Qy]. unfold Fltb in H. destruct (Z.ltb_spec (val q) (val q0)) as [D1|D1]; [|destruct (Z.ltb_spec (val q0) (val q)) as [D2|D2]].
  - bd H. destruct q1 as [c k]. bd H. apply open_run_is in Q. destruct Q as [O1 [O2 [O3 O4]]]. destruct (run_rest a na q _ c La Sa Q1 O1 Qx O3 (fun _ => O4)) as [kk [A1 [A2 [A3 _]]]].
    destruct (IH a b na nb (mkLmrm c (mm_b s) (mm_l s ++ [(q1, ofN k)]) (mm_m s) (mm_r s)) s' La Lb A2 Sb H) as [vals [V1 V2]]. cbn [mm_a mm_b mm_m] in V1, V2.
    assert (N : ~ In q (rest b nb (mm_b s))) by (intros X; pose proof (sorted_head b nb _ Lb Sb _ X); rewrite Qy in *; lia).
    destruct (drop_left _ _ _ _ _ _ A1 A3 N V1) as [C1 C2]. exists vals. split; [exact C1|]. rewrite C2. exact V2.
  - bd H. destruct q1 as [c k]. bd H. apply open_run_is in Q. destruct Q as [O1 [O2 [O3 O4]]]. destruct (run_rest b nb q0 _ c Lb Sb Q2 O1 Qy O3 (fun _ => O4)) as [kk [A1 [A2 [A3 _]]]].
    destruct (IH a b na nb (mkLmrm (mm_a s) c (mm_l s) (mm_m s) (mm_r s ++ [(q1, ofN k)])) s' La Lb Sa A2 H) as [vals [V1 V2]]. cbn [mm_a mm_b mm_m] in V1, V2.
    assert (N : ~ In q0 (rest a na (mm_a s))) by (intros X; pose proof (sorted_head a na _ La Sa _ X); rewrite Qx in *; lia).
    destruct (drop_right _ _ _ _ _ _ A1 A3 N V1) as [C1 C2]. exists vals. split; [exact C1|]. rewrite C2. exact V2.
  - assert (Eq : q = q0) by (apply val_inj; lia). rewrite <- Eq in Qy. clear Eq D1 D2 q0. bd H. destruct q0 as [ca ka]. bd H. destruct q0 as [cb kb].
    apply count_run_is in Q; [|lia]. apply count_run_is in Q0; [|lia]. destruct Q as [O1 [O2 [O3 [O4 O5]]]], Q0 as [R1 [R2 [R3 [R4 R5]]]].
    destruct (run_rest a na q _ ca La Sa Q1 O1 Qx O3 O4) as [k1 [A1 [A2 [A3 A4]]]]. destruct (run_rest b nb q _ cb Lb Sb Q2 R1 Qy R3 R4) as [k2 [B1 [B2 [B3 B4]]]].
    destruct (IH a b na nb (mkLmrm ca cb (mm_l s) (mm_m s ++ [(q, ofN ka, ofN kb)]) (mm_r s)) s' La Lb A2 B2 H) as [vals [V1 V2]]. cbn [mm_a mm_b mm_m] in V1, V2. destruct V1 as [V0 V1].
    assert (Na : ~ In q (rest a na ca)) by (intros X; specialize (A3 q X); lia). assert (Nb : ~ In q (rest b nb cb)) by (intros X; specialize (B3 q X); lia).
    assert (Pa : mm_a s < ca). { destruct (Nat.eq_dec ca (mm_a s)) as [->|]; [|lia]. exfalso. apply O4; [exact Q1|exact Qx]. } assert (Pb : mm_b s < cb). { destruct (Nat.eq_dec cb (mm_b s)) as [->|]; [|lia]. exfalso. apply R4; [exact Q2|exact Qy]. }
    exists (q :: vals). split; [split|].
    + constructor; [exact V0|]. apply Forall_forall. intros z Hz. apply V1 in Hz. exact (A3 z (proj1 Hz)).
    + intros z. rewrite A1, B1, !in_app_iff. cbn [In]. rewrite V1. split.
      * intros [<-|[X Y]]; [|auto]. split; left; [replace k1 with (S (k1 - 1)) by (rewrite A4; lia)|replace k2 with (S (k2 - 1)) by (rewrite B4; lia)]; left; reflexivity.
      * intros [[X|X] [Y|Y]]; try (apply repeat_spec in X; subst z; auto); try (apply repeat_spec in Y; subst z; auto). right. auto.
    + rewrite V2. unfold counted. cbn [map]. rewrite <- app_assoc. cbn [app]. f_equal. rewrite A1, B1, !count_same by assumption. f_equal; [rewrite A4, B4, O5, R5 by lia; reflexivity|].
      apply map_ext_in. intros z Hz. apply V1 in Hz. rewrite !count_rep; [reflexivity| |]; intros ->; [apply Nb|apply Na]; tauto.
Qed.
(** The rows of a column in ascending order with the selected rows first. *)
Lemma first_rows : forall l sl : list F, length sl = length l -> sorted_first l sl -> rows l sl = firstn (length (rows l sl)) l /\ sorted (rows l sl) /\ length (rows l sl) <= length l.
Proof.
  induction l as [|x l IH]; intros [|s sl] L H; try discriminate; [split; [reflexivity|split; [constructor|reflexivity]]|]. injection L as L.
  assert (H' : sorted_first l sl) by (intros i j Hij Hj Hs; exact (H (S i) (S j) ltac:(lia) ltac:(cbn; lia) Hs)). destruct (IH sl L H') as [I1 [I2 I3]]. rewrite rows_cons. destruct (Feqb s F0) eqn:Q.
  - apply Feqb_eq in Q. subst s. assert (N : rows l sl = []).
    { destruct (rows l sl) as [|y r] eqn:R; [reflexivity|]. assert (Y : In y (rows l sl)) by (rewrite R; left; reflexivity). apply rows_In in Y; [|lia]. destruct Y as [k [K1 [K2 K3]]]. destruct (H 0 (S k) ltac:(lia) ltac:(cbn; lia) K3) as [X _]. exfalso. apply X. reflexivity. }
    rewrite N. cbn. split; [reflexivity|]. split; [constructor|lia].
  - cbn [app length]. split; [cbn [firstn]; f_equal; exact I1|]. split; [|lia]. constructor; [exact I2|]. apply Forall_forall. intros z Hz. apply rows_In in Hz; [|lia]. destruct Hz as [k [K1 [K2 K3]]]. destruct (H 0 (S k) ltac:(lia) ltac:(cbn; lia) K3) as [_ X]. cbn in X. rewrite K2 in X. exact X.
Qed.
Lemma pad_is : forall n len (l : list F) m, pad_col n len l = Ok m -> length l <= len /\ m = mkMle n (l ++ repeat F0 (len - length l)).
Proof. intros n len l m H. unfold pad_col, usub in H. destruct (Nat.leb_spec (length l) len) as [L|L]; [|discriminate]. cbn [bind] in H. unfold from_evaluations in H. destruct (_ =? _); [|discriminate]. injection H as <-. split; [exact L|reflexivity]. Qed.
Lemma lmrm_common : forall an bn (a sa b sb : list F) l mv ms r lm am bm rm, length a = 2 ^ an -> length sa = 2 ^ an -> length b = 2 ^ bn -> length sb = 2 ^ bn -> sorted_first a sa -> sorted_first b sb ->
  lmr_multiplicity_split an bn a sa b sb = Ok (l, (mv, ms), r, (lm, am, bm, rm)) ->
  let n := Nat.max an bn in exists vals, ascending vals /\ (forall x, In x vals <-> In x (rows a sa) /\ In x (rows b sb)) /\ length vals <= 2 ^ n /\ let pad := repeat F0 (2 ^ n - length vals) in
    mv = mkMle n (vals ++ pad) /\ ms = mkMle n (repeat F1 (length vals) ++ pad) /\
    am = mkMle n (map (fun x => ofN (count_occ F_dec (rows a sa) x)) vals ++ pad) /\ bm = mkMle n (map (fun x => ofN (count_occ F_dec (rows b sb) x)) vals ++ pad).
Proof.
  intros an bn a sa b sb l mv ms r lm am bm rm La Lsa Lb Lsb Sa Sb H n. unfold lmr_multiplicity_split in H. bd H. cbv zeta in H.
  assert (Pn : forall l sl, length (lmr_sorted (p:=p) l sl) = length (rows l sl)) by (intros l0 sl0; unfold lmr_sorted; rewrite (Permutation_length (ssort_perm _ _)), selected_rows; reflexivity). rewrite !Pn in H.
  rewrite !firstn_all2 in H by lia. destruct (first_rows a sa ltac:(lia) Sa) as [Ra [Ta Na]]. destruct (first_rows b sb ltac:(lia) Sb) as [Rb [Tb Nb]]. set (na := length (rows a sa)) in *. set (nb := length (rows b sb)) in *.
  assert (Ea : rest a na 0 = rows a sa) by (unfold rest; cbn [skipn]; symmetry; exact Ra). assert (Eb : rest b nb 0 = rows b sb) by (unfold rest; cbn [skipn]; symmetry; exact Rb).
  bd H. rename q0 into fin. destruct (lmrm_middle (S (na + nb)) a b na nb (mkLmrm 0 0 [] [] []) fin Na Nb ltac:(cbn [mm_a]; rewrite Ea; exact Ta) ltac:(cbn [mm_b]; rewrite Eb; exact Tb) Q0) as [vals [V1 V2]].
  cbn [mm_a mm_b mm_m app] in V1, V2. rewrite Ea, Eb in V1, V2. destruct V1 as [V1 V1']. exists vals. split; [exact V1|]. split; [exact V1'|].
  do 5 (bd H). bd H. bd H. bd H. bd H. bd H. bd H. bd H. injection H as _ <- <- _ _ <- <- _. clear Q Q0 Q1 Q2 Q3 Q4 Q5.
  rewrite V2 in *. unfold counted in *. rewrite ?map_map, ?map_length in *. cbn [fst snd] in *. rewrite ?map_id in *.
  repeat match goal with X : pad_col _ _ _ = Ok _ |- _ => apply pad_is in X; destruct X as [? ?] end. unfold ones in *. rewrite ?map_length, ?repeat_length in *. subst. cbv zeta. split; [assumption|]. repeat split.
Qed.
Lemma pad_len : forall n len (l : list F) m, pad_col n len l = Ok m -> exists c, m = mkMle n c /\ length c = 2 ^ n.
Proof. intros n len l m H. unfold pad_col in H. bd H. unfold from_evaluations in H. destruct (Nat.eqb_spec (length (l ++ zeros q)) (2 ^ n)) as [L|L]; [|discriminate]. injection H as <-. eexists. split; [reflexivity|exact L]. Qed.
Lemma lmrm_shape : forall an bn (a sa b sb : list F) l m r ms, lmr_multiplicity_split an bn a sa b sb = Ok (l, m, r, ms) -> let n := Nat.max an bn in
  exists lv ls mv ml rv rs lm am bm rm, l = (mkMle an lv, mkMle an ls) /\ m = (mkMle n mv, mkMle n ml) /\ r = (mkMle bn rv, mkMle bn rs) /\ ms = (mkMle an lm, mkMle n am, mkMle n bm, mkMle bn rm) /\
    Forall (fun c => length c = 2 ^ an) [lv; ls; lm] /\ Forall (fun c => length c = 2 ^ n) [mv; ml; am; bm] /\ Forall (fun c => length c = 2 ^ bn) [rv; rs; rm].
Proof.
  intros an bn a sa b sb l m r ms H n. unfold lmr_multiplicity_split in H. cbv zeta in H. do 14 bd H. injection H as <- <- <- <-.
  repeat match goal with X : pad_col _ _ _ = Ok _ |- _ => apply pad_len in X; destruct X as [? [? ?]] end. subst. do 10 eexists. do 4 (split; [reflexivity|]). repeat split; repeat constructor; assumption.
Qed.
End A.
