From Verif Require Import Base.Outcome Base.ZList Model.Index Model.Slice Model.Array1D Model.Array2D Model.View2D Model.Expr Model.ViewAssign Model.Self.
From Verif Require Import Spec.ArraySpec Spec.MatrixSpec Spec.Matrix2Spec Spec.View2DSpec Spec.ExprSpec Spec.SelfSpec Proofs.MatrixProofs Proofs.ExprProofs Proofs.ExprMore Proofs.ExprEval Proofs.Lazy2Proofs.

Scheme w1_ind := Minimality for written1 Sort Prop with w2_ind := Minimality for written2 Sort Prop.
Combined Scheme written_ind from w1_ind, w2_ind.

Section T.
Context {V : Type}.
(** Two expressions that differ in element values only. *)
Definition like1 {W} (e e' : ex1 W) : Prop := zlen (den1 e) = zlen (den1 e') /\ (fits1 e -> fits1 e') /\ (agree1 e -> agree1 e').
Definition like2 {W} (e e' : ex2 W) : Prop := mr (den2 e) = mr (den2 e') /\ mc (den2 e) = mc (den2 e') /\ (fits2 e -> fits2 e') /\ (agree2 e -> agree2 e').

Lemma zip_zlen {A B C} (f : A -> B -> outcome C) l : forall k, zlen (zip f l k) = Z.min (zlen l) (zlen k).
Proof.
  unfold zlen. induction l as [|x l IH]; intros [|y k]; cbn [zip length]; try lia. specialize (IH k). lia.
Qed.
Lemma see_zlen {A} (rd rd' : Z -> outcome A) d : zlen (see_list rd d) = zlen (see_list rd' d).
Proof. destruct d as [[?|?]|]; cbn; try reflexivity. now rewrite !zlen_map. Qed.
Lemma len_of {A} (l k : list A) : zlen l = zlen k -> length l = length k.
Proof. unfold zlen. lia. Qed.

Lemma see_mx_dims {A} (rd rd' : Z -> outcome A) d : mr (see_mx rd d) = mr (see_mx rd' d) /\ mc (see_mx rd d) = mc (see_mx rd' d).
Proof. destruct d as [[?|?]|]; cbn; auto. Qed.
Lemma cut_zlen {A} (l k : list A) p q : zlen l = zlen k -> zlen (firstn p l ++ skipn q l) = zlen (firstn p k ++ skipn q k).
Proof. unfold zlen. intros H. rewrite !app_length, !firstn_length, !skipn_length. lia. Qed.
Lemma drop_zlen {A} (l k : list A) : zlen l = zlen k -> zlen (removelast l) = zlen (removelast k).
Proof.
  unfold zlen. revert k. induction l as [|x l IH]; intros [|y k]; cbn [length]; try lia. intros H. specialize (IH k ltac:(lia)).
  destruct l, k; cbn [length removelast] in *; lia.
Qed.

Lemma array_yields (m n : Z) b b' : zlen b = zlen b' -> let A := fun x : list V => src_of_arr2 (mkarr2 m n (mkarr x (zlen x))) in
  yields2 (A b) (mkmx m n (s2un (A b))) -> yields2 (A b') (mkmx m n (s2un (A b'))).
Proof.
  intros HL A (_ & _ & B1 & B2 & E & B3 & _ & _). cbn [mr mc mel] in *. unfold yields2, A in *. cbn [mr mc mel s2rows s2cols s2size s2un s2lin src_of_arr2 drows dcols dat an buf] in *.
  repeat (split; [first [reflexivity|assumption|congruence]|]). intros i j Hi Hj. unfold un2. cbn [dcols dat buf].
  assert (0 <= i * n) by nia. assert (i * n + j < m * n) by nia.
  rewrite lmul_ok by (unfold LONG_MIN; lia). cbn [bind]. rewrite ladd_ok by (unfold LONG_MIN; lia). reflexivity.
Qed.
Lemma like : (forall W e, written1 V W e -> forall b b', zlen b = zlen b' -> like1 (e b) (e b')) /\
             (forall W e, written2 V W e -> forall b b', zlen b = zlen b' -> like2 (e b) (e b')).
Proof.
  apply written_ind; unfold like1, like2; intros; cbn [den1 den2 fits1 fits2 agree1 agree2 mr mc itself src_of_arr ssize sun an buf];
    repeat match goal with IH : forall b b' : list V, zlen b = zlen b' -> _, H : zlen ?b = zlen ?b' |- _ => specialize (IH b b' H) end;
    unfold plump, nonempty in *.
  - rewrite !zlen_map. rewrite H. auto.
  - auto.
  - rewrite !zlen_map. tauto.
  - destruct H0 as (E1 & F1 & G1), H2 as (E2 & F2 & G2). rewrite !zip_zlen, E1, E2. tauto.
  - rewrite !zlen_map. tauto.
  - rewrite !zlen_map. tauto.
  - auto.
  - destruct H0 as (E1 & F1 & G1), H2 as (E2 & F2 & G2). rewrite !zlen_app, E1, E2. tauto.
  - destruct H0 as (E1 & F1 & G1). rewrite !zlen_app, E1. tauto.
  - destruct H0 as (E1 & F1 & G1). rewrite !zlen_cons, E1. tauto.
  - destruct H0 as (E1 & F1 & G1). rewrite (cut_zlen _ _ _ _ E1), E1. tauto.
  - destruct H0 as (E1 & F1 & G1). rewrite (drop_zlen _ _ E1), E1. tauto.
  - destruct H0 as (E1 & E2 & F1 & G1). rewrite !zlen_map, E1, E2. tauto.
  - destruct H0 as (E1 & E2 & F1 & G1). rewrite !zlen_map, E1, E2. tauto.
  - destruct H0 as (E1 & E1' & F1 & G1), H2 as (E2 & F2 & G2). rewrite !zlen_map, E1, E1', E2. tauto.
  - destruct H0 as (E1 & F1 & G1). rewrite E1. split; [apply see_zlen|tauto].
  - destruct H0 as (E1 & E2 & F1 & G1). rewrite E1, E2. split; [apply see_zlen|tauto].
  - unfold itself2. cbn [den2 fits2 agree2 mr mc s2rows s2cols src_of_arr2 drows dcols]. split; [reflexivity|]. split; [reflexivity|]. split; [|auto]. now apply array_yields.
  - auto.
  - tauto.
  - destruct H0 as (E1 & E1' & F1 & G1), H2 as (E2 & E2' & F2 & G2). rewrite E1, E1', E2, E2'. tauto.
  - destruct H0 as (E1 & E1' & F1 & G1). rewrite E1, E1'. tauto.
  - destruct H0 as (E1 & E1' & F1 & G1). rewrite E1, E1'. tauto.
  - auto.
  - tauto.
  - destruct H0 as (E1 & E1' & F1 & G1), H2 as (E2 & E2' & F2 & G2). rewrite E1, E1', E2, E2'. tauto.
  - destruct H0 as (E1 & E1' & F1 & G1), H2 as (E2 & E2' & F2 & G2). rewrite E1, E1', E2, E2'. tauto.
  - destruct H0 as (E1 & F1 & G1). rewrite E1. tauto.
  - destruct H0 as (E1 & F1 & G1), H2 as (E2 & F2 & G2). rewrite E1, E2. tauto.
  - destruct H0 as (E1 & F1 & G1). rewrite E1. destruct (see_mx_dims (elt (den1 (e b))) (elt (den1 (e b'))) (den_apply (whole1 (zlen (den1 (e b')))) w)). tauto.
  - destruct H0 as (E1 & E2 & F1 & G1). rewrite E1, E2.
    destruct (see_mx_dims (mlin (den2 (e b))) (mlin (den2 (e b'))) (den_apply (whole2 (mr (den2 (e b'))) (mc (den2 (e b')))) w)). tauto.
Qed.
End T.

Section A.
Context {V : Type} (zero : V) (c : cfg).
Implicit Types (l r b : list V) (e : list V -> ex1 V).

Lemma znth_half r l i j : zlen r = zlen l -> 0 <= i <= zlen l -> 0 <= j -> znth (half r l i) j = if j <? i then znth r j else znth l j.
Proof.
  intros HL Hi Hj. unfold half. assert (zlen (firstn (Z.to_nat i) r) = i) as E by (unfold zlen in *; rewrite firstn_length; lia).
  rewrite znth_app by assumption. rewrite E. destruct (Z.ltb_spec j i).
  - rewrite znth_firstn by lia. replace (j <? i) with true by lia. reflexivity.
  - rewrite znth_skipn by lia. f_equal. lia.
Qed.
Lemma zlen_half r l i : zlen r = zlen l -> 0 <= i <= zlen l -> zlen (half r l i) = zlen l.
Proof. intros HL Hi. unfold half, zlen in *. rewrite app_length, firstn_length, skipn_length. lia. Qed.
Lemma half_self e l k r : replaced e l k r -> 0 <= k <= zlen l -> half r l k = r.
Proof. intros (HL & _ & H) Hk. apply list_ext_znth. intros j Hj. rewrite znth_half by assumption. destruct (Z.ltb_spec j k); [reflexivity|]. symmetry. now apply H. Qed.
Lemma other b k v j : 0 <= k < zlen b -> j <> k -> znth (zupd b k v) j = znth b j.
Proof. intros Hk H. rewrite znth_zupd by assumption. now destruct (Z.eqb_spec j k). Qed.
Lemma same b k v : 0 <= k < zlen b -> znth (zupd b k v) k = Some v.
Proof. intros Hk. rewrite znth_zupd by assumption. now rewrite Z.eqb_refl. Qed.
Lemma replaced_start e l : replaced e l 0 l.
Proof. split; [reflexivity|]. split; [intros; lia|reflexivity]. Qed.
Lemma replaced_next e l k b v : replaced e l k b -> 0 <= k < zlen l -> elt (den1 (e b)) k = Ok v -> replaced e l (k + 1) (zupd b k v).
Proof.
  intros HR Hk HV. pose proof (half_self _ _ _ _ HR ltac:(lia)) as HS. destruct HR as (HL & H1 & H2). split; [now rewrite zlen_zupd|]. split.
  - intros i Hi. assert (half (zupd b k v) l i = half b l i) as E.
    { apply list_ext_znth. intros j Hj. rewrite !znth_half by (rewrite ?zlen_zupd; lia). destruct (Z.ltb_spec j i); [|reflexivity]. apply other; lia. }
    rewrite E. destruct (Z.eq_dec i k) as [->|].
    + exists v. rewrite HS. split; [|exact HV]. apply same; lia.
    + destruct (H1 i ltac:(lia)) as (x & Hx & Hv). exists x. split; [|exact Hv]. rewrite other by lia. exact Hx.
  - intros i Hi. rewrite other by lia. apply H2. lia.
Qed.
(** There is only one result. *)
Lemma replaced_half e l n r k r' : replaced e l n r -> replaced e l k r' -> 0 <= k <= n -> n <= zlen l -> half r l k = r'.
Proof.
  intros (HL & H1 & H2) (HL' & H1' & H2') Hk Hn.
  assert (forall j, (forall i, 0 <= i < Z.of_nat j -> i < k -> znth r i = znth r' i)) as HA.
  { induction j as [|j IH]; intros i Hi Hik; [lia|]. destruct (Z.eq_dec i (Z.of_nat j)) as [->|]; [|apply IH; lia].
    destruct (H1 (Z.of_nat j) ltac:(lia)) as (v & Ev & Hv), (H1' (Z.of_nat j) ltac:(lia)) as (v' & Ev' & Hv').
    assert (half r l (Z.of_nat j) = half r' l (Z.of_nat j)) as E; [|congruence].
    apply list_ext_znth. intros i Hi'. rewrite !znth_half by lia. destruct (Z.ltb_spec i (Z.of_nat j)); [|reflexivity]. apply IH; lia. }
  apply list_ext_znth. intros j Hj. rewrite znth_half by lia. destruct (Z.ltb_spec j k); [apply (HA (Datatypes.S (Z.to_nat j))); lia|]. symmetry. apply H2'. lia.
Qed.

Lemma reread_ok e l b i : written1 V V e -> fits1 (e l) -> agree1 (e l) -> zlen b = zlen l -> 0 <= i < zlen (den1 (e l)) -> reread c e b i = elt (den1 (e b)) i.
Proof.
  intros HW HF HA HL Hi. destruct (proj1 like _ _ HW l b (eq_sym HL)) as (E & F & G). destruct (proj1 (tree1 c V (e b) (F HF)) (G HA)) as (A & EA & _ & _ & Y).
  unfold reread. rewrite EA. cbn [bind]. apply Y. lia.
Qed.
Theorem self_assign_thm e a l : rep a l -> written1 V V e -> fits1 (e l) -> agree1 (e l) -> zlen (den1 (e l)) = zlen l ->
  match self_assign c e a with
  | MOk a' => exists r, replaced e l (zlen l) r /\ rep a' r
  | MFail f a' => exists r i, 0 <= i < zlen l /\ replaced e l i r /\ elt (den1 (e r)) i = Fail f /\ rep a' r
  | MUB => exists r i, 0 <= i < zlen l /\ replaced e l i r /\ elt (den1 (e r)) i = UB
  end.
Proof.
  intros (HB & HN) HW HF HA HL. unfold self_assign. rewrite HB. destruct (proj1 (tree1 c V (e l) HF) HA) as (A & EA & ES & _). rewrite EA.
  unfold arr_assign_rd. rewrite HN, ES, HL, Z.eqb_refl, check_debug_true. unfold assign_loop.
  pose proof (mfor_inv (fun i b => replaced e l i b) (fun f b => exists i, 0 <= i < zlen l /\ replaced e l i b /\ elt (den1 (e b)) i = Fail f)
    (exists b i, 0 <= i < zlen l /\ replaced e l i b /\ elt (den1 (e b)) i = UB) (fun i b => commit b (v <- reread c e b i ;; oset b i v)) 0 (zlen l) l (zlen_nonneg l)) as K.
  match type of K with ?P -> ?Q -> ?C => assert C as KC; [apply K|] end.
  - intros i b Hi HR. rewrite (reread_ok e l b i HW HF HA (proj1 HR)) by lia. destruct (elt (den1 (e b)) i) as [v|f|] eqn:EV; cbn [bind commit]; eauto.
    rewrite oset_ok by (rewrite (proj1 HR); lia). cbn [commit]. now apply replaced_next.
  - apply replaced_start.
  - rewrite HB. destruct (mfor 0 (zlen l) _ l) as [b|f b|]; cbn [with_buf mbind].
    + exists b. split; [exact KC|]. split; [reflexivity|]. cbn [an]. rewrite HN. symmetry. apply KC.
    + destruct KC as (i & Hi & HR & HV). exists b, i. split; [exact Hi|]. split; [exact HR|]. split; [exact HV|]. split; [reflexivity|]. cbn [an]. rewrite HN. symmetry. apply HR.
    + exact KC.
Qed.
Theorem self_exact e a l r : rep a l -> written1 V V e -> fits1 (e l) -> agree1 (e l) -> zlen (den1 (e l)) = zlen l -> replaced e l (zlen l) r ->
  exists a', self_assign c e a = MOk a' /\ rep a' r.
Proof.
  intros HRep HW HF HA HL HR. pose proof (self_assign_thm e a l HRep HW HF HA HL) as H.
  destruct (self_assign c e a) as [a'|f a'|].
  - destruct H as (r' & HR' & Hr'). exists a'. split; [reflexivity|]. rewrite <- (replaced_half e l _ r _ r' HR HR') in Hr' by (pose proof (zlen_nonneg l); lia).
    now rewrite (half_self e l (zlen l) r HR) in Hr' by (pose proof (zlen_nonneg l); lia).
  - destruct H as (r' & i & Hi & HR' & HV & _). rewrite <- (replaced_half e l _ r _ r' HR HR') in HV by lia. destruct HR as (_ & H1 & _). destruct (H1 i Hi) as (v & _ & Hv). congruence.
  - destruct H as (r' & i & Hi & HR' & HV). rewrite <- (replaced_half e l _ r _ r' HR HR') in HV by lia. destruct HR as (_ & H1 & _). destruct (H1 i Hi) as (v & _ & Hv). congruence.
Qed.
Theorem self_bad e a l : rep a l -> fits1 (e l) -> checked c = true -> ~ agree1 (e l) \/ agree1 (e l) /\ zlen (den1 (e l)) <> zlen l ->
  self_assign c e a = MFail (report c) a /\ forall f, self_update c f e a = MFail (report c) a.
Proof.
  intros (HB & HN) HF HC [HA|[HA HL]].
  - unfold self_assign, self_update. rewrite HB, (proj2 (tree1 c V (e l) HF) HA HC). auto.
  - destruct (proj1 (tree1 c V (e l) HF) HA) as (A & EA & ES & _). unfold self_assign, self_update. rewrite HB, EA. unfold arr_assign_rd, v_op_array. cbn [o_size].
    rewrite HN, ES. replace (zlen l =? zlen (den1 (e l))) with false by (symmetry; apply Z.eqb_neq; auto). rewrite check_debug_false by assumption. split; [reflexivity|].
    intros f. cbn [guarded with_buf mbind]. f_equal. destruct a; cbn in *; now subst.
Qed.
Lemma znth_zip {A B C} (f : A -> B -> outcome C) : forall (l : list (outcome A)) (k : list (outcome B)) i, znth (zip f l k) i = match znth l i, znth k i with Some u, Some v => Some (both f u v) | _, _ => None end.
Proof.
  induction l as [|u l IH]; intros [|v k] i; cbn [zip]; rewrite ?znth_nil; try reflexivity.
  - destruct (znth (u :: l) i); reflexivity.
  - destruct (Z.lt_trichotomy i 0) as [H|[->|H]]; [now rewrite !znth_neg|now rewrite !znth_cons_0|]. rewrite !znth_cons_pos by assumption. apply IH.
Qed.
Lemma elementwise_reads : forall W (e : list V -> ex1 W), written1 V W e -> forall l, elementwise (e l) ->
  forall b b' i, zlen b = zlen b' -> znth b i = znth b' i -> znth (den1 (e b)) i = znth (den1 (e b')) i.
Proof.
  apply (w1_ind V (fun W (e : list V -> ex1 W) => forall l, elementwise (e l) -> forall b b' i, zlen b = zlen b' -> znth b i = znth b' i -> znth (den1 (e b)) i = znth (den1 (e b')) i)
    (fun W (_ : list V -> ex2 W) => True)); try (intros; exact I); try (cbn; contradiction); cbn [elementwise den1].
  - intros l _ b b' i HL HV. unfold itself. cbn [den1 src_of_arr ssize sun an buf]. rewrite HL. rewrite !znth_map. destruct (znth (zseq 0 (Z.to_nat (zlen b'))) i) as [j|] eqn:E; [|reflexivity].
    assert (j = i) as ->. { pose proof (znth_lt _ _ _ E) as Hi. rewrite zlen_zseq in Hi. rewrite znth_zseq in E by lia. injection E as <-. lia. }
    cbn. f_equal. unfold oget. now rewrite HV.
  - reflexivity.
  - intros U W f e _ IH l H b b' i HL HV. rewrite !znth_map. now rewrite (IH l H b b' i HL HV).
  - intros T U W f e1 e2 _ IH1 _ IH2 l (H1 & H2) b b' i HL HV. rewrite !znth_zip. now rewrite (IH1 l H1 b b' i HL HV), (IH2 l H2 b b' i HL HV).
  - intros T U W f e x _ IH l H b b' i HL HV. rewrite !znth_map. now rewrite (IH l H b b' i HL HV).
  - intros T U W f x e _ IH l H b b' i HL HV. rewrite !znth_map. now rewrite (IH l H b b' i HL HV).
Qed.
(** Without reading back, the result is the vector the expression was. *)
Theorem self_forward e a l r : rep a l -> written1 V V e -> fits1 (e l) -> agree1 (e l) -> forward (zlen l) e -> den1 (e l) = map Ok r -> zlen r = zlen l ->
  exists a', self_assign c e a = MOk a' /\ rep a' r.
Proof.
  intros HRep HW HF HA HFw HD HL. apply (self_exact e a l r HRep HW HF HA); [now rewrite HD, zlen_map|].
  split; [exact HL|]. split.
  - intros i Hi. destruct (znth_some r i ltac:(lia)) as (v & Hv). exists v. split; [exact Hv|].
    rewrite (HFw (half r l i) l i); [|apply zlen_half; lia|reflexivity|exact Hi|].
    + rewrite HD. unfold elt. now rewrite znth_map, Hv.
    + intros j Hj. rewrite znth_half by lia. now replace (j <? i) with false by lia.
  - intros i Hi. rewrite !znth_none by lia. reflexivity.
Qed.
Theorem self_elementwise e a l r : rep a l -> written1 V V e -> elementwise (e l) -> fits1 (e l) -> agree1 (e l) -> den1 (e l) = map Ok r -> zlen r = zlen l ->
  exists a', self_assign c e a = MOk a' /\ rep a' r.
Proof.
  intros HRep HW HE HF HA HD HL. apply (self_forward e a l r); auto. intros b b' i Hb Hb' Hi HV. unfold elt.
  now rewrite (elementwise_reads V e HW l HE b b' i ltac:(congruence) (HV i ltac:(lia))).
Qed.
Theorem self_resize_thm e a l r : rep a l -> fits1 (e l) -> agree1 (e l) -> den1 (e l) = map Ok r -> zlen r <= amax c ->
  exists a', self_resize zero c e a = Ok a' /\ rep a' r.
Proof.
  intros (HB & HN) HF HA HD HM. destruct (proj1 (tree1 c V (e l) HF) HA) as (A & EA & Y). unfold self_resize. rewrite HB, EA. cbn [bind]. unfold arr_resize_and_assign.
  rewrite (of_src zero c A (den1 (e l)) Y) by (now rewrite HD, zlen_map). rewrite HD. assert (seqo (map Ok r) = Ok r) as ->. { clear. induction r as [|x r IH]; cbn [map seqo bind]; [reflexivity|]. now rewrite IH. }
  cbn [bind]. eexists. split; [reflexivity|]. split; [reflexivity|]. cbn [an]. now rewrite zlen_map.
Qed.
(** x op= e is x = x op e. *)
Theorem self_compound f e a l : rep a l -> zlen l <= LONG_MAX -> written1 V V e -> fits1 (e l) -> agree1 (e l) -> zlen (den1 (e l)) = zlen l ->
  self_update c f e a = self_assign c (fun b => XBin V V V f (itself b) (e b)) a.
Proof.
  clear zero. intros (HB & HN) HM HW HF HA HL. destruct (proj1 (tree1 c V (e l) HF) HA) as (A & EA & ES & _). unfold self_update, self_assign. rewrite HB, EA.
  unfold itself. cbn [build1]. rewrite EA. cbn [bind]. unfold x_bin. cbn [src_of_arr ssize an]. rewrite ES, HL, Z.eqb_refl, check_debug_true. cbn [bind ssize].
  unfold v_op_array, arr_assign_rd. cbn [o_size]. rewrite HN, Z.eqb_refl, check_debug_true. cbn [guarded]. f_equal. unfold update_loop, assign_loop, mfor.
  rewrite HB. apply (mfor_loop_same (fun b => zlen b = zlen l)); [|reflexivity].
  intros t b Ht Hb. cbn [Z.add]. pose proof (zlen_nonneg l). assert (0 <= t < zlen l) as Ht' by lia. unfold reread at 2. cbn [build1]. unfold itself. cbn [build1 bind].
  destruct (proj1 like _ _ HW l b (eq_sym Hb)) as (E & F & G). destruct (proj1 (tree1 c V (e b) (F HF)) (G HA)) as (B & EB & EBS & _ & YB).
  rewrite (reread_ok e l b t HW HF HA Hb) by lia. rewrite EB. cbn [bind]. unfold x_bin. cbn [src_of_arr ssize an]. rewrite EBS, <- E, HL, Hb, Z.eqb_refl, check_debug_true. cbn [bind sun src_of_arr buf o_lin].
  rewrite YB by lia. destruct (znth_some b t ltac:(lia)) as (v & Hv). rewrite (oget_ok _ _ _ Hv). cbn [bind].
  destruct (elt (den1 (e b)) t) as [y|g|]; cbn [bind commit]; [|split; [reflexivity|discriminate]|split; [reflexivity|discriminate]].
  destruct (f v y) as [z|g|]; cbn [bind commit]; [|split; [reflexivity|discriminate]|split; [reflexivity|discriminate]].
  rewrite oset_ok by lia. cbn [commit]. split; [reflexivity|]. intros b' [= <-]. now rewrite zlen_zupd.
Qed.
End A.

Section M.
Context {V : Type} (zero : V) (c : cfg) (Hc : cfg_ok c).
(** The dot product with functions that always have a value. *)
Lemma dotl_total (add mul : V -> V -> outcome V) (g h : V -> V -> V) : (forall u v, add u v = Ok (g u v)) -> (forall u v, mul u v = Ok (h u v)) ->
  forall l k s, dotl s add mul (map Ok l) (map Ok k) = Ok (fold_left g (map (fun p => h (fst p) (snd p)) (combine l k)) s).
Proof.
  intros Hg Hh. induction l as [|x l IH]; intros [|y k] s; cbn [map dotl combine fold_left]; try reflexivity. unfold both. cbn [bind]. rewrite Hh. cbn [bind]. rewrite Hg. cbn [bind fst snd]. apply IH.
Qed.
Definition times (add mul : V -> V -> outcome V) (z : V) (m : arr2 V) (b : list V) : ex1 V := XMatvec V V V z add mul (YLeaf V (src_of_arr2 m)) (itself b).
Lemma times_den add mul z m M b i row : rep2 m M -> zlen M * ncols M <= amax c -> znth M i = Some row ->
  zlen (den1 (times add mul z m b)) = zlen M /\ elt (den1 (times add mul z m b)) i = dotl z add mul (map Ok row) (map Ok b).
Proof using zero Hc.
  intros HR HM Hrow. destruct (rep_yields zero c Hc m M HR HM) as (E1 & E2 & _ & _ & _ & _ & YU & _). cbn [mr mc mel] in *. pose proof (znth_lt _ _ _ Hrow) as Hi.
  unfold times, itself. cbn [den1 den2 mr mc mel src_of_arr ssize sun an buf]. rewrite E1, E2, zlen_map, zlen_zseq. split; [pose proof (zlen_nonneg M); lia|].
  unfold elt. rewrite znth_map_zseq by lia. cbn [Z.add]. f_equal.
  - unfold mrow. cbn [mel mc]. assert (zlen row = ncols M) as Er.
    { destruct HR as ((HRe & _) & _). unfold MatrixSpec.rect in HRe. rewrite Forall_forall in HRe. apply HRe. now apply znth_in in Hrow. }
    apply list_ext_znth. intros j Hj. rewrite (znth_map Ok row). destruct (Z.ltb_spec j (ncols M)).
    + rewrite znth_map_zseq by lia. cbn [Z.add]. rewrite YU by lia. unfold Lazy2Spec.entry, MatrixSpec.mget. rewrite Hrow.
      destruct (znth_some row j ltac:(lia)) as (v & ->). reflexivity.
    + rewrite !znth_none; [reflexivity|lia|]. rewrite zlen_map, zlen_zseq. pose proof (ncols_nonneg M). lia.
  - apply list_ext_znth. intros j Hj. rewrite (znth_map Ok b). destruct (Z.ltb_spec j (zlen b)).
    + rewrite znth_map_zseq by lia. cbn [Z.add]. destruct (znth_some b j ltac:(lia)) as (v & Hv). rewrite Hv. cbn. now rewrite (oget_ok _ _ _ Hv).
    + rewrite !znth_none; [reflexivity|lia|]. rewrite zlen_map, zlen_zseq. pose proof (zlen_nonneg b). lia.
Qed.
Lemma times_written add mul z m : written1 V V (times add mul z m).
Proof. unfold times. apply (W_matvec V V V z add mul (fun _ => YLeaf V (src_of_arr2 m)) itself); constructor. Qed.
Lemma times_fits add mul z m M b : rep2 m M -> zlen M * ncols M <= amax c -> zlen b = ncols M -> fits1 (times add mul z m b) /\ agree1 (times add mul z m b).
Proof using zero Hc.
  intros HR HM Hb. pose proof (rep_yields zero c Hc m M HR HM) as Y. pose proof Y as (E1 & E2 & E3 & E4 & E5 & E6 & YU & YL). cbn [mr mc mel] in *.
  unfold times, itself. cbn [fits1 fits2 agree1 agree2 den1 den2 mr mc src_of_arr ssize an]. rewrite zlen_map, zlen_zseq. split; [|repeat split; rewrite E2; pose proof (zlen_nonneg b); lia].
  split; [|split].
  - rewrite E1, E2. eapply yields2_ext; [exact Y|reflexivity|reflexivity|]. cbn [mr mc mel]. intros i j Hi Hj. symmetry. now apply YU.
  - unfold plump. cbn [mr mc]. rewrite E1, E2. destruct HR as ((_ & Hw) & _). destruct M as [|row M]; [split; reflexivity|]. specialize (Hw ltac:(discriminate)). rewrite zlen_cons in *. pose proof (zlen_nonneg M). split; lia.
  - lia.
Qed.
(** x = matvec_prod(A, x). *)
Theorem matvec_self add mul g h z m M a l : (forall u v, add u v = Ok (g u v)) -> (forall u v, mul u v = Ok (h u v)) ->
  rep2 m M -> zlen M * ncols M <= amax c -> rep a l -> zlen M = zlen l -> ncols M = zlen l ->
  exists a' r, self_assign c (times add mul z m) a = MOk a' /\ rep a' r /\ zlen r = zlen l /\
    forall i row, znth M i = Some row -> znth r i = Some (fold_left g (map (fun p => h (fst p) (snd p)) (combine row (half r l i))) z).
Proof using zero Hc.
  intros Hg Hh HR HM HRep HL1 HL2. destruct (times_fits add mul z m M l HR HM ltac:(lia)) as (HF & HA).
  assert (zlen (den1 (times add mul z m l)) = zlen l) as HD.
  { destruct (Z.eq_dec (zlen M) 0) as [E0|E0].
    - destruct (rep_yields zero c Hc m M HR HM) as (E1 & _). cbn [mr] in E1. unfold times. cbn [den1 den2 mr]. rewrite E1, zlen_map, zlen_zseq. lia.
    - pose proof (zlen_nonneg M). destruct (znth_some M 0 ltac:(lia)) as (row & Hrow). destruct (times_den add mul z m M l 0 row HR HM Hrow) as (E & _). lia. }
  pose proof (self_assign_thm c (times add mul z m) a l HRep (times_written add mul z m) HF HA HD) as H.
  destruct (self_assign c (times add mul z m) a) as [a'|f a'|].
  - destruct H as (r & (HL & HV & _) & Hr). exists a', r. split; [reflexivity|]. split; [exact Hr|]. split; [exact HL|].
    intros i row Hrow. pose proof (znth_lt _ _ _ Hrow). destruct (HV i ltac:(lia)) as (v & -> & Ev). f_equal.
    destruct (times_den add mul z m M (half r l i) i row HR HM Hrow) as (_ & E). rewrite E, (dotl_total add mul g h Hg Hh) in Ev. congruence.
  - destruct H as (r & i & Hi & _ & E & _). destruct (znth_some M i ltac:(lia)) as (row & Hrow). destruct (times_den add mul z m M r i row HR HM Hrow) as (_ & E'). rewrite E', (dotl_total add mul g h Hg Hh) in E. discriminate.
  - destruct H as (r & i & Hi & _ & E). destruct (znth_some M i ltac:(lia)) as (row & Hrow). destruct (times_den add mul z m M r i row HR HM Hrow) as (_ & E'). rewrite E', (dotl_total add mul g h Hg Hh) in E. discriminate.
Qed.
End M.
