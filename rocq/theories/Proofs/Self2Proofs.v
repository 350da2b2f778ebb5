(** Matrices assigned from expressions that read them. *)
From Verif Require Import Base.Outcome Base.ZList Model.Index Model.Slice Model.Array1D Model.Array2D Model.View2D Model.Expr Model.ViewAssign Model.Self.
From Verif Require Import Spec.ArraySpec Spec.MatrixSpec Spec.Matrix2Spec Spec.View2DSpec Spec.ExprSpec Spec.SelfSpec Proofs.MatrixProofs Proofs.ExprProofs Proofs.ExprMore Proofs.ExprEval Proofs.Lazy2Proofs Proofs.Lazy2Thms Proofs.SelfProofs.
From Verif Require Proofs.EigenProofs Proofs.ExprThms.

Section A.
Context {V : Type} (zero : V) (c : cfg).
Implicit Types (l r b : list V) (e : list V -> ex2 V) (g : list V -> Z -> outcome V).

(** Replacing one element after the other by the values g. *)
Definition turned g l (k : Z) r : Prop :=
  zlen r = zlen l /\ (forall i, 0 <= i < k -> exists v, znth r i = Some v /\ g (half r l i) i = Ok v) /\ (forall i, k <= i -> znth r i = znth l i).
Lemma turned_self g l k r : turned g l k r -> 0 <= k <= zlen l -> half r l k = r.
Proof using. intros (HL & _ & H) Hk. apply list_ext_znth. intros j Hj. rewrite znth_half by assumption. destruct (Z.ltb_spec j k); [reflexivity|]. symmetry. now apply H. Qed.
Lemma turned_start g l : turned g l 0 l.
Proof using. split; [reflexivity|]. split; [intros; lia|reflexivity]. Qed.
Lemma turned_next g l k b v : turned g l k b -> 0 <= k < zlen l -> g b k = Ok v -> turned g l (k + 1) (zupd b k v).
Proof using.
  intros HR Hk HV. pose proof (turned_self _ _ _ _ HR ltac:(lia)) as HS. destruct HR as (HL & H1 & H2). split; [now rewrite zlen_zupd|]. split.
  - intros i Hi. assert (half (zupd b k v) l i = half b l i) as E.
    { apply list_ext_znth. intros j Hj. rewrite !znth_half by (rewrite ?zlen_zupd; lia). destruct (Z.ltb_spec j i); [|reflexivity]. apply other; lia. }
    rewrite E. destruct (Z.eq_dec i k) as [->|].
    + exists v. rewrite HS. split; [|exact HV]. apply same; lia.
    + destruct (H1 i ltac:(lia)) as (x & Hx & Hv). exists x. split; [|exact Hv]. rewrite other by lia. exact Hx.
  - intros i Hi. rewrite other by lia. apply H2. lia.
Qed.
Lemma turned_half g l n r k r' : turned g l n r -> turned g l k r' -> 0 <= k <= n -> n <= zlen l -> half r l k = r'.
Proof using.
  intros (HL & H1 & H2) (HL' & H1' & H2') Hk Hn.
  assert (forall j, (forall i, 0 <= i < Z.of_nat j -> i < k -> znth r i = znth r' i)) as HA.
  { induction j as [|j IH]; intros i Hi Hik; [lia|]. destruct (Z.eq_dec i (Z.of_nat j)) as [->|]; [|apply IH; lia].
    destruct (H1 (Z.of_nat j) ltac:(lia)) as (v & Ev & Hv), (H1' (Z.of_nat j) ltac:(lia)) as (v' & Ev' & Hv').
    assert (half r l (Z.of_nat j) = half r' l (Z.of_nat j)) as E; [|congruence].
    apply list_ext_znth. intros i Hi'. rewrite !znth_half by lia. destruct (Z.ltb_spec i (Z.of_nat j)); [|reflexivity]. apply IH; lia. }
  apply list_ext_znth. intros j Hj. rewrite znth_half by lia. destruct (Z.ltb_spec j k); [apply (HA (Datatypes.S (Z.to_nat j))); lia|]. symmetry. apply H2'. lia.
Qed.

(** Reading the expression in the middle of a loop. *)
Lemma reread2_ok e l b m n i j : written2 V V e -> fits2 (e l) -> agree2 (e l) -> mr (den2 (e l)) = m -> mc (den2 (e l)) = n -> zlen b = zlen l -> 0 <= i < m -> 0 <= j < n ->
  reread2 c e b i j = mlin (den2 (e b)) (i * n + j) /\ reread_lin c e b (i * n + j) = mlin (den2 (e b)) (i * n + j).
Proof using.
  intros HW HF HA Hm Hn HL Hi Hj. destruct (proj2 like _ _ HW l b (eq_sym HL)) as (E1 & E2 & F & G). destruct (proj1 (tree2 c V (e b) (F HF)) (G HA)) as (A & EA & _ & _ & _ & _ & _ & _ & YU & YL).
  unfold reread2, reread_lin. rewrite EA. cbn [bind]. unfold mlin. rewrite <- E2, Hn. rewrite Z.div_add_l, Z.div_small, Z.add_0_r by lia.
  rewrite Z.add_comm, Z_mod_plus_full, Z.mod_small by lia. split; [apply YU; lia|]. rewrite <- YL by lia. f_equal. lia.
Qed.
Theorem self_assign2_thm e a m n l : holds2 a m n l -> written2 V V e -> fits2 (e l) -> agree2 (e l) -> mr (den2 (e l)) = m -> mc (den2 (e l)) = n ->
  match self_assign2 c e a with
  | MOk a' => exists r, replaced2 e l (zlen l) r /\ holds2 a' m n r
  | MFail f a' => exists r i, 0 <= i < zlen l /\ replaced2 e l i r /\ mlin (den2 (e r)) i = Fail f /\ holds2 a' m n r
  | MUB => exists r i, 0 <= i < zlen l /\ replaced2 e l i r /\ mlin (den2 (e r)) i = UB
  end.
Proof using.
  intros (D1 & D2 & Pm & Pn & HL & HM & HB & HN) HW HF HA Hm Hn. unfold self_assign2. rewrite HB. destruct (proj1 (tree2 c V (e l) HF) HA) as (A & EA & ES1 & ES2 & _). rewrite EA.
  unfold arr2_assign_rd. rewrite D1, D2, ES1, ES2, Hm, Hn, HB, HN. unfold same_size2. rewrite !Z.eqb_refl. cbn [andb]. rewrite check_debug_true.
  rewrite <- (compound2_loop (fun b => zlen b = zlen l) m n (fun k b => commit b (v <- mlin (den2 (e b)) k ;; oset b k v))); [|exact Pm|exact Pn| |reflexivity].
  - pose proof (mfor_inv (fun i b => replaced2 e l i b) (fun f b => exists i, 0 <= i < zlen l /\ replaced2 e l i b /\ mlin (den2 (e b)) i = Fail f)
      (exists b i, 0 <= i < zlen l /\ replaced2 e l i b /\ mlin (den2 (e b)) i = UB) (fun i b => commit b (v <- mlin (den2 (e b)) i ;; oset b i v)) 0 (m * n) l ltac:(nia)) as K.
    match type of K with ?P -> ?Q -> ?C => assert C as KC; [apply K|] end.
    + intros i b Hi HR. destruct (mlin (den2 (e b)) i) as [v|f|] eqn:EV; cbn [bind commit].
      * rewrite oset_ok by (rewrite (proj1 HR); lia). cbn [commit]. apply (turned_next (fun b i => mlin (den2 (e b)) i)); [exact HR|lia|exact EV].
      * exists i. split; [lia|]. auto.
      * exists b, i. split; [lia|]. auto.
    + apply (turned_start (fun b i => mlin (den2 (e b)) i)).
    + rewrite HL in *. assert (forall b i, replaced2 e l i b -> holds2 (mkarr2 m n (mkarr b (m * n))) m n b) as HH.
      { intros b i (Eb & _). unfold holds2. cbn [drows dcols dat buf an]. repeat (split; [first [reflexivity|assumption|congruence]|]). reflexivity. }
      destruct (mfor 0 (m * n) _ l) as [b|f b|]; cbn [mbind].
      * exists b. split; [exact KC|]. eapply HH; exact KC.
      * destruct KC as (i & Hi & HR & HV). exists b, i. split; [exact Hi|]. split; [exact HR|]. split; [exact HV|]. eapply HH; exact HR.
      * exact KC.
  - intros i j b Hi Hj Hb. destruct (reread2_ok e l b m n i j HW HF HA Hm Hn Hb Hi Hj) as (-> & _). assert (0 <= i * n) by nia. assert (i * n + j < m * n) by nia.
    destruct (mlin (den2 (e b)) (i * n + j)) as [v|f|]; cbn [bind commit]; [|split; [reflexivity|discriminate]|split; [reflexivity|discriminate]].
    unfold set2. rewrite lmul_ok by (unfold LONG_MIN; lia). cbn [bind]. rewrite ladd_ok by (unfold LONG_MIN; lia). cbn [bind]. split; [reflexivity|].
    rewrite oset_ok by lia. cbn [commit]. intros b' [= <-]. now rewrite zlen_zupd.
Qed.
Theorem self_exact2 e a m n l r : holds2 a m n l -> written2 V V e -> fits2 (e l) -> agree2 (e l) -> mr (den2 (e l)) = m -> mc (den2 (e l)) = n -> replaced2 e l (zlen l) r ->
  exists a', self_assign2 c e a = MOk a' /\ holds2 a' m n r.
Proof using.
  intros HRep HW HF HA Hm Hn HR. pose proof (self_assign2_thm e a m n l HRep HW HF HA Hm Hn) as H. pose proof (zlen_nonneg l).
  destruct (self_assign2 c e a) as [a'|f a'|].
  - destruct H as (r' & HR' & Hr'). exists a'. split; [reflexivity|]. pose proof (turned_half (fun b i => mlin (den2 (e b)) i) l _ r _ r' HR HR' ltac:(lia) ltac:(lia)) as E.
    rewrite (turned_self (fun b i => mlin (den2 (e b)) i) l (zlen l) r HR) in E by lia. now subst.
  - destruct H as (r' & i & Hi & HR' & HV & _). rewrite <- (turned_half (fun b i => mlin (den2 (e b)) i) l _ r _ r' HR HR') in HV by lia. destruct HR as (_ & H1 & _). destruct (H1 i Hi) as (v & _ & Hv). congruence.
  - destruct H as (r' & i & Hi & HR' & HV). rewrite <- (turned_half (fun b i => mlin (den2 (e b)) i) l _ r _ r' HR HR') in HV by lia. destruct HR as (_ & H1 & _). destruct (H1 i Hi) as (v & _ & Hv). congruence.
Qed.
Theorem self_bad2 e a m n l : holds2 a m n l -> fits2 (e l) -> checked c = true -> ~ agree2 (e l) \/ agree2 (e l) /\ ~ (mr (den2 (e l)) = m /\ mc (den2 (e l)) = n) ->
  self_assign2 c e a = MFail (report c) a /\ forall f, self_update2 c f e a = MFail (report c) a.
Proof using.
  intros (D1 & D2 & _ & _ & _ & _ & HB & HN) HF HC [HA|[HA HD]].
  - unfold self_assign2, self_update2. rewrite HB, (proj2 (tree2 c V (e l) HF) HA HC). auto.
  - destruct (proj1 (tree2 c V (e l) HF) HA) as (A & EA & ES1 & ES2 & _). unfold self_assign2, self_update2. rewrite HB, EA. unfold arr2_assign_rd, v_op_array2. cbn [o_size o_rows o_cols].
    rewrite D1, D2, ES1, ES2. replace (same_size2 m n (mr (den2 (e l))) (mc (den2 (e l)))) with false by (unfold same_size2; lia). rewrite check_debug_false by assumption. split; [reflexivity|].
    intros f. cbn [guarded mbind]. f_equal. destruct a as [? ? [? ?]]; cbn in *; now subst.
Qed.
Theorem self_forward2 e a m n l r : holds2 a m n l -> written2 V V e -> fits2 (e l) -> agree2 (e l) -> mr (den2 (e l)) = m -> mc (den2 (e l)) = n -> forward2 (zlen l) e ->
  zlen r = zlen l -> (forall i v, znth r i = Some v -> mlin (den2 (e l)) i = Ok v) -> exists a', self_assign2 c e a = MOk a' /\ holds2 a' m n r.
Proof using.
  clear zero. intros HRep HW HF HA Hm Hn HFw HL HD. apply (self_exact2 e a m n l r); auto. split; [exact HL|]. split.
  - intros i Hi. destruct (znth_some r i ltac:(lia)) as (v & Hv). exists v. split; [exact Hv|].
    rewrite (HFw (half r l i) l i); [now apply HD|apply zlen_half; lia|reflexivity|exact Hi|].
    intros j Hj. rewrite znth_half by lia. now replace (j <? i) with false by lia.
  - intros i Hi. rewrite !znth_none by lia. reflexivity.
Qed.
Theorem self_resize2_thm e a m n l r : holds2 a m n l -> fits2 (e l) -> agree2 (e l) -> plump (den2 (e l)) -> zlen r = mr (den2 (e l)) * mc (den2 (e l)) -> zlen r <= amax c ->
  (forall i v, znth r i = Some v -> mlin (den2 (e l)) i = Ok v) -> exists a', self_resize2 zero c e a = Ok a' /\ holds2 a' (mr (den2 (e l))) (mc (den2 (e l))) r.
Proof using zero.
  intros (D1 & D2 & _ & _ & _ & _ & HB & HN) HF HA HP HL HM HD. destruct (proj1 (tree2 c V (e l) HF) HA) as (A & EA & Y). unfold self_resize2. rewrite HB, EA. cbn [bind]. unfold arr2_resize_and_assign.
  rewrite (of_src2 zero c A (den2 (e l)) Y HP) by lia. assert (mlist (den2 (e l)) = map Ok r) as ->.
  { unfold mlist. apply list_ext_znth. intros i Hi. rewrite (znth_map Ok r). destruct (Z.ltb_spec i (zlen r)).
    - rewrite znth_map_zseq by lia. destruct (znth_some r i ltac:(lia)) as (v & Hv). rewrite Hv. cbn [option_map Z.add]. f_equal. now apply HD.
    - rewrite !znth_none; [reflexivity|lia|]. rewrite zlen_map, zlen_zseq. lia. }
  assert (seqo (map Ok r) = Ok r) as ->. { clear. induction r as [|x r IH]; cbn [map seqo bind]; [reflexivity|]. now rewrite IH. }
  cbn [bind]. eexists. split; [reflexivity|]. destruct Y as (_ & _ & ? & ? & _ & ? & _). unfold holds2. cbn [drows dcols dat buf an]. repeat (split; [first [reflexivity|assumption|lia]|]). reflexivity.
Qed.
(** A op= e is A = A op e. *)
Theorem self_compound2 f e a m n l : holds2 a m n l -> m <= LONG_MAX -> n <= LONG_MAX -> written2 V V e -> fits2 (e l) -> agree2 (e l) -> mr (den2 (e l)) = m -> mc (den2 (e l)) = n ->
  self_update2 c f e a = self_assign2 c (fun b => YBin V V V f (itself2 m n b) (e b)) a.
Proof using.
  clear zero. intros (D1 & D2 & Pm & Pn & HL & HM & HB & HN) Lm Ln HW HF HA Hm Hn. destruct (proj1 (tree2 c V (e l) HF) HA) as (A & EA & ES1 & ES2 & _). unfold self_update2, self_assign2. rewrite HB, EA.
  unfold itself2. cbn [build2]. rewrite EA. cbn [bind]. unfold x_bin2. cbn [src_of_arr2 s2rows s2cols drows dcols]. rewrite ES1, ES2, Hm, Hn. unfold same_size2. rewrite !Z.eqb_refl. cbn [andb]. rewrite check_debug_true. cbn [bind s2rows s2cols].
  unfold v_op_array2, arr2_assign_rd. cbn [o_size o_rows o_cols]. rewrite D1, D2, HN, HB. unfold same_size2. rewrite !Z.eqb_refl. cbn [andb]. rewrite check_debug_true. cbn [guarded]. f_equal. unfold update_loop.
  apply (compound2_loop (fun b => zlen b = zlen l) m n); [exact Pm|exact Pn| |reflexivity].
  intros i j b Hi Hj Hb. assert (0 <= i * n) by nia. assert (i * n + j < m * n) by nia. cbn [o_lin bind].
  destruct (reread2_ok e l b m n i j HW HF HA Hm Hn Hb Hi Hj) as (ER & ->). unfold reread2. unfold reread2 in ER. unfold itself2. cbn [build2 bind].
  destruct (proj2 like _ _ HW l b (eq_sym Hb)) as (E1 & E2 & F & G). destruct (proj1 (tree2 c V (e b) (F HF)) (G HA)) as (B & EB & EB1 & EB2 & _). rewrite EB in *. cbn [bind] in *. unfold x_bin2.
  cbn [src_of_arr2 s2rows s2cols drows dcols]. rewrite EB1, EB2, <- E1, <- E2, Hm, Hn. unfold same_size2. rewrite !Z.eqb_refl. cbn [andb]. rewrite check_debug_true. cbn [bind s2un src_of_arr2]. unfold un2. cbn [dcols dat buf].
  rewrite lmul_ok by (unfold LONG_MIN; lia). cbn [bind]. rewrite ladd_ok by (unfold LONG_MIN; lia). cbn [bind]. rewrite ER.
  destruct (znth_some b (i * n + j) ltac:(lia)) as (v & Hv). rewrite (oget_ok _ _ _ Hv). cbn [bind].
  destruct (mlin (den2 (e b)) (i * n + j)) as [y|g|]; cbn [bind commit]; [|split; [reflexivity|discriminate]|split; [reflexivity|discriminate]].
  destruct (f v y) as [z|g|]; cbn [bind commit]; [|split; [reflexivity|discriminate]|split; [reflexivity|discriminate]].
  unfold set2. rewrite lmul_ok by (unfold LONG_MIN; lia). cbn [bind]. rewrite ladd_ok by (unfold LONG_MIN; lia). cbn [bind].
  rewrite oset_ok by lia. cbn [commit]. split; [reflexivity|]. intros b' [= <-]. now rewrite zlen_zupd.
Qed.
End A.

Section R.
Context {V : Type} (c : cfg).
Implicit Types (l r b : list V).
Lemma itself2_fits m n b : 0 <= m <= LONG_MAX -> 0 <= n <= LONG_MAX -> zlen b = m * n -> m * n <= LONG_MAX -> fits2 (itself2 m n b).
Proof using.
  intros Hm Hn HL HM. unfold itself2. cbn [fits2]. unfold yields2. cbn [mr mc mel s2rows s2cols s2size s2un s2lin src_of_arr2 drows dcols dat an buf].
  repeat (split; [first [reflexivity|assumption]|]). intros i j Hi Hj. unfold un2. cbn [dcols dat buf].
  assert (0 <= i * n) by nia. assert (i * n + j < m * n) by nia.
  rewrite lmul_ok by (unfold LONG_MIN; lia). cbn [bind]. rewrite ladd_ok by (unfold LONG_MIN; lia). reflexivity.
Qed.
(** The product of a column and a row of the matrix. *)
Definition cross (h : V -> V -> outcome V) (m n p q : Z) (b : list V) : ex2 V :=
  YTensor V V V h (XView2 V (itself2 m n b) (VwCol (Plain p))) (XView2 V (itself2 m n b) (VwRow (Plain q))).
Lemma cross_written h m n p q : written2 V V (cross h m n p q).
Proof using.
  apply (W_tensor V V V h (fun b => XView2 V (itself2 m n b) (VwCol (Plain p))) (fun b => XView2 V (itself2 m n b) (VwRow (Plain q))));
    [apply (W_view2 V (itself2 m n) (VwCol (Plain p)))|apply (W_view2 V (itself2 m n) (VwRow (Plain q)))]; apply W_self2.
Qed.
Lemma cell m n b i j : m * n <= LONG_MAX -> 0 <= i < m -> 0 <= j < n -> mlin (den2 (itself2 m n b)) (i * n + j) = oget b (i * n + j) /\ mel (den2 (itself2 m n b)) i j = oget b (i * n + j).
Proof using.
  intros HM Hi Hj. assert (0 <= i * n) by nia. assert (i * n + j < m * n) by nia.
  assert (mel (den2 (itself2 m n b)) i j = oget b (i * n + j)) as E.
  { unfold itself2. cbn [den2 mel src_of_arr2 s2un]. unfold un2. cbn [dcols dat buf]. rewrite lmul_ok by (unfold LONG_MIN; lia). cbn [bind]. rewrite ladd_ok by (unfold LONG_MIN; lia). reflexivity. }
  split; [|exact E]. unfold mlin. change (mc (den2 (itself2 m n b))) with n. rewrite Z.div_add_l, Z.div_small, Z.add_0_r by lia.
  replace ((i * n + j) mod n) with j by (rewrite Z.add_comm, Z_mod_plus_full, Z.mod_small by lia; reflexivity). exact E.
Qed.
Lemma cross_ok h m n p q b : zlen b = m * n -> m <= LONG_MAX -> n <= LONG_MAX -> m * n <= LONG_MAX -> 0 <= p < n -> 0 <= q < m ->
  fits2 (cross h m n p q b) /\ agree2 (cross h m n p q b) /\ mr (den2 (cross h m n p q b)) = m /\ mc (den2 (cross h m n p q b)) = n /\
  forall i j, 0 <= i < m -> 0 <= j < n -> mel (den2 (cross h m n p q b)) i j = both h (oget b (i * n + p)) (oget b (q * n + j)).
Proof using.
  intros HL Lm Ln HM Hp Hq. destruct (ExprThms.whole2_shape (mkcfg true true true 1) m n) as (P & EP & P1 & P2 & PW & PG); [lia|lia|lia|exact HM|].
  pose proof (itself2_fits m n b ltac:(lia) ltac:(lia) HL HM) as HF.
  destruct (znth_some P q ltac:(lia)) as (row & Hrow).
  assert (zlen row = n) as Lrow. { destruct PW as (PR & _). unfold MatrixSpec.rect in PR. rewrite Forall_forall in PR. rewrite <- P2. apply PR. now apply znth_in in Hrow. }
  assert (forall j, 0 <= j < n -> znth row j = Some (q * n + j)) as Grow. { intros j Hj. pose proof (PG q j Hq Hj) as G. unfold mget in G. now rewrite Hrow in G. }
  assert (den1 (XView2 V (itself2 m n b) (VwCol (Plain p))) = map (mlin (den2 (itself2 m n b))) (EigenSpec.column P p)) as D1.
  { cbn [den1]. change (mr (den2 (itself2 m n b))) with m. change (mc (den2 (itself2 m n b))) with n. rewrite EP. cbn [den_apply denotes see_list]. reflexivity. }
  assert (den1 (XView2 V (itself2 m n b) (VwRow (Plain q))) = map (mlin (den2 (itself2 m n b))) row) as D2.
  { cbn [den1]. change (mr (den2 (itself2 m n b))) with m. change (mc (den2 (itself2 m n b))) with n. rewrite EP. cbn [den_apply denotes]. rewrite Hrow. reflexivity. }
  assert (zlen (EigenSpec.column P p) = m) as Lcol by (rewrite (EigenProofs.column_len P p PW) by lia; exact P1).
  assert (plump (den2 (itself2 m n b))) as HP by (unfold plump; change (mr (den2 (itself2 m n b))) with m; change (mc (den2 (itself2 m n b))) with n; lia).
  split; [|split; [|split; [|split]]].
  - unfold cross. cbn [fits2]. rewrite D1, D2, !zlen_map, Lcol, Lrow. split; [|split; [|exact HM]];
      (cbn [fits1]; change (mr (den2 (itself2 m n b))) with m; change (mc (den2 (itself2 m n b))) with n; rewrite EP; split; [exact HF|]; split; [exact HP|]; split; [reflexivity|]; split; [reflexivity|];
       cbn [vop_fits idx_fits]; unfold is_long, LONG_MIN; lia).
  - unfold cross. cbn [agree2 agree1]. change (mr (den2 (itself2 m n b))) with m; change (mc (den2 (itself2 m n b))) with n; rewrite EP. cbn [vop_ok denotes]. unfold itself2. cbn [agree2]. repeat split; lia.
  - unfold cross. cbn [den2 mr]. rewrite D1, zlen_map. exact Lcol.
  - unfold cross. cbn [den2 mc]. rewrite D2, zlen_map. exact Lrow.
  - intros i j Hi Hj. unfold cross. cbn [den2 mel]. rewrite D1, D2. unfold elt. rewrite !znth_map, (EigenProofs.column_get P i p PW) by lia. rewrite (PG i p Hi Hp), (Grow j Hj). cbn [option_map].
    rewrite (proj1 (cell m n b i p HM Hi Hp)), (proj1 (cell m n b q j HM Hq Hj)). reflexivity.
Qed.
Theorem rank_one f h (F H : V -> V -> V) a m n l p q : holds2 a m n l -> m <= LONG_MAX -> n <= LONG_MAX -> 0 <= p < n -> 0 <= q < m ->
  (forall u v, f u v = Ok (F u v)) -> (forall u v, h u v = Ok (H u v)) ->
  exists a' r, self_update2 c f (cross h m n p q) a = MOk a' /\ holds2 a' m n r /\
    forall i j u x y, 0 <= i < m -> 0 <= j < n -> znth l (i * n + j) = Some u -> znth (if p <? j then r else l) (i * n + p) = Some x -> znth (if q <? i then r else l) (q * n + j) = Some y ->
      znth r (i * n + j) = Some (F u (H x y)).
Proof using.
  intros HH Lm Ln Hp Hq Hf Hh. pose proof HH as (_ & _ & Pm & Pn & HL & HM & _). destruct (cross_ok h m n p q l HL Lm Ln HM Hp Hq) as (HF & HA & D1 & D2 & _).
  rewrite (self_compound2 c f (cross h m n p q) a m n l HH Lm Ln (cross_written h m n p q) HF HA D1 D2).
  set (e := fun b => YBin V V V f (itself2 m n b) (cross h m n p q b)).
  assert (written2 V V e) as HW by (apply (W_bin2 V V V f (itself2 m n) (cross h m n p q)); [apply W_self2|apply cross_written]).
  assert (fits2 (e l)) as HF' by (unfold e; cbn [fits2]; split; [apply itself2_fits; auto; lia|exact HF]).
  assert (agree2 (e l)) as HA'.
  { unfold e. cbn [agree2]. split; [exact I|]. split; [exact HA|]. rewrite D1, D2. split; reflexivity. }
  assert (forall b i j, zlen b = m * n -> 0 <= i < m -> 0 <= j < n -> exists u x y, znth b (i * n + j) = Some u /\ znth b (i * n + p) = Some x /\ znth b (q * n + j) = Some y /\
    mlin (den2 (e b)) (i * n + j) = Ok (F u (H x y))) as HE.
  { intros b i j Hb Hi Hj. assert (0 <= i * n) by nia. assert (i * n + n <= m * n) by nia. assert (0 <= q * n) by nia. assert (q * n + n <= m * n) by nia.
    destruct (znth_some b (i * n + j) ltac:(lia)) as (u & Eu). destruct (znth_some b (i * n + p) ltac:(lia)) as (x & Ex). destruct (znth_some b (q * n + j) ltac:(lia)) as (y & Ey).
    exists u, x, y. split; [exact Eu|]. split; [exact Ex|]. split; [exact Ey|].
    destruct (cross_ok h m n p q b Hb Lm Ln HM Hp Hq) as (_ & _ & _ & _ & G). unfold mlin, e. cbn [den2 mc mel]. change (s2cols (src_of_arr2 {| drows := m; dcols := n; dat := {| buf := b; an := zlen b |} |})) with n.
    change (mc (den2 (itself2 m n b))) with n. rewrite Z.div_add_l, Z.div_small, Z.add_0_r by lia. replace ((i * n + j) mod n) with j by (rewrite Z.add_comm, Z_mod_plus_full, Z.mod_small by lia; reflexivity).
    rewrite G by assumption. rewrite (proj2 (cell m n b i j HM Hi Hj)). rewrite (oget_ok _ _ _ Eu), (oget_ok _ _ _ Ex), (oget_ok _ _ _ Ey). unfold both. cbn [bind]. rewrite Hh. cbn [bind]. apply Hf. }
  assert (forall k, 0 <= k < m * n -> exists i j, 0 <= i < m /\ 0 <= j < n /\ k = i * n + j) as HK.
  { intros k Hk. exists (k / n), (k mod n). pose proof (Z.mod_pos_bound k n ltac:(lia)). split; [split; [apply Z.div_pos; lia|apply Z.div_lt_upper_bound; lia]|]. split; [assumption|]. pose proof (Z.div_mod k n ltac:(lia)). lia. }
  pose proof (self_assign2_thm c e a m n l HH HW HF' HA' eq_refl eq_refl) as K. fold e. destruct (self_assign2 c e a) as [a'|g a'|].
  - destruct K as (r & (LR & HV & _) & Hr). exists a', r. split; [reflexivity|]. split; [exact Hr|]. intros i j u x y Hi Hj Eu Ex Ey.
    assert (0 <= i * n) by nia. assert (i * n + n <= m * n) by nia. assert (0 <= q * n) by nia. assert (q * n + n <= m * n) by nia.
    destruct (HV (i * n + j) ltac:(lia)) as (v & -> & Ev). destruct (HE (half r l (i * n + j)) i j) as (u' & x' & y' & Eu' & Ex' & Ey' & E); [rewrite zlen_half; lia|exact Hi|exact Hj|].
    rewrite E in Ev. injection Ev as <-. rewrite znth_half in Eu' by lia. rewrite znth_half in Ex' by lia. rewrite znth_half in Ey' by lia.
    replace (i * n + j <? i * n + j) with false in Eu' by lia. replace (i * n + p <? i * n + j) with (p <? j) in Ex' by lia.
    replace (q * n + j <? i * n + j) with (q <? i) in Ey' by (destruct (Z.ltb_spec q i); symmetry; [apply Z.ltb_lt|apply Z.ltb_ge]; nia).
    destruct (p <? j), (q <? i); congruence.
  - exfalso. destruct K as (r & k & Hk & (LR & _) & E & _). destruct (HK k ltac:(lia)) as (i & j & Hi & Hj & ->). destruct (HE r i j ltac:(lia) Hi Hj) as (? & ? & ? & _ & _ & _ & E'). congruence.
  - exfalso. destruct K as (r & k & Hk & (LR & _) & E). destruct (HK k ltac:(lia)) as (i & j & Hi & Hj & ->). destruct (HE r i j ltac:(lia) Hi Hj) as (? & ? & ? & _ & _ & _ & E'). congruence.
Qed.
End R.
