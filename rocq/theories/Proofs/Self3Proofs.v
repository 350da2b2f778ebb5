(** Views assigned from expressions that read the array they view. *)
From Verif Require Import Base.Outcome Base.ZList Model.Index Model.Slice Model.Array1D Model.Array2D Model.View2D Model.Expr Model.ViewAssign Model.Self.
From Verif Require Import Spec.ArraySpec Spec.MatrixSpec Spec.Matrix2Spec Spec.View2DSpec Spec.ExprSpec Spec.AssignSpec Spec.SelfSpec Proofs.View2DThms Proofs.MatrixProofs Proofs.ExprProofs Proofs.ExprMore Proofs.ExprEval Proofs.AssignProofs Proofs.Lazy2Proofs Proofs.Lazy2Thms Proofs.SelfProofs Proofs.Self2Proofs.
From Verif Require Proofs.ExprThms Proofs.View2DOps.

Section C.
Context {V : Type}.
Implicit Types (b l r : list V) (g : list V -> Z -> Z -> outcome V) (ps : list Z).

Lemma course_len g i ps b r : course g i ps b r -> zlen r = zlen b.
Proof. induction 1; congruence. Qed.
Lemma course_snoc g i ps b r p v : course g i ps b r -> g r (i + zlen ps) p = Ok v -> 0 <= p < zlen r -> course g i (ps ++ [p]) b (zupd r p v).
Proof.
  induction 1 as [i b|i q ps b w b' r E1 E2 E3 E4 HC IH]; intros HV Hp; cbn [app].
  - rewrite Z.add_0_r in HV. econstructor; [exact HV|now rewrite zlen_zupd|now apply same|intros q Hq; now apply other|constructor].
  - econstructor; try eassumption. apply IH; [|assumption]. rewrite zlen_cons in HV. replace (i + 1 + zlen ps) with (i + (zlen ps + 1)) by lia. replace (i + (zlen ps + 1)) with (i + (1 + zlen ps)) by lia. first [exact HV|replace (i + (1 + zlen ps)) with (i + (zlen ps + 1)) by lia; exact HV].
Qed.
(** There is only one. *)
Lemma course_fun g i ps b r r' : course g i ps b r -> course g i ps b r' -> r = r'.
Proof.
  intros H. revert r'. induction H as [i b|i q ps b w b' r E1 E2 E3 E4 HC IH]; intros r' H'; inversion H' as [|? ? ? ? w' b'' ? F1 F2 F3 F4 HC']; subst; [reflexivity|].
  apply IH. rewrite E1 in F1. injection F1 as <-. enough (b' = b'') as -> by assumption. apply list_ext_znth. intros j Hj. destruct (Z.eq_dec j q) as [->|]; [congruence|]. now rewrite E4, F4.
Qed.
Lemma course_prefix g i ps b r k : course g i ps b r -> exists r', course g i (firstn k ps) b r'.
Proof.
  intros H. revert k. induction H as [i b|i q ps b w b' r E1 E2 E3 E4 HC IH]; intros [|k]; cbn [firstn]; try (eexists; constructor). destruct (IH k) as (r' & Hr). eexists. econstructor; eassumption.
Qed.
(** The step after a prefix succeeds. *)
Lemma course_next g i ps b r k p r' : course g i ps b r -> znth ps k = Some p -> course g i (firstn (Z.to_nat k) ps) b r' -> exists v, g r' (i + k) p = Ok v.
Proof.
  intros H. revert k p r'. induction H as [i b|i q ps b w b' r E1 E2 E3 E4 HC IH]; intros k p r' Hk H'; pose proof (znth_lt _ _ _ Hk) as Hb; [change (zlen (@nil Z)) with 0 in Hb; lia|].
  rewrite zlen_cons in Hb. destruct (Z.eq_dec k 0) as [->|].
  - cbn in Hk. injection Hk as <-. cbn [Z.to_nat firstn] in H'. inversion H'; subst. rewrite Z.add_0_r. eauto.
  - replace (Z.to_nat k) with (Datatypes.S (Z.to_nat (k - 1))) in H' by lia. cbn [firstn] in H'. inversion H' as [|? ? ? ? w' b'' ? F1 F2 F3 F4 HC']; subst.
    assert (b'' = b') as ->. { rewrite E1 in F1. injection F1 as <-. apply list_ext_znth. intros j Hj. destruct (Z.eq_dec j q) as [->|]; [congruence|]. now rewrite E4, F4. }
    destruct (IH (k - 1) p r') as (v & Hv); [|exact HC'|exists v; now replace (i + k) with (i + 1 + (k - 1)) by lia].
    unfold znth in *. replace (k <? 0) with false in Hk by lia. replace (k - 1 <? 0) with false by lia. replace (Z.to_nat k) with (Datatypes.S (Z.to_nat (k - 1))) in Hk by lia. exact Hk.
Qed.
Lemma goes_exact g ps l r res : course g 0 ps l r -> goes g ps l res -> res = MOk r.
Proof.
  intros HC. destruct res as [r'|f r'|]; cbn [goes].
  - intros H. f_equal. eapply course_fun; eassumption.
  - intros (k & p & Hk & H & E). destruct (course_next _ _ _ _ _ _ _ _ HC Hk H) as (v & Hv). rewrite Z.add_0_l in Hv. congruence.
  - intros (k & p & r' & Hk & H & E). destruct (course_next _ _ _ _ _ _ _ _ HC Hk H) as (v & Hv). rewrite Z.add_0_l in Hv. congruence.
Qed.
(** Other places are untouched. *)
Lemma course_other g i ps b r q : course g i ps b r -> ~ In q ps -> znth r q = znth b q.
Proof. induction 1 as [i b|i p ps b w b' r E1 E2 E3 E4 HC IH]; intros HN; [reflexivity|]. cbn [In] in HN. rewrite IH by tauto. apply E4. intros ->. tauto. Qed.

(** The loop. *)
Lemma loop_goes g ps l (body : Z -> list V -> mut (list V)) : Forall (fun p => 0 <= p < zlen l) ps ->
  (forall i p b, znth ps i = Some p -> zlen b = zlen l -> body i b = commit b (v <- g b i p ;; oset b p v)) -> goes g ps l (mfor 0 (zlen ps) body l).
Proof.
  intros HF HB.
  pose proof (mfor_inv (fun i b => course g 0 (firstn (Z.to_nat i) ps) l b) (fun f b => goes g ps l (MFail f b)) (goes g ps l MUB) body 0 (zlen ps) l (zlen_nonneg ps)) as K.
  match type of K with ?P -> ?Q -> ?C => assert C as KC; [apply K|] end.
  - intros i b Hi HC. destruct (znth_some ps i ltac:(lia)) as (p & Hp). pose proof (course_len _ _ _ _ _ HC) as HL. rewrite (HB i p b Hp HL).
    destruct (g b i p) as [v|f|] eqn:EV; cbn [bind commit goes]; eauto 8.
    assert (0 <= p < zlen b) as Hb. { rewrite Forall_forall in HF. rewrite HL. apply HF. eapply znth_in. exact Hp. }
    rewrite oset_ok by assumption. cbn [commit]. rewrite (firstn_snoc _ _ _ Hp). apply course_snoc; [exact HC| |exact Hb].
    replace (0 + zlen (firstn (Z.to_nat i) ps)) with i; [exact EV|]. unfold zlen in *. rewrite firstn_length. lia.
  - constructor.
  - destruct (mfor 0 (zlen ps) body l); [|exact KC|exact KC]. cbn [goes]. rewrite firstn_all2 in KC by (unfold zlen; lia). exact KC.
Qed.

(** Values that depend on nothing written before are those of the start. *)
Lemma ahead_course N ps g l vs : ahead N ps g -> NoDup ps -> zlen l = N -> Forall (fun p => 0 <= p < N) ps -> zlen vs = zlen ps ->
  (forall i p v, znth ps i = Some p -> znth vs i = Some v -> g l i p = Ok v) ->
  exists r, course g 0 ps l r /\ zlen r = N /\ (forall i p, znth ps i = Some p -> znth r p = znth vs i) /\ (forall q, ~ In q ps -> znth r q = znth l q).
Proof.
  intros HA HD HN HF HL HV.
  enough (forall k, 0 <= k <= zlen ps -> exists r, course g 0 (firstn (Z.to_nat k) ps) l r /\ (forall i p, i < k -> znth ps i = Some p -> znth r p = znth vs i)) as G.
  { destruct (G (zlen ps)) as (r & HC & HR); [pose proof (zlen_nonneg ps); lia|]. rewrite firstn_all2 in HC by (unfold zlen; lia). exists r. split; [exact HC|]. split; [rewrite (course_len _ _ _ _ _ HC); exact HN|]. split.
    - intros i p Hp. apply HR; [|exact Hp]. pose proof (znth_lt _ _ _ Hp). lia.
    - intros q Hq. eapply course_other; eassumption. }
  intros k [Hk0 Hk]. revert Hk. revert k Hk0. apply (natlike_ind (fun k => k <= zlen ps -> exists r, course g 0 (firstn (Z.to_nat k) ps) l r /\ (forall i p, i < k -> znth ps i = Some p -> znth r p = znth vs i))).
  - intros _. exists l. split; [constructor|]. intros i p Hi Hp. pose proof (znth_lt _ _ _ Hp). lia.
  - intros k Hk0 IH Hk. destruct IH as (r & HC & HR); [lia|]. destruct (znth_some ps k ltac:(lia)) as (p & Hp). destruct (znth_some vs k ltac:(lia)) as (v & Hv). pose proof (course_len _ _ _ _ _ HC) as HLr.
    assert (0 <= p < zlen r) as Hb. { rewrite Forall_forall in HF. rewrite HLr, HN. apply HF. eapply znth_in. exact Hp. }
    exists (zupd r p v). unfold Z.succ. split.
    + rewrite (firstn_snoc _ _ _ Hp). apply course_snoc; [exact HC| |exact Hb]. replace (0 + zlen (firstn (Z.to_nat k) ps)) with k by (unfold zlen in *; rewrite firstn_length; lia).
      rewrite <- (HV k p v Hp Hv). apply (HA r l k p); try assumption; [congruence|]. intros q Hq. eapply course_other; eassumption.
    + intros i q Hi Hq. pose proof (znth_lt _ _ _ Hq). destruct (Z.eq_dec i k) as [->|].
      * assert (q = p) as -> by congruence. rewrite same by assumption. now rewrite Hv.
      * rewrite other; [apply HR; [lia|assumption]|assumption|]. intros ->. apply n. assert (Z.to_nat i = Z.to_nat k); [|lia].
        pose proof (znth_lt _ _ _ Hp). rewrite NoDup_nth_error in HD. apply HD; [unfold zlen in *; lia|]. unfold znth in Hq, Hp. replace (i <? 0) with false in Hq by lia. replace (k <? 0) with false in Hp by lia. congruence.
Qed.
End C.

Section A.
Context {V : Type} (c : cfg) (N : Z).
Implicit Types (b l r : list V) (o : obj) (ps : list Z).

Theorem part_assign_thm o ps (e : list V -> ex1 V) l : at_places c N o ps -> zlen l = N -> written1 V V e -> fits1 (e l) -> agree1 (e l) -> zlen (den1 (e l)) = zlen ps ->
  goes (value_of e) ps l (part_assign c o e l).
Proof.
  intros (ES & _ & HF & HP) HN HW HFi HA HL. unfold part_assign. destruct (proj1 (tree1 c V (e l) HFi) HA) as (A & EA & EZ & _). rewrite EA. unfold v_assign. rewrite ES, EZ, HL, Z.eqb_refl, check_debug_true. cbn [guarded]. unfold store_loop.
  apply loop_goes; [now rewrite HN|]. intros i p b Hp HB. pose proof (znth_lt _ _ _ Hp). rewrite (reread_ok c e l b i HW HFi HA HB) by lia. unfold value_of. destruct (elt (den1 (e b)) i); cbn [bind]; try reflexivity. now rewrite (HP i p Hp).
Qed.
Theorem part_update_thm f o ps (e : list V -> ex1 V) l : at_places c N o ps -> zlen l = N -> written1 V V e -> fits1 (e l) -> agree1 (e l) -> zlen (den1 (e l)) = zlen ps ->
  goes (joined f (value_of e)) ps l (part_update c f o e l).
Proof.
  intros (ES & _ & HF & HP) HN HW HFi HA HL. unfold part_update. destruct (proj1 (tree1 c V (e l) HFi) HA) as (A & EA & EZ & _). rewrite EA. unfold v_op_array. rewrite ES, EZ, HL, Z.eqb_refl, check_debug_true. cbn [guarded]. unfold update_loop.
  apply loop_goes; [now rewrite HN|]. intros i p b Hp HB. pose proof (znth_lt _ _ _ Hp). rewrite (HP i p Hp). cbn [bind]. unfold joined, value_of.
  assert (0 <= p < zlen b) as Hb. { rewrite Forall_forall in HF. rewrite HB, HN. apply HF. eapply znth_in. exact Hp. }
  destruct (znth_some b p Hb) as (v & Hv). rewrite (oget_ok b p v Hv), Hv. cbn [bind]. rewrite (reread_ok c e l b i HW HFi HA HB) by lia. reflexivity.
Qed.
Theorem part_bad o ps (e : list V -> ex1 V) l : at_places c N o ps -> fits1 (e l) -> checked c = true -> ~ agree1 (e l) \/ agree1 (e l) /\ zlen (den1 (e l)) <> zlen ps ->
  part_assign c o e l = MFail (report c) l /\ forall f, part_update c f o e l = MFail (report c) l.
Proof.
  intros HO HF HC H. unfold part_assign, part_update. destruct (tree1 c V (e l) HF) as (T1 & T2). destruct H as [H|(HA & HL)].
  - rewrite (T2 H HC). auto.
  - destruct (T1 HA) as (A & -> & EZ & _). rewrite EZ. split; [now apply (assign_bad c N o ps)|]. intros f. now apply (op_array_mismatch c N f o ps).
Qed.

Lemma reread_line (e : list V -> ex2 V) l b k : written2 V V e -> fits2 (e l) -> agree2 (e l) -> zlen b = zlen l -> 0 <= k < mr (den2 (e l)) * mc (den2 (e l)) -> 0 <= mc (den2 (e l)) ->
  reread_lin c e b k = mlin (den2 (e b)) k.
Proof.
  intros HW HF HA HL Hk Hc. remember (mc (den2 (e l))) as n eqn:En. remember (mr (den2 (e l))) as m eqn:Em. assert (0 < n) by (destruct (Z.eq_dec n 0) as [->|]; [rewrite Z.mul_0_r in Hk|]; lia).
  rewrite (Z_div_mod_eq_full k n). rewrite (Z.mul_comm n). apply (reread2_ok c e l b m n); auto; [|apply Z.mod_pos_bound; assumption].
  split; [apply Z.div_pos; lia|apply Z.div_lt_upper_bound; nia].
Qed.
Theorem part_assign2_thm o ps (e : list V -> ex2 V) l : is_view c N o -> is_two o = true -> at_places c N o ps -> zlen l = N -> written2 V V e -> fits2 (e l) -> agree2 (e l) ->
  mr (den2 (e l)) = o_rows o -> mc (den2 (e l)) = o_cols o -> goes (value_of2 e) ps l (part_assign2 c o e l).
Proof.
  intros HV HT (ES & _ & HF & HP) HN HW HFi HA Hm Hn. destruct (view_dims _ _ o HV HT) as (R1 & R2 & _ & ES' & _). rewrite ES in ES'. injection ES' as EL.
  unfold part_assign2. destruct (proj1 (tree2 c V (e l) HFi) HA) as (A & EA & E1 & E2 & _). rewrite EA. unfold v_assign2. rewrite E1, E2, Hm, Hn. unfold same_size2. rewrite !Z.eqb_refl. cbn [andb]. rewrite check_debug_true. cbn [guarded]. unfold store_loop2.
  rewrite <- (compound2_loop (fun b => zlen b = zlen l) (o_rows o) (o_cols o) (fun k b => commit b (y <- mlin (den2 (e b)) k ;; p <- o_lin c o k ;; oset b p y))); [|lia|lia| |reflexivity].
  - rewrite <- EL. apply loop_goes; [now rewrite HN|]. intros i p b Hp HB. unfold value_of2. destruct (mlin (den2 (e b)) i); cbn [bind]; try reflexivity. now rewrite (HP i p Hp).
  - intros i j b Hi Hj Hb. destruct (reread2_ok c e l b (o_rows o) (o_cols o) i j HW HFi HA Hm Hn Hb Hi Hj) as (-> & _). destruct (linear_view_thm c N o i j HV HT Hi Hj) as (p & Rp & E & E').
    rewrite E, E'. destruct (mlin (den2 (e b)) (i * o_cols o + j)) as [v|f|]; cbn [bind commit]; split; try reflexivity; try discriminate.
    unfold oset. destruct (_ && _); cbn [commit]; [|discriminate]. intros b' [= <-]. now rewrite zlen_zupd.
Qed.
Theorem part_update2_thm f o ps (e : list V -> ex2 V) l : is_view c N o -> is_two o = true -> at_places c N o ps -> zlen l = N -> written2 V V e -> fits2 (e l) -> agree2 (e l) ->
  mr (den2 (e l)) = o_rows o -> mc (den2 (e l)) = o_cols o -> goes (joined f (value_of2 e)) ps l (part_update2 c f o e l).
Proof.
  intros HV HT (ES & _ & HF & HP) HN HW HFi HA Hm Hn. destruct (view_dims _ _ o HV HT) as (R1 & R2 & _ & ES' & _). rewrite ES in ES'. injection ES' as EL.
  unfold part_update2. destruct (proj1 (tree2 c V (e l) HFi) HA) as (A & EA & E1 & E2 & _). rewrite EA. unfold v_op_array2. rewrite ES, E1, E2, Hm, Hn. unfold same_size2. rewrite !Z.eqb_refl. cbn [andb]. rewrite check_debug_true. cbn [guarded]. unfold update_loop.
  apply loop_goes; [now rewrite HN|]. intros i p b Hp HB. pose proof (znth_lt _ _ _ Hp). rewrite (HP i p Hp). cbn [bind]. unfold joined, value_of2.
  assert (0 <= p < zlen b) as Hb. { rewrite Forall_forall in HF. rewrite HB, HN. apply HF. eapply znth_in. exact Hp. }
  destruct (znth_some b p Hb) as (v & Hv). rewrite (oget_ok b p v Hv), Hv. cbn [bind]. rewrite (reread_line e l b i HW HFi HA HB) by (rewrite ?Hm, ?Hn; lia). reflexivity.
Qed.
Theorem part_bad2 o ps (e : list V -> ex2 V) l : at_places c N o ps -> fits2 (e l) -> checked c = true -> ~ agree2 (e l) \/ agree2 (e l) /\ (mr (den2 (e l)), mc (den2 (e l))) <> (o_rows o, o_cols o) ->
  part_assign2 c o e l = MFail (report c) l /\ forall f, part_update2 c f o e l = MFail (report c) l.
Proof.
  intros HO HF HC H. unfold part_assign2, part_update2. destruct (tree2 c V (e l) HF) as (T1 & T2). destruct H as [H|(HA & HL)].
  - rewrite (T2 H HC). auto.
  - destruct (T1 HA) as (A & -> & E1 & E2 & _). rewrite E1, E2. split; [now apply (assign2_bad c o)|]. intros f. now apply (op_array2_mismatch c N f o ps).
Qed.
End A.

(** A.row(i) op= s * A.row(k). *)
Section R.
Context {V : Type} (c : cfg).
Definition multiple (h : V -> V -> outcome V) (s : V) (m n k : Z) (b : list V) : ex1 V := XScalL V V V h s (XView2 V (itself2 m n b) (VwRow (Plain k))).
Lemma multiple_written h s m n k : written1 V V (multiple h s m n k).
Proof. apply (W_scall V V V h s (fun b => XView2 V (itself2 m n b) (VwRow (Plain k)))), (W_view2 V (itself2 m n) (VwRow (Plain k))), W_self2. Qed.
Lemma multiple_ok h s m n k b : zlen b = m * n -> m <= LONG_MAX -> n <= LONG_MAX -> m * n <= LONG_MAX -> 0 <= k < m -> 0 < n ->
  fits1 (multiple h s m n k b) /\ agree1 (multiple h s m n k b) /\ zlen (den1 (multiple h s m n k b)) = n /\
  forall j, 0 <= j < n -> elt (den1 (multiple h s m n k b)) j = (x <- oget b (k * n + j) ;; h s x).
Proof.
  intros HL Lm Ln HM Hk Hn. destruct (ExprThms.whole2_shape (mkcfg true true true 1) m n) as (P & EP & P1 & P2 & PW & PG); [lia|lia|lia|exact HM|].
  pose proof (itself2_fits m n b ltac:(lia) ltac:(lia) HL HM) as HF.
  destruct (znth_some P k ltac:(lia)) as (row & Hrow).
  assert (zlen row = n) as Lrow. { destruct PW as (PR & _). unfold MatrixSpec.rect in PR. rewrite Forall_forall in PR. rewrite <- P2. apply PR. now apply znth_in in Hrow. }
  assert (forall j, 0 <= j < n -> znth row j = Some (k * n + j)) as Grow. { intros j Hj. pose proof (PG k j Hk Hj) as G. unfold mget in G. now rewrite Hrow in G. }
  assert (den1 (XView2 V (itself2 m n b) (VwRow (Plain k))) = map (mlin (den2 (itself2 m n b))) row) as D2.
  { cbn [den1]. change (mr (den2 (itself2 m n b))) with m. change (mc (den2 (itself2 m n b))) with n. rewrite EP. cbn [den_apply denotes]. rewrite Hrow. reflexivity. }
  assert (plump (den2 (itself2 m n b))) as HP by (unfold plump; change (mr (den2 (itself2 m n b))) with m; change (mc (den2 (itself2 m n b))) with n; lia).
  split; [|split; [|split]].
  - unfold multiple. cbn [fits1]. change (mr (den2 (itself2 m n b))) with m; change (mc (den2 (itself2 m n b))) with n; rewrite EP. split; [exact HF|]. split; [exact HP|]. split; [reflexivity|]. split; [reflexivity|].
    cbn [vop_fits idx_fits]; unfold is_long, LONG_MIN; lia.
  - unfold multiple. cbn [agree1]. change (mr (den2 (itself2 m n b))) with m; change (mc (den2 (itself2 m n b))) with n; rewrite EP. cbn [vop_ok denotes]. unfold itself2. cbn [agree2]. repeat split; lia.
  - unfold multiple. change (zlen (map (fun y => y' <- y ;; h s y') (den1 (XView2 V (itself2 m n b) (VwRow (Plain k))))) = n). rewrite zlen_map, D2, zlen_map. exact Lrow.
  - intros j Hj. unfold multiple. change (elt (map (fun y => y' <- y ;; h s y') (den1 (XView2 V (itself2 m n b) (VwRow (Plain k))))) j = (x <- oget b (k * n + j) ;; h s x)).
    rewrite D2. unfold elt. rewrite !znth_map, (Grow j Hj). cbn [option_map]. now rewrite (proj1 (cell m n b k j HM Hk Hj)).
Qed.
Lemma row_places m n i : m <= LONG_MAX -> n <= LONG_MAX -> m * n <= LONG_MAX -> 0 <= i < m -> 0 < n ->
  exists o row, o_apply c (O2 m n (m * n)) (VwRow (Plain i)) = Ok o /\ at_places c (m * n) o row /\ zlen row = n /\ forall j, 0 <= j < n -> znth row j = Some (i * n + j).
Proof.
  intros Lm Ln HM Hi Hn. destruct (ExprThms.whole2_shape (mkcfg true true true 1) m n) as (P & EP & P1 & P2 & PW & PG); [lia|lia|lia|exact HM|].
  destruct (znth_some P i ltac:(lia)) as (row & Hrow).
  assert (zlen row = n) as Lrow. { destruct PW as (PR & _). unfold MatrixSpec.rect in PR. rewrite Forall_forall in PR. rewrite <- P2. apply PR. now apply znth_in in Hrow. }
  assert (forall j, 0 <= j < n -> znth row j = Some (i * n + j)) as Grow. { intros j Hj. pose proof (PG i j Hi Hj) as G. unfold mget in G. now rewrite Hrow in G. }
  destruct (View2DOps.apply_ok c (F:=Ok) (O2 m n (m * n)) (whole2 m n) (VwRow (Plain i)) (View2DOps.whole2_den c m n ltac:(lia) ltac:(lia) ltac:(lia) HM)) as (o & d & E1 & E2 & HD);
    rewrite EP in *; [reflexivity|cbn [vop_fits idx_fits]; unfold is_long, LONG_MIN; lia|cbn [vop_ok denotes]; lia|].
  cbn [den_apply denotes] in E1. rewrite Hrow in E1. injection E1 as <-. exists o, row. split; [exact E2|]. destruct HD as (_ & B1 & B2 & B3). split; [|split; [exact Lrow|exact Grow]].
  split; [exact B2|]. split; [exact B1|]. split; [|exact B3]. apply Forall_forall. intros p Hp. destruct (in_znth _ _ Hp) as (j & Hj). pose proof (znth_lt _ _ _ Hj). rewrite Lrow in *. rewrite Grow in Hj by lia. injection Hj as <-.
  assert (0 <= i * n) by nia. nia.
Qed.
Lemma run_nodup (row : list Z) n a : zlen row = n -> (forall j, 0 <= j < n -> znth row j = Some (a + j)) -> NoDup row.
Proof.
  intros HL H. apply NoDup_nth_error. intros x y Hx E. unfold zlen in HL.
  assert (forall z : nat, (z < length row)%nat -> nth_error row z = Some (a + Z.of_nat z)) as G.
  { intros z Hz. pose proof (H (Z.of_nat z) ltac:(lia)) as K. unfold znth in K. replace (Z.of_nat z <? 0) with false in K by lia. now rewrite Nat2Z.id in K. }
  assert (y < length row)%nat as Hy. { apply nth_error_Some. rewrite <- E, G by assumption. discriminate. }
  rewrite !G in E by assumption. injection E. lia.
Qed.
Lemma in_run (row : list Z) n a j q : zlen row = n -> (forall j, 0 <= j < n -> znth row j = Some (a + j)) -> 0 <= j < n -> In q (firstn (Z.to_nat j) row) -> a <= q < a + j.
Proof.
  intros HL H Hj Hq. destruct (in_znth _ _ Hq) as (t & Ht). pose proof (znth_lt _ _ _ Ht) as Hb. assert (zlen (firstn (Z.to_nat j) row) = j) as E by (unfold zlen in *; rewrite firstn_length; lia).
  rewrite E in Hb. rewrite znth_firstn in Ht by lia. replace (t <? j) with true in Ht by lia. rewrite H in Ht by lia. injection Ht as <-. lia.
Qed.
Theorem row_operation f h (F H : V -> V -> V) s l m n i k : (forall u v, f u v = Ok (F u v)) -> (forall u v, h u v = Ok (H u v)) ->
  zlen l = m * n -> m <= LONG_MAX -> n <= LONG_MAX -> m * n <= LONG_MAX -> 0 <= i < m -> 0 <= k < m -> 0 < n ->
  exists o r, o_apply c (O2 m n (m * n)) (VwRow (Plain i)) = Ok o /\ part_update c f o (multiple h s m n k) l = MOk r /\ zlen r = m * n /\
    (forall j u w, 0 <= j < n -> znth l (i * n + j) = Some u -> znth l (k * n + j) = Some w -> znth r (i * n + j) = Some (F u (H s w))) /\
    (forall t j, 0 <= t < m -> 0 <= j < n -> t <> i -> znth r (t * n + j) = znth l (t * n + j)).
Proof.
  intros Hf Hh HL Lm Ln HM Hi Hk Hn. destruct (row_places m n i Lm Ln HM Hi Hn) as (o & row & EO & HO & LR & GR). exists o.
  destruct (multiple_ok h s m n k l HL Lm Ln HM Hk Hn) as (MF & MA & ML & _).
  pose proof (part_update_thm c (m * n) f o row (multiple h s m n k) l HO HL (multiple_written h s m n k) MF MA ltac:(lia)) as G.
  assert (forall b j, zlen b = m * n -> 0 <= j < n -> joined f (value_of (multiple h s m n k)) b j (i * n + j) =
    match znth b (i * n + j), znth b (k * n + j) with Some u, Some w => Ok (F u (H s w)) | _, _ => UB end) as HJ.
  { intros b j Hb Hj. unfold joined, value_of. destruct (multiple_ok h s m n k b Hb Lm Ln HM Hk Hn) as (_ & _ & _ & ->); [|exact Hj].
    assert (0 <= i * n) by nia. assert (0 <= k * n) by nia. assert (i * n + j < m * n) by nia. assert (k * n + j < m * n) by nia.
    destruct (znth_some b (i * n + j) ltac:(lia)) as (u & ->), (znth_some b (k * n + j) ltac:(lia)) as (w & Hw). rewrite (oget_ok _ _ _ Hw), Hw. cbn [bind]. rewrite Hh. cbn [bind]. apply Hf. }
  set (vs := map (fun j => match znth l (i * n + j), znth l (k * n + j) with Some u, Some w => F u (H s w) | _, _ => s end) (zseq 0 (Z.to_nat n))).
  assert (forall j, 0 <= j < n -> exists u w, znth l (i * n + j) = Some u /\ znth l (k * n + j) = Some w /\ znth vs j = Some (F u (H s w))) as HV.
  { intros j Hj. assert (0 <= i * n) by nia. assert (0 <= k * n) by nia. assert (i * n + j < m * n) by nia. assert (k * n + j < m * n) by nia.
    destruct (znth_some l (i * n + j) ltac:(lia)) as (u & Hu), (znth_some l (k * n + j) ltac:(lia)) as (w & Hw). exists u, w. split; [exact Hu|]. split; [exact Hw|]. unfold vs. rewrite znth_map_zseq by lia. rewrite Z.add_0_l, Hu, Hw. reflexivity. }
  destruct (ahead_course (m * n) row (joined f (value_of (multiple h s m n k))) l vs) as (r & HC & Lr & R1 & R2).
  - intros b b' j p Hb Hb' Hp HQ. pose proof (znth_lt _ _ _ Hp) as Hj. rewrite LR in Hj. rewrite GR in Hp by assumption. injection Hp as <-. rewrite !HJ by assumption.
    rewrite (HQ (i * n + j)), (HQ (k * n + j)); [reflexivity| |]; intros HI; pose proof (in_run row n (i * n) j _ LR GR Hj HI) as HB; [|lia].
    assert (k < i) by nia. assert ((k + 1) * n <= i * n) by (apply Z.mul_le_mono_nonneg_r; lia). lia.
  - eapply run_nodup; eassumption.
  - exact HL.
  - apply HO.
  - unfold vs. rewrite zlen_map. unfold zlen. rewrite zseq_length. unfold zlen in LR. lia.
  - intros j p v Hp Hv. pose proof (znth_lt _ _ _ Hp) as Hj. rewrite LR in Hj. rewrite GR in Hp by assumption. injection Hp as <-. rewrite HJ by assumption. destruct (HV j Hj) as (u & w & -> & -> & E). congruence.
  - exists r. split; [exact EO|]. split; [exact (goes_exact _ _ _ _ _ HC G)|]. split; [exact Lr|]. split.
    + intros j u w Hj Hu Hw. rewrite (R1 j _ (GR j Hj)). destruct (HV j Hj) as (u' & w' & E1 & E2 & ->). congruence.
    + intros t j Ht Hj Hne. apply R2. intros HI. destruct (in_znth _ _ HI) as (x & Hx). pose proof (znth_lt _ _ _ Hx) as Hb. rewrite LR in Hb. rewrite GR in Hx by assumption. injection Hx as Hx.
      destruct (Z.lt_total t i) as [Hlt|[Heq|Hgt]]; [assert ((t + 1) * n <= i * n) by (apply Z.mul_le_mono_nonneg_r; lia); lia|contradiction|assert ((i + 1) * n <= t * n) by (apply Z.mul_le_mono_nonneg_r; lia); lia].
Qed.
End R.
