(** From the relations of ConfigProofs.v to statements about configurations, and safety of element access in checking
    builds. *)
From Verif Require Import Base.Outcome Base.ZList Model.IntModel Model.ScalarOps Model.Index Model.Slice Model.Array1D Model.Array2D Model.View2D.
From Verif Require Import Model.Store1D Model.Store2D Model.Iterator Model.Expr Model.Reduce Model.ViewAssign Model.StableOps Model.SemiRandom Model.ArrayIO.
From Verif Require Import Spec.ArraySpec Spec.SliceSpec Spec.Store1DSpec Spec.MatrixSpec Spec.Matrix2Spec Spec.Store2DSpec Spec.View2DSpec Spec.ConfigSpec.
From Verif Require Import Proofs.ScalarProofs Proofs.Array1DProofs Proofs.ViewProofs Proofs.Store1DProofs Proofs.MatrixProofs Proofs.Array2DProofs Proofs.Array2DSim Proofs.Store2DProofs Proofs.Array2DThms.
From Verif Require Import Proofs.View2DProofs Proofs.View2DOps Proofs.View2DThms Proofs.ExprTree Proofs.IteratorProofs Proofs.ConfigProofs.

Lemma free_intro {A} (m : cfg -> outcome A) :
  (forall b c c', amax c' = amax c -> checked c = true -> (b = true -> checked c' = true) -> rel b eq (m c) (m c')) -> config_free m.
Proof.
  intros H c c' Ha Hc. split.
  - intros v E. specialize (H false c c' Ha Hc ltac:(discriminate)). rewrite E in H. destruct (m c'); cbn in H; [congruence|contradiction|contradiction].
  - intros Hc'. specialize (H true c c' Ha Hc ltac:(auto)). destruct (m c), (m c'); cbn in *; auto; discriminate.
Qed.
Lemma free_intro_m {A} (m : cfg -> mut A) :
  (forall b c c', amax c' = amax c -> checked c = true -> (b = true -> checked c' = true) -> relm b eq (m c) (m c')) -> config_free_m m.
Proof.
  intros H c c' Ha Hc. split.
  - intros v E. specialize (H false c c' Ha Hc ltac:(discriminate)). rewrite E in H. destruct (m c'); cbn in H; [congruence|contradiction|contradiction].
  - intros Hc'. specialize (H true c c' Ha Hc ltac:(auto)). destruct (m c), (m c'); cbn in *; auto; discriminate.
Qed.
Lemma free_elim {A} (m : cfg -> outcome A) b c c' : config_free m -> amax c' = amax c -> checked c = true -> (b = true -> checked c' = true) -> rel b eq (m c) (m c').
Proof.
  intros H Ha Hc Hb. destruct (H c c' Ha Hc) as [H1 H2]. destruct b.
  - specialize (H2 (Hb eq_refl)). destruct (m c), (m c'); cbn in *; auto; contradiction.
  - destruct (m c) as [v|f|]; [specialize (H1 v eq_refl); now rewrite H1| |]; destruct (m c'); cbn; auto.
Qed.

(** Whole programs. *)
Lemma run_same {S V O} (step step' : S -> O -> res S V) ops : (forall s o, res_like false (step s o) (step' s o)) ->
  forall s s' ob t, run step s ops = (Next s' ob, t) -> clean t -> run step' s ops = (Next s' ob, t).
Proof.
  intros H. induction ops as [|o ops IH]; intros s s' ob t E HC; [exact E|]. cbn [run] in *. specialize (H s o).
  assert (forall f, ~ In (Failed f) t) as HC' by exact HC. clear HC.
  destruct (step s o) as [s1 ob1|]; [|discriminate].
  assert (match ob1 with Failed _ => True | _ => step' s o = Next s1 ob1 end) as HS.
  { destruct ob1, (step' s o) as [s2 ob2|]; cbn in H; try exact I; try contradiction; try (now symmetry); try congruence. }
  destruct ob1 as [|v|n|f].
  4: { exfalso. apply (HC' f). destruct (fatal f); [|destruct (run step s1 ops)]; injection E as E1 E2; subst t; now left. }
  all: rewrite HS; destruct (run step s1 ops) as [r t1] eqn:E1; injection E as -> <-;
    rewrite (IH s1 _ _ _ E1) by (intros f HI; apply (HC' f); now right); reflexivity.
Qed.

Section Access.
Context (c : cfg) (N : Z).
Hypothesis Hk : checked c = true.
Lemma chain_safe ws o : is_view c N o -> (forall d, o_denotes c o d -> chain_fits d ws) ->
  o_chain c o ws = Fail (report c) \/ exists v, o_chain c o ws = Ok v /\ is_view c N v.
Proof.
  intros HV HC. destruct (view_known c N o HV) as [d KO]. specialize (HC d (proj1 KO)). revert o d HV KO HC.
  induction ws as [|w ws IH]; intros o d HV KO HC; [right; exists o; auto|]. destruct HC as (HT & HF & HC). cbn [o_chain].
  destruct (vop_ok_dec d w HT) as [HO|HO].
  - specialize (HC HO). destruct (known_apply c N o d w KO HT HF HO) as (v & d' & E1 & E2 & KV). rewrite E1 in HC. rewrite E2. cbn [bind].
    apply (IH v d'); auto. eapply known_view; eauto.
  - left. rewrite (apply_bad c o d w (proj1 KO) HT HF Hk HO). reflexivity.
Qed.
Lemma loud_check b' : b' = false -> check_always c b' = Fail (report c).
Proof. intros ->. unfold checked in Hk. unfold check_always, report. destruct (exc c), (ndbg c), (dbg c); auto; discriminate. Qed.
Lemma ref1_safe o ix n : is_view c N o -> o_size o = Ok n -> idx_fits n ix -> safe_ref c N (o_ref1 c o ix) /\ safe_ref c N (o_at1 c o ix).
Proof.
  intros HV HS HF. destruct (view_size c N o HV) as (n' & E' & HN). rewrite HS in E'. injection E' as <-. destruct (view_known c N o HV) as [d KO].
  unfold o_ref1, o_at1. rewrite HS. cbn [bind]. rewrite idx_get_ok by auto. cbn [bind]. set (i := denotes n ix).
  destruct (valid_index n i) eqn:HI.
  - rewrite check_debug_true, check_always_true. cbn [bind]. destruct (lin_known c N o d i n KO HS) as (p & E & R & L); [unfold valid_index in HI; lia|].
    rewrite L. split; right; eauto.
  - rewrite check_debug_false, loud_check by auto. split; left; reflexivity.
Qed.
Lemma ref2_safe o ix jx : is_view c N o -> is_two o = true -> idx_fits (o_rows o) ix -> idx_fits (o_cols o) jx ->
  safe_ref c N (o_ref2 c o ix jx) /\ safe_ref c N (o_at2 c o ix jx).
Proof.
  intros HV HT F1 F2. pose proof (view_dims c N o HV HT) as (B1 & B2 & _). destruct (known2 c N o HV HT) as (P & KO & ER & EC).
  unfold o_ref2, o_at2. rewrite !idx_get_ok by auto. cbn [bind]. set (i := denotes (o_rows o) ix). set (j := denotes (o_cols o) jx).
  destruct (Array2D.valid_index2 (o_rows o) (o_cols o) i j) eqn:HI.
  - rewrite check_debug_true, check_always_true. cbn [bind]. unfold valid_index2, valid_row, valid_col in HI.
    destruct (known_at c N o P i j KO) as (p & E & R & L); [lia|lia|]. rewrite L. split; right; eauto.
  - rewrite check_debug_false, loud_check by auto. split; left; reflexivity.
Qed.
End Access.

(** Programs whose arguments are far from the limits never have undefined behaviour in checking builds. *)
Section Small.
Context {V : Type} (zero : V) (c : cfg).
Hypothesis (Hc : cfg_ok c) (Hm : amax c <= 2 ^ 60) (Hk : checked c = true).
Lemma room_ub {A} n (x : outcome A) : x <> UB -> room c n x <> UB.
Proof. unfold room. destruct (amax c <? n); [discriminate|auto]. Qed.
Lemma guard_ub {A} b (x : outcome A) : (b = true -> x <> UB) -> guard c b x <> UB.
Proof. destruct b; [auto|discriminate]. Qed.
Lemma room2_ub {A} m n (x : outcome A) : is_long (m * n) -> x <> UB -> room2 c m n x <> UB.
Proof. intros H Hx. unfold room2. unfold is_long in H. replace (in_long (m * n)) with true by (unfold in_long; lia). now apply room_ub. Qed.
Lemma spush_crash {X} (w : list X) (m : outcome X) : m <> UB -> spush (V := V) w m <> Crash.
Proof. destruct m; cbn; congruence. Qed.
Lemma sput_crash {X} (w : list X) i (m : outcome X) : m <> UB -> sput (V := V) w i m <> Crash.
Proof. destruct m; cbn; congruence. Qed.
Lemma swith1_crash {X} (P : X -> Prop) (w : list X) i (k : X -> res (list X) V) : Forall P w -> (forall l, P l -> k l <> Crash) -> swith1 w i k <> Crash.
Proof. intros HF H. unfold swith1. destruct (znth w i) eqn:E; [|discriminate]. apply H. apply znth_in in E. rewrite Forall_forall in HF. auto. Qed.
Lemma modest_long x : modest x -> is_long x.
Proof. unfold modest, is_long, LONG_MIN, LONG_MAX. lia. Qed.
Lemma modest_op_long (o : op1 V) : modest_op o -> op_long o.
Proof.
  destruct o; cbn [modest_op op_long]; intros H; try exact I; try (now apply modest_long); try (split; apply modest_long; tauto).
  - destruct s; cbn in *; try exact I; try (now apply modest_long); repeat split; apply modest_long; tauto.
  - destruct ix; now apply modest_long.
  - destruct ix; now apply modest_long.
Qed.
Lemma remove_ub l p k : modest k -> zlen l <= amax c -> spec_remove (V := V) c l p k <> UB.
Proof.
  intros H1 H2. unfold spec_remove. destruct (_ && _ && _) eqn:E.
  - unfold in_range, modest, LONG_MAX in *. exfalso. lia.
  - apply guard_ub. discriminate.
Qed.
Lemma insert_ub l p m : zlen l <= amax c -> zlen m <= amax c \/ zlen m <= 1 -> spec_insert (V := V) c l p m <> UB.
Proof.
  intros H1 H2. unfold spec_insert. apply guard_ub. intros _. unfold LONG_MAX in *. replace (_ <? zlen l + zlen m) with false; [apply room_ub; discriminate|].
  unfold cfg_ok in Hc. lia.
Qed.
Lemma at_ub l ix {A} (k : Z -> outcome A) : modest_idx ix -> zlen l <= amax c -> (forall p, 0 <= p < zlen l -> k p <> UB) -> spec_at (V := V) c l ix k <> UB.
Proof.
  intros H1 H2 H3. unfold spec_at. replace (match ix with Plain _ => false | FromLast d => LONG_MAX <? zlen l - d end) with false.
  - apply guard_ub. intros H. apply H3. unfold in_range in H. lia.
  - destruct ix; [reflexivity|]. cbn in H1. unfold modest, LONG_MAX in *. lia.
Qed.
Lemma slice_ub l s : modest_slice s -> zlen l <= amax c -> spec_slice (V := V) c l s <> UB.
Proof.
  intros H1 H2. unfold spec_slice. replace (slice_fits (zlen l) s) with true.
  - cbn [negb]. apply guard_ub. discriminate.
  - destruct s; cbn [slice_fits modest_slice] in *; try reflexivity; unfold modest, in_long, LONG_MIN, LONG_MAX in *; try lia.
    destruct H1 as (Ha & Hb & Hd). destruct (Z.leb_spec size 0); [lia|].
    assert (- 2 ^ 61 <= stride * (size - 1) <= 2 ^ 61) by nia. lia.
Qed.
Lemma spec1_safe w o : Forall (fun l : list V => zlen l <= amax c) w -> modest_op o -> spec_step1 zero c w o <> Crash.
Proof.
  intros HW HO. destruct o; cbn [spec_step1 modest_op] in *; unfold swith2;
    repeat (apply (swith1_crash _ w _ _ HW); let l := fresh "l" in let H := fresh "H" in intros l H);
    try discriminate; try (apply spush_crash); try (apply sput_crash); try discriminate;
    try (repeat first [apply guard_ub; intros _ | apply room_ub]; discriminate);
    try (apply remove_ub; solve [auto; tauto]); try (apply insert_ub; solve [auto; right; cbn; lia]).
  - pose proof (slice_ub l s HO H). destruct (spec_slice c l s); cbn [bind]; [apply room_ub; discriminate|discriminate|congruence].
  - destruct (_ =? _); [discriminate|]. destruct (_ || _); discriminate.
  - unfold spec_resize. apply guard_ub. intros _. destruct (_ =? _); [discriminate|]. apply room_ub. discriminate.
  - unfold in_long, modest, LONG_MIN, LONG_MAX in *. pose proof (zlen_nonneg l). replace (_ && _) with true by lia. now apply remove_ub.
  - unfold in_long, modest, LONG_MIN, LONG_MAX in *. pose proof (zlen_nonneg l). replace (_ && _) with true by lia. apply remove_ub; [unfold modest; lia|auto].
  - apply at_ub; auto. discriminate.
  - pose proof (at_ub l ix (fun p => oget l p) HO H) as HA. destruct (spec_at _ _ _ _); try discriminate. exfalso. apply HA; auto.
    intros p Hp. unfold oget. destruct (znth_some l p Hp) as [x ->]. discriminate.
Qed.
Lemma run_safe1 ops st w : represents c st w -> Forall modest_op ops -> fst (run (step1 zero c) st ops) <> Crash.
Proof.
  revert st w. induction ops as [|o ops IH]; intros st w HR HO; [discriminate|]. apply Forall_cons_iff in HO as [HO1 HO2]. cbn [run].
  pose proof (step1_refines zero c Hc st w o HR (modest_op_long o HO1) (or_introl Hk)) as Hs.
  assert (spec_step1 zero c w o <> Crash) as HN.
  { apply spec1_safe; [|assumption]. clear -HR. induction HR; constructor; tauto. }
  destruct (spec_step1 zero c w o) as [w' ob|]; [|congruence]. destruct Hs as (st' & -> & HR').
  specialize (IH st' w' HR' HO2). destruct ob; try (destruct (run (step1 zero c) st' ops); exact IH).
  destruct (fatal f); [discriminate|]. destruct (run (step1 zero c) st' ops); exact IH.
Qed.

Definition fit_mat (M : list (list V)) : Prop := wfm M /\ zlen M * ncols M <= amax c.
Lemma modest_idx_arg ix : modest_idx ix -> idx_arg ix.
Proof. destruct ix; apply modest_long. Qed.
Lemma modest_op2_long (o : op2 V) : modest_op2 o -> op2_long o.
Proof.
  destruct o; cbn [modest_op2 op2_long]; intros H; try exact I; try (now apply modest_long); try (split; apply modest_long; tauto);
    try (apply modest_long; tauto); split; apply modest_idx_arg; tauto.
Qed.
Lemma modest_mul m n : modest m -> modest n -> is_long (m * n).
Proof. unfold modest, is_long, LONG_MIN, LONG_MAX. intros. assert (- 2 ^ 61 <= m * n <= 2 ^ 61) by nia. lia. Qed.
Lemma fit_dims M : fit_mat M -> 0 <= zlen M <= amax c /\ 0 <= ncols M <= amax c /\ (zlen M <> 0 -> 0 < ncols M).
Proof.
  intros [HW HA]. pose proof (zlen_nonneg M). pose proof (ncols_nonneg M). destruct (Z.eq_dec (zlen M) 0) as [E|E].
  - assert (M = []) as -> by (now apply zlen_zero). cbn in *. unfold cfg_ok in Hc. lia.
  - assert (0 < ncols M) by (apply HW; intros ->; now apply E).
    split; [nia|]. split; [nia|auto].
Qed.

Lemma remove_rows_ub M p k : modest k -> fit_mat M -> spec_remove_rows c M p k <> UB.
Proof.
  intros H1 H2. apply fit_dims in H2. unfold spec_remove_rows. destruct (_ && _ && _) eqn:E; [|apply guard_ub; discriminate].
  unfold in_range, modest, LONG_MAX in *. lia.
Qed.
Lemma remove_cols_ub M p k : modest k -> fit_mat M -> spec_remove_cols c M p k <> UB.
Proof.
  intros H1 H2. apply fit_dims in H2. unfold spec_remove_cols. destruct (_ && _ && _) eqn:E; [|apply guard_ub; discriminate].
  unfold in_range, modest, LONG_MAX in *. lia.
Qed.
Lemma list2_ub L : modest (zlen L) -> Forall (fun r : list V => modest (zlen r)) L -> spec_list2 c L <> UB.
Proof.
  intros H1 H2. unfold spec_list2. destruct L as [|r L]; [discriminate|]. apply Forall_cons_iff in H2 as [H2 _].
  destruct r; [destruct L; [discriminate|]|]; (apply room2_ub; [now apply modest_mul|]; apply guard_ub; discriminate).
Qed.
Lemma insert_rows_ub M p N : fit_mat M -> fit_mat N -> spec_insert_rows c M p N <> UB.
Proof.
  intros HM HN. pose proof (fit_dims M HM). pose proof (fit_dims N HN). destruct HM as [_ HM], HN as [_ HN]. unfold spec_insert_rows. apply guard_ub. intros _.
  destruct (Z.eqb_spec (zlen M) 0); [|apply guard_ub; intros ?]; (apply room2_ub; [|discriminate]); unfold is_long, LONG_MIN, LONG_MAX.
  - assert (0 <= zlen N * ncols N) by nia. lia.
  - replace (ncols N) with (ncols M) in * by lia. assert (0 <= zlen N * ncols M /\ 0 <= zlen M * ncols M) by nia. lia.
Qed.
Lemma insert_cols_ub M p N : fit_mat M -> fit_mat N -> spec_insert_cols c M p N <> UB.
Proof.
  intros HM HN. pose proof (fit_dims M HM). pose proof (fit_dims N HN). destruct HM as [_ HM], HN as [_ HN]. unfold spec_insert_cols. apply guard_ub. intros _.
  destruct (Z.eqb_spec (zlen M) 0); [|apply guard_ub; intros ?]; (apply room2_ub; [|discriminate]); unfold is_long, LONG_MIN, LONG_MAX.
  - assert (0 <= zlen N * ncols N) by nia. lia.
  - replace (zlen N) with (zlen M) in * by lia. assert (0 <= zlen M * ncols N /\ 0 <= zlen M * ncols M) by nia. lia.
Qed.
Lemma insert_row_ub M p l : fit_mat M -> modest (zlen l) -> spec_insert_row c M p l <> UB.
Proof.
  intros HM HN. pose proof (fit_dims M HM). destruct HM as [_ HM]. unfold spec_insert_row. apply guard_ub. intros _. unfold modest in HN. pose proof (zlen_nonneg l).
  destruct (Z.eqb_spec (zlen M) 0); apply guard_ub; intros ?; (apply room2_ub; [|discriminate]); unfold is_long, LONG_MIN, LONG_MAX; [lia|].
  assert (0 <= zlen M * ncols M) by nia. lia.
Qed.
Lemma insert_col_ub M p l : fit_mat M -> modest (zlen l) -> spec_insert_col c M p l <> UB.
Proof.
  intros HM HN. pose proof (fit_dims M HM). destruct HM as [_ HM]. unfold spec_insert_col. apply guard_ub. intros _. unfold modest in HN. pose proof (zlen_nonneg l).
  destruct (Z.eqb_spec (zlen M) 0); apply guard_ub; intros ?; (apply room2_ub; [|discriminate]); unfold is_long, LONG_MIN, LONG_MAX; [lia|].
  assert (0 <= zlen M * ncols M) by nia. lia.
Qed.
Lemma at2_ub M ix jx {A} (k : Z -> Z -> outcome A) : modest_idx ix -> modest_idx jx -> fit_mat M ->
  (forall i j, 0 <= i < zlen M -> 0 <= j < ncols M -> k i j <> UB) -> spec_at2 c M ix jx k <> UB.
Proof.
  intros H1 H2 HM HK. pose proof (fit_dims M HM). unfold spec_at2.
  replace (last_fits (zlen M) ix) with true by (destruct ix; cbn in *; [reflexivity|]; unfold modest, LONG_MAX in *; lia).
  replace (last_fits (ncols M) jx) with true by (destruct jx; cbn in *; [reflexivity|]; unfold modest, LONG_MAX in *; lia).
  cbn [andb negb]. apply guard_ub. intros HI. unfold in_range in HI. apply HK; lia.
Qed.
Lemma spec2_safe w o : Forall fit_mat w -> modest_op2 o -> spec_step2 zero c w o <> Crash.
Proof.
  assert (modest 1 /\ modest 0) as [M1 M0] by (unfold modest; lia).
  intros HW HO. destruct o; cbn [spec_step2 modest_op2] in *; unfold swith2;
    repeat (apply (swith1_crash _ w _ _ HW); let l := fresh "M" in let H := fresh "HM" in intros l H);
    try discriminate; try (apply spush_crash); try (apply sput_crash); try discriminate;
    try (repeat first [apply guard_ub; intros _ | apply room_ub]; discriminate);
    try (apply remove_rows_ub; solve [auto; tauto]); try (apply remove_cols_ub; solve [auto; tauto]);
    try (apply insert_rows_ub; assumption); try (apply insert_cols_ub; assumption);
    try (apply insert_row_ub; tauto); try (apply insert_col_ub; tauto).
  1,2: unfold spec_new2; destruct HO as [Hm' Hn']; pose proof (modest_mul _ _ Hm' Hn') as HL; unfold is_long in HL;
    replace (in_long (m * n)) with true by (unfold in_long; lia); cbn [negb]; apply guard_ub; intros _; apply room_ub; apply guard_ub; discriminate.
  - apply list2_ub; tauto.
  - pose proof (list2_ub L (proj1 HO) (proj2 HO)). destruct (spec_list2 c L); cbn [bind]; [apply guard_ub; discriminate|discriminate|congruence].
  - destruct (_ =? _); [discriminate|]. destruct (same_shape _ _); discriminate.
  - unfold spec_resize2. apply guard_ub. intros _. destruct (_ && _); [discriminate|]. destruct HO as [Hm' Hn'].
    destruct preserve; [apply room2_ub; [now apply modest_mul|discriminate]|]. destruct (_ =? _); [discriminate|]. apply room2_ub; [now apply modest_mul|discriminate].
  - pose proof (fit_dims M HM). unfold in_long, modest, LONG_MIN, LONG_MAX in *. replace (_ && _) with true by lia. now apply remove_rows_ub.
  - pose proof (fit_dims M HM). unfold in_long, modest, LONG_MIN, LONG_MAX in *. replace (_ && _) with true by lia. now apply remove_cols_ub.
  - apply at2_ub; try tauto. discriminate.
  - pose proof (at2_ub M ix jx (fun p q => match mget M p q with Some v => Ok v | None => UB end) (proj1 HO) (proj2 HO) HM) as HA.
    destruct (spec_at2 _ _ _ _ _); try discriminate. exfalso. apply HA; auto.
    intros p q Hp Hq. destruct (mget_some (ncols M) M p q) as [x ->]; auto; [apply HM|discriminate].
Qed.
Lemma run_safe2 ops st w : full c = true -> represents2 c st w -> Forall modest_op2 ops -> fst (run (step2 zero c) st ops) <> Crash.
Proof.
  intros HF. assert (dbg c = true /\ ndbg c = false) as [Hd Hn] by (unfold full in HF; destruct (dbg c), (ndbg c); auto; discriminate).
  revert st w. induction ops as [|o ops IH]; intros st w HR HO; [discriminate|]. apply Forall_cons_iff in HO as [HO1 HO2]. cbn [run].
  assert (odd_move c w o = false) as HM.
  { destruct o; try reflexivity. cbn [odd_move modest_op2] in *. destruct (znth w i), (znth w j); auto. replace (i =? j) with false by lia. rewrite Hd, Hn. now destruct (same_shape _ _). }
  pose proof (step2_refines zero c Hc st w o HR (modest_op2_long o HO1) HM (or_introl Hk)) as Hs.
  assert (spec_step2 zero c w o <> Crash) as HN.
  { apply spec2_safe; [|assumption]. clear -HR. induction HR as [|a M st w H1 H2 IH]; constructor; auto. split; [apply H1|tauto]. }
  destruct (spec_step2 zero c w o) as [w' ob|]; [|congruence]. destruct Hs as (st' & -> & HR').
  specialize (IH st' w' HR' HO2). destruct ob; try (destruct (run (step2 zero c) st' ops); exact IH).
  destruct (fatal f); [discriminate|]. destruct (run (step2 zero c) st' ops); exact IH.
Qed.
End Small.

(** Statements for Properties/P13_Config.v. *)
Ltac free := repeat match goal with |- _ /\ _ => split end; first [apply free_intro | apply free_intro_m]; intros b c c' Ha Hc Hb.
Lemma scalars_free t o x y : config_free (fun c => iop_fun c t o x y).
Proof. free. now apply rel_iop. Qed.
Lemma math_free t x p n k lo hi : config_free (fun c => pows c t x p) /\ config_free (fun c => factorial c n) /\ config_free (fun c => binom_coeff c n k) /\
  config_free (fun c => clamps c x lo hi) /\ config_free (fun c => in_open c x lo hi) /\ config_free (fun c => in_closed c x lo hi).
Proof.
  free; [now apply rel_pows|now apply rel_factorial|now apply rel_binom|now apply rel_clamps|now apply rel_in_open|now apply rel_in_closed].
Qed.
Lemma slices_free {V} v ss (l : list V) ix x : config_free (fun c => view_slices c v ss) /\
  config_free (fun c => w <- view_slices c v ss ;; view_sub c w l ix) /\ config_free (fun c => w <- view_slices c v ss ;; view_write c w l ix x).
Proof.
  free; [now apply rel_view_slices| |]; (eapply rel_bind_eq; [now apply rel_view_slices|intros w]); [now apply rel_view_sub|now apply rel_view_write].
Qed.
Lemma views_free o ws ix jx : config_free (fun c => o_chain c o ws) /\
  config_free (fun c => v <- o_chain c o ws ;; o_ref1 c v ix) /\ config_free (fun c => v <- o_chain c o ws ;; o_at1 c v ix) /\
  config_free (fun c => v <- o_chain c o ws ;; o_ref2 c v ix jx) /\ config_free (fun c => v <- o_chain c o ws ;; o_at2 c v ix jx).
Proof.
  free; [now apply rel_o_chain| | | |]; (eapply rel_bind_eq; [now apply rel_o_chain|intros v]);
    unfold o_ref1, o_at1, o_ref2, o_at2; cf; first [now apply rel_check_debug; cf|now apply rel_check_always|now apply rel_o_lin|now apply rel_o_at].
Qed.
(** An environment whose objects do not depend on the configuration. *)
Lemma flag_like_refl {R} b (F : flag R) : flag_like b F F.
Proof. split; intros; apply rel_refl. Qed.
Lemma iterators_free {R} (E : env R) p e q e' k j : config_free (fun c => it_eval c E p e) /\
  config_free (fun c => i <- it_eval c E p e ;; it_deref c E i) /\ config_free (fun c => i <- it_eval c E p e ;; it_sub c E i j) /\
  config_free (fun c => i <- it_eval c E p e ;; i' <- it_eval c E q e' ;; it_diff c i i') /\
  config_free (fun c => i <- it_eval c E p e ;; i' <- it_eval c E q e' ;; it_cmp c k i i').
Proof.
  free; repeat (eapply rel_bind_eq; [apply rel_it_eval; auto using flag_like_refl|intros ?]);
  [apply rel_it_eval|apply rel_it_deref|apply rel_it_sub|apply rel_it_diff|apply rel_it_cmp]; auto using flag_like_refl.
Qed.
Lemma loops_free {R V} (E : env R) p e q e' fuel (h : Z -> list V) it v m n :
  config_free (fun c => i <- it_eval c E p e ;; i' <- it_eval c E q e' ;; it_walk fuel c E i i') /\
  config_free (fun c => i <- it_eval c E p e ;; i' <- it_eval c E q e' ;; r_walk fuel c E i i') /\
  config_free (fun c => it_write c h it v) /\ config_free (fun c => range_walk fuel c m n).
Proof.
  free; repeat (eapply rel_bind_eq; [apply rel_it_eval; auto using flag_like_refl|intros ?]);
  [apply rel_it_walk|apply rel_r_walk|apply rel_it_write|apply rel_range_walk]; auto using flag_like_refl.
Qed.
Lemma lines_free o e p fuel :
  config_free (fun c => i <- it_eval c (fun _ => flag_elems c o) p e ;; it_deref c (fun _ => flag_elems c o) i) /\
  config_free (fun c => i <- it_eval c (fun _ => flag_rows c o) p e ;; it_deref c (fun _ => flag_rows c o) i) /\
  config_free (fun c => i <- it_eval c (fun _ => flag_cols c o) p e ;; it_deref c (fun _ => flag_cols c o) i) /\
  config_free (fun c => e <- it_end (fun _ => flag_elems c o) p ;; it_walk fuel c (fun _ => flag_elems c o) (it_begin p) e).
Proof.
  free; eapply rel_bind_eq; try (apply rel_it_eval; auto; intros; first [now apply flag_like_elems|now apply flag_like_rows|now apply flag_like_cols]);
    try (apply rel_it_end; auto; intros; now apply flag_like_elems); intros i;
    first [apply rel_it_deref|apply rel_it_walk]; auto; intros; first [now apply flag_like_elems|now apply flag_like_rows|now apply flag_like_cols].
Qed.

Section Ex.
Context {V : Type} (e : cfg -> ex1 V) (e2 : cfg -> ex2 V) (He : same_tree1 e) (He2 : same_tree2 e2).
Ltac built1 := eapply rel_bind; [apply rel_build; [assumption..|now apply He]|intros A A' HA].
Ltac built2 := eapply rel_bind; [apply rel_build; [assumption..|now apply He2]|intros A A' HA].
Lemma expr_free z ix jx :
  config_free (fun c => A <- build1 c (e c) ;; x_eval1 c z A) /\ config_free (fun c => A <- build1 c (e c) ;; sub1 c A ix) /\
  config_free (fun c => A <- build1 c (e c) ;; at1 c A ix) /\
  config_free (fun c => A <- build2 c (e2 c) ;; x_eval2 c z A) /\ config_free (fun c => A <- build2 c (e2 c) ;; sub2 c A ix jx).
Proof.
  free; [built1|built1|built1|built2|built2];
    [now apply rel_x_eval1|now apply rel_sub1_like|now apply rel_at1_like|now apply rel_x_eval2|now apply rel_sub2_like].
Qed.
Lemma assign_free (f : cfg -> V -> V -> outcome V) o l x : same_fun2 f ->
  config_free_m (fun c => match build1 c (e c) with Ok A => v_assign c o (ssize A) (fun _ => sun A) l | Fail q => MFail q l | UB => MUB end) /\
  config_free_m (fun c => match build1 c (e c) with Ok A => v_op_array c (f c) o (ssize A) (fun _ => sun A) l | Fail q => MFail q l | UB => MUB end) /\
  config_free_m (fun c => match build2 c (e2 c) with Ok A => v_assign2 c o (s2rows A) (s2cols A) (fun _ => s2un A) l | Fail q => MFail q l | UB => MUB end) /\
  config_free_m (fun c => v_op_scalar c (f c) o x l) /\ config_free_m (fun c => v_fill c o x l).
Proof.
  intros Hf. free; [| | |apply relm_v_op_scalar; auto; intros ? ?; now apply (free_elim (fun c => f c _ _))|now apply relm_v_fill].
  - pose proof (proj1 (rel_build b c c' Hc Hb) V (e c) (e c') (He b c c' Ha Hc Hb)) as HB.
    destruct (build1 c (e c)) as [A|q|], (build1 c' (e c')) as [A'|q'|]; cbn in HB |- *; try contradiction; auto.
    + rewrite <- (proj1 HB). apply relm_v_assign; auto. intros _. exact (proj2 HB).
    + rewrite HB in *. match goal with |- match ?m with _ => _ end => destruct m end; auto.
    + destruct b; auto.
    + rewrite HB in *. match goal with |- match ?m with _ => _ end => destruct m end; auto.
  - pose proof (proj1 (rel_build b c c' Hc Hb) V (e c) (e c') (He b c c' Ha Hc Hb)) as HB.
    destruct (build1 c (e c)) as [A|q|], (build1 c' (e c')) as [A'|q'|]; cbn in HB |- *; try contradiction; auto.
    + rewrite <- (proj1 HB). apply relm_v_op_array; auto; [|intros _; exact (proj2 HB)]. intros ? ?; now apply (free_elim (fun c => f c _ _)).
    + rewrite HB in *. match goal with |- match ?m with _ => _ end => destruct m end; auto.
    + destruct b; auto.
    + rewrite HB in *. match goal with |- match ?m with _ => _ end => destruct m end; auto.
  - pose proof (proj2 (rel_build b c c' Hc Hb) V (e2 c) (e2 c') (He2 b c c' Ha Hc Hb)) as HB.
    destruct (build2 c (e2 c)) as [A|q|], (build2 c' (e2 c')) as [A'|q'|]; cbn in HB |- *; try contradiction; auto.
    + destruct HB as (H1 & H2 & H3 & H4 & H5). rewrite <- H1, <- H2. apply relm_v_assign2; auto.
    + rewrite HB in *. match goal with |- match ?m with _ => _ end => destruct m end; auto.
    + destruct b; auto.
    + rewrite HB in *. match goal with |- match ?m with _ => _ end => destruct m end; auto.
Qed.
Lemma reduce_free (add mul : cfg -> V -> V -> outcome V) (z d : V) (e' : cfg -> ex1 V) (t : cfg -> V -> outcome bool) db x : same_tree1 e' -> same_fun2 add -> same_fun2 mul -> same_fun t ->
  config_free (fun c => A <- build1 c (e c) ;; r_fold (add c) A d) /\
  config_free (fun c => A <- build1 c (e c) ;; B <- build1 c (e' c) ;; r_dot c (add c) (mul c) z A B d) /\
  config_free (fun c => A <- build1 c (e c) ;; r_any (t c) A db) /\ config_free (fun c => A <- build1 c (e c) ;; r_all (t c) A db) /\
  config_free (fun c => A <- build1 c (e c) ;; r_poly c (add c) (mul c) A x d).
Proof.
  intros He' Hadd Hmul Ht. assert (forall (f : cfg -> V -> V -> outcome V) b c c', same_fun2 f -> amax c' = amax c -> checked c = true -> (b = true -> checked c' = true) -> fun2_like b (f c) (f c')) as HF.
  { intros f b c c' Hf Ha Hc Hb u v. now apply (free_elim (fun c => f c u v)). }
  free; built1.
  - apply rel_r_fold; auto.
  - eapply rel_bind; [apply rel_build; [assumption..|now apply He']|intros B B' HB]. apply rel_r_dot; auto.
  - apply rel_r_any; auto. intros u. now apply (free_elim (fun c => t c u)).
  - apply rel_r_all; auto. intros u. now apply (free_elim (fun c => t c u)).
  - apply rel_r_poly; auto.
Qed.
Lemma stable_free (N : num V) sq pow lp (e' : cfg -> ex1 V) d x y tol nz db : same_tree1 e' ->
  config_free (fun c => A <- build1 c (e c) ;; stable_sum N A d) /\ config_free (fun c => A <- build1 c (e c) ;; stable_prod N c A d) /\
  config_free (fun c => A <- build1 c (e c) ;; B <- build1 c (e' c) ;; stable_dot_prod N c A B d) /\
  config_free (fun c => A <- build1 c (e c) ;; stable_norm2 N c sq A d) /\
  config_free (fun c => A <- build1 c (e c) ;; stable_polynomial N c A x d) /\
  config_free (fun c => A <- build1 c (e c) ;; stable_norm_lp N c pow A lp d) /\ config_free (fun c => A <- build1 c (e c) ;; stable_norm_lp_scaled N c pow A lp d) /\
  config_free (fun c => A <- build1 c (e c) ;; semi_stable_sum N c A d) /\
  config_free (fun c => A <- build1 c (e c) ;; B <- build1 c (e' c) ;; within_tol_abs_arr N c A B tol db) /\
  config_free (fun c => A <- build1 c (e c) ;; B <- build1 c (e' c) ;; within_tol_rel_arr N c A B tol nz db) /\
  config_free (fun c => A <- build1 c (e c) ;; B <- build1 c (e' c) ;; max_abs_error N c A B d) /\
  config_free (fun c => A <- build1 c (e c) ;; B <- build1 c (e' c) ;; max_rel_error N c A B d) /\
  config_free (fun c => within_tol_abs N c x y tol) /\ config_free (fun c => within_tol_rel N c x y tol nz).
Proof.
  intros He'. free; try built1; try (eapply rel_bind; [apply rel_build; [assumption..|now apply He']|intros B B' HB]).
  - now apply rel_stable_sum.
  - now apply rel_stable_prod.
  - now apply rel_stable_dot_prod.
  - now apply rel_stable_norm2.
  - now apply rel_stable_polynomial.
  - now apply rel_stable_norm_lp.
  - now apply rel_stable_norm_lp_scaled.
  - now apply rel_semi_stable_sum.
  - now apply rel_within_tol_abs_arr.
  - now apply rel_within_tol_rel_arr.
  - now apply rel_max_abs_error.
  - now apply rel_max_rel_error.
  - now apply rel_within_tol_abs.
  - now apply rel_within_tol_rel.
Qed.
End Ex.
Lemma random_free {V} (N : num V) t f tm lo hi s l x y : config_free (fun c => semi_rands c t tm lo hi s) /\ config_free (fun c => semi_random_fill c t tm lo hi s l) /\
  config_free (fun c => semi_rands_num N c tm x y s) /\ config_free (fun c => semi_rands_not0 c t f tm lo hi s) /\ config_free (fun c => semi_random_not0 c t f tm lo hi s l).
Proof. free; [now apply rel_semi_rands|now apply rel_semi_random_fill|now apply rel_semi_rands_num|now apply rel_semi_rands_not0|now apply rel_semi_random_not0]. Qed.
Lemma reading_free t s A B : config_free_m (fun c => read1_text c t s A) /\ config_free_m (fun c => read2_text c t s B).
Proof. free; [now apply relm_read1_text|now apply relm_read2_text]. Qed.

Lemma programs1_free {V} (z : V) c c' ops st : amax c' = amax c -> full c = true ->
  forall st' ob t, run (step1 z c) st ops = (Next st' ob, t) -> clean t -> run (step1 z c') st ops = (Next st' ob, t).
Proof. intros Ha Hf. apply run_same. intros s o. apply step1_like; auto; discriminate || (unfold full, checked in *; destruct (dbg c), (exc c), (ndbg c); auto). Qed.
Lemma programs2_free {V} (z : V) c c' ops st : amax c' = amax c -> full c = true ->
  forall st' ob t, run (step2 z c) st ops = (Next st' ob, t) -> clean t -> run (step2 z c') st ops = (Next st' ob, t).
Proof. intros Ha Hf. apply run_same. intros s o. apply step2_like; auto; discriminate || (unfold full, checked in *; destruct (dbg c), (exc c), (ndbg c); auto). Qed.
Lemma leaf_tree {V} (A : src1 V) : same_tree1 (fun _ => XLeaf V A).
Proof. intros b c c' _ _ _. constructor. apply src_like_refl. Qed.

Lemma access_thm c N : checked c = true -> forall o ws, is_view c N o -> (forall d, o_denotes c o d -> chain_fits d ws) ->
  o_chain c o ws = Fail (report c) \/
  exists v, o_chain c o ws = Ok v /\ is_view c N v /\
    (forall ix n, o_size v = Ok n -> idx_fits n ix -> safe_ref c N (o_ref1 c v ix) /\ safe_ref c N (o_at1 c v ix)) /\
    (forall ix jx, is_two v = true -> idx_fits (o_rows v) ix -> idx_fits (o_cols v) jx -> safe_ref c N (o_ref2 c v ix jx) /\ safe_ref c N (o_at2 c v ix jx)).
Proof.
  intros Hk o ws HV HC. destruct (chain_safe c N Hk ws o HV HC) as [H|(v & H & Hv)]; [now left|right]. exists v. split; [assumption|]. split; [assumption|].
  split; intros; [eapply ref1_safe; eauto|eapply ref2_safe; eauto].
Qed.
Lemma access_at_thm c N : exc c || negb (ndbg c) = true -> forall v, is_view c N v ->
  (forall ix n, o_size v = Ok n -> idx_fits n ix -> safe_ref c N (o_at1 c v ix)) /\
  (forall ix jx, is_two v = true -> idx_fits (o_rows v) ix -> idx_fits (o_cols v) jx -> safe_ref c N (o_at2 c v ix jx)).
Proof.
  intros HE o HV. assert (check_always c false = Fail (report c)) as HL by (unfold check_always, report; destruct (exc c), (ndbg c); auto; discriminate). split.
  - intros ix n HS HF. destruct (view_size c N o HV) as (n' & E' & HN). rewrite HS in E'. injection E' as <-. destruct (view_known c N o HV) as [d KO].
    unfold o_at1. rewrite HS. cbn [bind]. rewrite idx_get_ok by auto. cbn [bind]. set (i := denotes n ix). destruct (valid_index n i) eqn:HI.
    + rewrite check_always_true. cbn [bind]. destruct (lin_known c N o d i n KO HS) as (p & E & R & L); [unfold valid_index in HI; lia|]. rewrite L. right; eauto.
    + rewrite HL. left; reflexivity.
  - intros ix jx HT F1 F2. pose proof (view_dims c N o HV HT) as (B1 & B2 & _). destruct (known2 c N o HV HT) as (P & KO & ER & EC).
    unfold o_at2. rewrite !idx_get_ok by auto. cbn [bind]. set (i := denotes (o_rows o) ix). set (j := denotes (o_cols o) jx).
    destruct (Array2D.valid_index2 (o_rows o) (o_cols o) i j) eqn:HI.
    + rewrite check_always_true. cbn [bind]. unfold valid_index2, valid_row, valid_col in HI.
      destruct (known_at c N o P i j KO) as (p & E & R & L); [lia|lia|]. rewrite L. right; eauto.
    + rewrite HL. left; reflexivity.
Qed.
Lemma iterator_access_thm {V} c (h : Z -> list V) it v : checked c = true -> (forall p, zlen (h p) <= LONG_MAX) ->
  let E := fun p => flag_list (h p) in
  (it_deref c E it = Fail (report c) \/ exists p x, it_ptr it = Some p /\ znth (h p) (it_pos it) = Some x /\ it_deref c E it = Ok x) /\
  (it_write c h it v = Fail (report c) \/ exists p h', it_ptr it = Some p /\ it_write c h it v = Ok h' /\ 0 <= it_pos it < zlen (h p) /\ zlen (h' p) = zlen (h p) /\
     (forall i, znth (h' p) i = if i =? it_pos it then Some v else znth (h p) i) /\ forall q, q <> p -> h' q = h q).
Proof.
  intros Hk HL E. destruct it as [[p|] k]; cbn [it_ptr it_pos].
  - destruct (deref_thm c E p (h p) k (list_shows _ (HL p))) as [D1 D2]. destruct (write_thm c h p k v) as [W1 W2].
    destruct (Z.leb_spec 0 k); [destruct (Z.ltb_spec k (zlen (h p)))|].
    + destruct (znth_some (h p) k) as [x Ex]; [lia|]. split; right; [exists p, x; auto|]. destruct (W1 ltac:(lia)) as (h' & H1 & H2 & H3 & H4). exists p, h'. repeat split; auto.
    + split; left; [apply D2|apply W2]; auto; lia.
    + split; left; [apply D2|apply W2]; auto; lia.
  - destruct (null_thm c E k it_null Hk) as [H _]. split; left; [exact H|]. unfold it_write, somewhere. cbn [it_ptr]. now rewrite check_debug_false.
Qed.
Lemma no_ub1_thm {V} (zero : V) c ops : cfg_ok c -> amax c <= 2 ^ 60 -> checked c = true -> Forall modest_op ops -> fst (run (step1 zero c) [] ops) <> Crash.
Proof. intros. apply (run_safe1 zero c) with (w := []); auto. constructor. Qed.
Lemma no_ub2_thm {V} (zero : V) c ops : cfg_ok c -> amax c <= 2 ^ 60 -> full c = true -> Forall modest_op2 ops -> fst (run (step2 zero c) [] ops) <> Crash.
Proof. intros. apply (run_safe2 zero c) with (w := []); auto; [unfold full, checked in *; destruct (dbg c), (exc c), (ndbg c); auto|constructor]. Qed.
