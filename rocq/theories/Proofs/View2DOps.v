(** Each view function, and chains of them. *)
From Verif Require Import Base.Outcome Base.ZList Model.IntModel Model.ScalarOps Model.Index Model.Slice Model.Array1D Model.Array2D Model.View2D.
From Verif Require Import Spec.ArraySpec Spec.SliceSpec Spec.MatrixSpec Spec.Matrix2Spec Spec.View2DSpec.
From Verif Require Import Proofs.ScalarProofs Proofs.Array1DProofs Proofs.SliceProofs Proofs.ViewProofs Proofs.SliceThms Proofs.MatrixProofs Proofs.Array2DProofs Proofs.Array2DSim Proofs.View2DProofs.
Ltac Zify.zify_post_hook ::= Z.div_mod_to_equations.

Lemma denotes_long n ix : 0 <= n <= LONG_MAX -> idx_fits n ix -> is_long (denotes n ix).
Proof. unfold is_long, idx_fits, LONG_MIN, LONG_MAX. destruct ix; cbn; unfold is_long, LONG_MIN, LONG_MAX; lia. Qed.
Lemma pick_all_rows {A} n (M : list (list A)) : rect n M -> map (fun r => pick r (all_positions n)) M = M.
Proof.
  intros HR. rewrite <- (map_id M) at 2. apply map_ext_in. intros r Hr. rewrite <- (rect_in _ _ _ HR Hr). apply pick_all_eq.
Qed.
Lemma pick_rect {A} n (M : list (list A)) xs : rect n M -> rect n (pick M xs).
Proof.
  intros HR. apply Forall_forall. intros r Hr. unfold pick in Hr. apply in_flat_map in Hr as (p & _ & Hp).
  destruct (znth M p) eqn:E; [|destruct Hp]. destruct Hp as [<-|[]]. eapply rect_nth; eauto.
Qed.
Lemma norm_id {A} (M : list (list A)) : wfm M -> norm M = M.
Proof.
  intros Hw. unfold norm. destruct (Z.eqb_spec (ncols M) 0) as [E|E]; [|reflexivity]. apply wfm_zero in E; auto. symmetry. now apply zlen_zero.
Qed.
Lemma pick_wfm {A} (M : list (list A)) xs : wfm M -> wfm (pick M xs).
Proof.
  intros Hw. destruct M as [|r M'].
  - replace (pick (@nil (list A)) xs) with (@nil (list A)); [apply wfm_nil|]. induction xs as [|x xs IH]; [reflexivity|]. unfold pick. cbn [flat_map]. now rewrite znth_nil.
  - apply (wfm_intro (ncols (r :: M'))); [apply pick_rect; now apply wfm_rect|]. apply Hw. discriminate.
Qed.

Section P.
Context (c : cfg) {F : Z -> outcome Z}.
Implicit Types (o : obj) (P : list (list Z)) (ps qs : list Z).

Lemma make_seqn_again a b d q : make_seqn c a b d = Ok q -> make_seqn c (qstart q) (qsize q) (qstride q) = Ok q.
Proof using. clear F.
  intros E. assert (q = mkseqn a b d) as ->; [|exact E]. unfold make_seqn in E.
  destruct (check_debug c (Ok (-1 <? a))); cbn [bind] in E; try discriminate. destruct (check_debug c (Ok (-1 <? b))); cbn [bind] in E; congruence.
Qed.
Ltac step E := match type of E with bind ?m _ = _ => let e := fresh "e" in destruct m eqn:e; cbn [bind] in E; try discriminate E end.
Lemma resolve_made n e s q : slice_resolve c n e s = Ok (RSeq q) -> exists a b d, make_seqn c a b d = Ok q.
Proof using. clear F.
  intros E. destruct s; cbn [slice_resolve] in E; unfold seq_to_slice in *; repeat step E; try congruence;
    try (injection E as <-; eauto; fail).
  injection E as <-. destruct (stride =? 0); eauto. repeat step e5. eauto.
Qed.
Lemma reresolve n e e' s r : slice_resolve c n e s = Ok r ->
  slice_ctor c (as_slice r) = Ok tt /\
  slice_resolve c n e' (as_slice r) = match r with RSeq _ => check_debug c (rvalid n r) ;;; Ok r | RVec _ => Ok r end.
Proof using. clear F.
  intros E. destruct r as [q|v]; [|split; reflexivity]. apply resolve_made in E as (a & b & d & E). apply make_seqn_again in E.
  cbn [as_slice slice_ctor slice_resolve rvalid]. rewrite E. split; [|reflexivity]. unfold make_seqn in E.
  destruct (check_debug c (Ok (-1 <? qstart q))); cbn [bind] in *; try discriminate. destruct (check_debug c (Ok (-1 <? qsize q))) as [[]| |]; cbn [bind] in *; congruence.
Qed.
Lemma reslice2 o k s1 s2 r1 r2 : o_size o = Ok k -> slice_resolve c (o_rows o) (k =? 0) s1 = Ok r1 -> slice_resolve c (o_cols o) (k =? 0) s2 = Ok r2 ->
  rvalid (o_rows o) r1 = Ok true -> rvalid (o_cols o) r2 = Ok true -> o_slice2 c o (as_slice r1) (as_slice r2) = o_make2 c o r1 r2.
Proof using. clear F.
  intros ES E1 E2 V1 V2. unfold o_slice2, o_resolve2. rewrite ES. cbn [bind]. destruct (reresolve _ _ (k =? 0) _ _ E1) as [-> ->]. destruct (reresolve _ _ (k =? 0) _ _ E2) as [-> ->].
  rewrite V1, V2, !check_debug_true. cbn [bind]. destruct r1, r2; reflexivity.
Qed.

Lemma rows_slice_ok o P s : o_denotes_by F c o (D2 P) -> args_long s -> acceptable (zlen P) s -> no_overflow (zlen P) s ->
  zlen (positions (zlen P) s) * ncols P <= LONG_MAX ->
  exists o', o_rows_slice c o s = Ok o' /\ o_denotes_by F c o' (D2 (pick P (positions (zlen P) s))).
Proof.
  intros Hd HA HC HN HL. pose proof (den2_dims c o P Hd) as [B1 B2]. pose proof Hd as (_ & Hw & _ & ER & EC & ES & _). destruct (empty_iff P Hw) as [Z1 Z2].
  destruct (slice_resolve_ok c (zlen P) s) as (r1 & E1 & AD1 & V1); auto. destruct (slice_resolve_ok c (ncols P) All) as (r2 & E2 & AD2 & V2); cbn; auto.
  unfold o_rows_slice. rewrite (slice_ctor_ok c (zlen P)) by assumption. cbn [bind]. unfold o_resolve2. rewrite ES. cbn [bind]. rewrite ER, EC.
  rewrite <- Z1 in E1. rewrite <- Z2 in E2. rewrite E1. cbn [bind]. rewrite E2. cbn [bind fst snd].
  rewrite (reslice2 o (zlen P * ncols P) s All); rewrite ?ER, ?EC; auto.
  destruct (make2_ok c (F:=F) o P r1 r2 (positions (zlen P) s) (positions (ncols P) All)) as (o' & E & Ho); auto; try (apply positions_in_range; cbn; auto; lia).
  { cbn [positions]. rewrite positions_all; lia. }
  exists o'. split; [assumption|]. cbn [positions] in Ho. rewrite pick_all_rows in Ho by (apply pick_rect; now apply wfm_rect).
  rewrite norm_id in Ho by now apply pick_wfm. assumption.
Qed.
Lemma cols_slice_ok o P s : o_denotes_by F c o (D2 P) -> args_long s -> acceptable (ncols P) s -> no_overflow (ncols P) s ->
  zlen P * zlen (positions (ncols P) s) <= LONG_MAX ->
  exists o', o_cols_slice c o s = Ok o' /\ o_denotes_by F c o' (D2 (norm (map (fun r => pick r (positions (ncols P) s)) P))).
Proof.
  intros Hd HA HC HN HL. pose proof (den2_dims c o P Hd) as [B1 B2]. pose proof Hd as (_ & Hw & _ & ER & EC & ES & _). destruct (empty_iff P Hw) as [Z1 Z2].
  destruct (slice_resolve_ok c (ncols P) s) as (r2 & E2 & AD2 & V2); auto. destruct (slice_resolve_ok c (zlen P) All) as (r1 & E1 & AD1 & V1); cbn; auto.
  unfold o_cols_slice. rewrite (slice_ctor_ok c (ncols P)) by assumption. cbn [bind]. unfold o_resolve2. rewrite ES. cbn [bind]. rewrite ER, EC.
  rewrite <- Z1 in E1. rewrite <- Z2 in E2. rewrite E1. cbn [bind]. rewrite E2. cbn [bind fst snd].
  rewrite (reslice2 o (zlen P * ncols P) All s); rewrite ?ER, ?EC; auto.
  destruct (make2_ok c (F:=F) o P r1 r2 (positions (zlen P) All) (positions (ncols P) s)) as (o' & E & Ho); auto; try (apply positions_in_range; cbn; auto; lia).
  { cbn [positions]. rewrite positions_all; lia. }
  exists o'. split; [assumption|]. cbn [positions] in Ho. now rewrite pick_all_eq in Ho.
Qed.
Lemma reslice_bad1 o k s1 r1 s2' : o_size o = Ok k -> slice_resolve c (o_rows o) (k =? 0) s1 = Ok r1 -> check_debug c (rvalid (o_rows o) r1) = Fail (report c) ->
  (exists r2, slice_ctor c s2' = Ok tt /\ slice_resolve c (o_cols o) (k =? 0) s2' = Ok r2) ->
  o_slice2 c o (as_slice r1) s2' = Fail (report c).
Proof using. clear F.
  intros ES E1 V1 (r2 & C2 & E2). unfold o_slice2, o_resolve2. rewrite ES. cbn [bind]. destruct (reresolve _ _ (k =? 0) _ _ E1) as [-> ->]. rewrite C2. cbn [bind].
  destruct r1; [now rewrite V1|]. cbn [bind]. rewrite E2. cbn [bind fst snd]. unfold o_make2. now rewrite V1.
Qed.
Lemma reslice_bad2 o k s2 r2 s1' : o_size o = Ok k -> slice_resolve c (o_cols o) (k =? 0) s2 = Ok r2 -> check_debug c (rvalid (o_cols o) r2) = Fail (report c) ->
  (exists r1, slice_ctor c s1' = Ok tt /\ slice_resolve c (o_rows o) (k =? 0) s1' = Ok r1 /\ rvalid (o_rows o) r1 = Ok true) ->
  o_slice2 c o s1' (as_slice r2) = Fail (report c).
Proof using. clear F.
  intros ES E2 V2 (r1 & C1 & E1 & V1). unfold o_slice2, o_resolve2. rewrite ES. cbn [bind]. destruct (reresolve _ _ (k =? 0) _ _ E2) as [-> ->]. rewrite C1. cbn [bind].
  rewrite E1. cbn [bind]. destruct r2; [now rewrite V2|]. cbn [bind fst snd]. unfold o_make2. rewrite V1, check_debug_true. cbn [bind]. now rewrite V2.
Qed.
Lemma rows_slice_bad o P s : o_denotes_by F c o (D2 P) -> checked c = true -> args_long s -> ~ acceptable (zlen P) s -> no_overflow (zlen P) s ->
  o_rows_slice c o s = Fail (report c).
Proof.
  intros Hd Hk HA HC HN. pose proof (den2_dims c o P Hd) as [B1 B2]. pose proof Hd as (_ & Hw & _ & ER & EC & ES & _). destruct (empty_iff P Hw) as [Z1 Z2].
  unfold o_rows_slice. destruct (slice_ctor_cases c s Hk) as [->| ->]; [|reflexivity]. cbn [bind].
  destruct (slice_resolve_ok c (ncols P) All) as (r2 & E2 & AD2 & V2); cbn [acceptable no_overflow args_long]; auto.
  unfold o_resolve2. rewrite ES. cbn [bind]. rewrite ER, EC. rewrite <- Z2 in E2.
  destruct (sliced_bad c (zlen P) s) as [E|(r1 & E & EV)]; auto; rewrite <- Z1 in E; rewrite E; cbn [bind]; [reflexivity|]. rewrite E2. cbn [bind fst snd].
  apply (reslice_bad1 o (zlen P * ncols P) s); rewrite ?ER, ?EC; auto. exists r2.
  destruct (reresolve _ _ (zlen P * ncols P =? 0) _ _ E2) as [C2 R2]. split; [assumption|]. rewrite R2, V2, check_debug_true. now destruct r2.
Qed.
Lemma cols_slice_bad o P s : o_denotes_by F c o (D2 P) -> checked c = true -> args_long s -> ~ acceptable (ncols P) s -> no_overflow (ncols P) s ->
  o_cols_slice c o s = Fail (report c).
Proof.
  intros Hd Hk HA HC HN. pose proof (den2_dims c o P Hd) as [B1 B2]. pose proof Hd as (_ & Hw & _ & ER & EC & ES & _). destruct (empty_iff P Hw) as [Z1 Z2].
  unfold o_cols_slice. destruct (slice_ctor_cases c s Hk) as [->| ->]; [|reflexivity]. cbn [bind].
  destruct (slice_resolve_ok c (zlen P) All) as (r1 & E1 & AD1 & V1); cbn [acceptable no_overflow args_long]; auto.
  unfold o_resolve2. rewrite ES. cbn [bind]. rewrite ER, EC. rewrite <- Z1 in E1. rewrite E1. cbn [bind].
  destruct (sliced_bad c (ncols P) s) as [E|(r2 & E & EV)]; auto; rewrite <- Z2 in E; rewrite E; cbn [bind]; [reflexivity|]. cbn [bind fst snd].
  apply (reslice_bad2 o (zlen P * ncols P) s); rewrite ?ER, ?EC; auto. exists r1.
  destruct (reresolve _ _ (zlen P * ncols P =? 0) _ _ E1) as [C1 R1]. split; [assumption|]. rewrite R1, V1, check_debug_true. now destruct r1.
Qed.

(** Rows, columns and diagonals *)
Lemma concat_len P : wfm P -> zlen (concat P) = zlen P * ncols P.
Proof using. clear F. intros. apply zlen_concat. now apply wfm_rect. Qed.
Lemma row_ok o P ix : o_denotes_by F c o (D2 P) -> idx_fits (zlen P) ix -> 0 <= denotes (zlen P) ix < zlen P ->
  exists r o', znth P (denotes (zlen P) ix) = Some r /\ o_row c o ix = Ok o' /\ o_denotes_by F c o' (D1 r).
Proof.
  intros Hd Hf Hi. pose proof (den2_dims c o P Hd) as [B1 B2]. pose proof Hd as (_ & Hw & HL & ER & EC & ES & _). pose proof (wfm_rect _ Hw) as HR.
  set (i := denotes (zlen P) ix) in *. destruct (znth_some P i Hi) as [r Er]. exists r. pose proof (rect_nth _ _ _ _ HR Er) as Lr.
  pose proof (wfm_zero P Hw). assert (0 < ncols P) by lia. set (m := zlen P) in *. set (n := ncols P) in *.
  assert (0 <= i * n) by nia. assert (i * n + n <= m * n) by nia.
  destruct (through_view1 c (F:=F) o P (Seq (i * n) (i * n + n - 1) 1) (i * n) n 1 r) as (v & o' & Ev & Es & Ho); auto.
  - cbn. unfold is_long, LONG_MIN, LONG_MAX in *. lia.
  - cbn. rewrite concat_len by assumption. fold m n. lia.
  - exact I.
  - cbn [positions]. change (0 <? 1) with true. cbv iota. rewrite seq_up_positions; rewrite ?concat_len by assumption; fold m n; try lia. do 3 f_equal. rewrite Z.div_1_r. lia.
  - intros t Ht. rewrite concat_len by assumption. fold m n. lia.
  - intros t Ht. replace (i * n + t * 1) with (i * n + t) by lia. unfold n. rewrite concat_get; auto; try (fold n; lia). unfold mget. now rewrite Er.
  - exists o'. split; [assumption|]. split; [|assumption]. unfold o_row. rewrite ER, EC. rewrite idx_get_ok by auto. fold i. cbn [bind].
    replace (valid_row m i) with true by (unfold valid_row; fold m; lia). rewrite check_debug_true. cbn [bind]. fold n.
    rewrite lmul_ok by (unfold LONG_MIN; lia). cbn [bind]. rewrite Ev. cbn [bind]. rewrite ladd_ok by (unfold LONG_MIN; lia). cbn [bind].
    rewrite lsub_ok by (unfold LONG_MIN; lia). cbn [bind]. exact Es.
Qed.
Lemma column_spec P j : wfm P -> 0 <= j < ncols P -> zlen (column P j) = zlen P /\ forall i, znth (column P j) i = mget P i j.
Proof using. clear F.
  intros Hw Hj. apply (collect_all (fun r => znth r j) P). intros r Hr. apply znth_some. now rewrite (rect_in _ _ _ (wfm_rect _ Hw) Hr).
Qed.
Lemma col_ok o P jx : o_denotes_by F c o (D2 P) -> idx_fits (ncols P) jx -> 0 <= denotes (ncols P) jx < ncols P ->
  exists o', o_col c o jx = Ok o' /\ o_denotes_by F c o' (D1 (column P (denotes (ncols P) jx))).
Proof.
  intros Hd Hf Hj. pose proof (den2_dims c o P Hd) as [B1 B2]. pose proof Hd as (_ & Hw & HL & ER & EC & ES & _). pose proof (wfm_rect _ Hw) as HR.
  set (j := denotes (ncols P) jx) in *. destruct (column_spec P j Hw Hj) as [LC NC].
  pose proof (wfm_zero P Hw). assert (0 < zlen P) by lia. set (m := zlen P) in *. set (n := ncols P) in *.
  assert (0 <= (m - 1) * n) by nia. assert ((m - 1) * n = m * n - n) as EM by ring.
  destruct (through_view1 c (F:=F) o P (Seq j (j + (m - 1) * n) n) j m n (column P j)) as (v & o' & Ev & Es & Ho); auto.
  - cbn. unfold is_long, LONG_MIN, LONG_MAX in *. lia.
  - cbn. rewrite concat_len by assumption. fold m n. lia.
  - exact I.
  - cbn [positions]. replace (0 <? n) with true by lia. rewrite seq_up_positions; rewrite ?concat_len by assumption; fold m n; try lia. do 3 f_equal.
    replace (j + (m - 1) * n - j) with ((m - 1) * n) by lia. rewrite Z.div_mul by lia. lia.
  - intros t Ht. rewrite concat_len by assumption. fold m n. pose proof (addr_range m n t j). lia.
  - intros t Ht. replace (j + t * n) with (t * n + j) by lia. unfold n. rewrite concat_get; auto; fold n; lia.
  - exists o'. split; [|assumption]. unfold o_col. rewrite ER, EC. rewrite idx_get_ok by auto. fold j. cbn [bind].
    replace (valid_col n j) with true by (unfold valid_col; fold n; lia). rewrite check_debug_true. cbn [bind]. fold n m.
    rewrite lsub_ok by (unfold LONG_MIN; lia). cbn [bind]. rewrite lmul_ok by (unfold LONG_MIN; lia). cbn [bind]. rewrite ladd_ok by (unfold LONG_MIN; lia). cbn [bind].
    rewrite Ev. cbn [bind]. exact Es.
Qed.
(** The window of rows met by diagonal k. *)
Lemma diagonal_spec P k : wfm P -> let lo := Z.max 0 (- k) in let hi := Z.max lo (Z.min (zlen P) (ncols P - k)) in lo <= zlen P ->
  zlen (diagonal P k) = hi - lo /\ forall i, 0 <= i < hi - lo -> znth (diagonal P k) i = mget P (lo + i) (lo + i + k).
Proof using. clear F.
  intros Hw lo hi Hlo. pose proof (wfm_rect _ Hw) as HR. unfold diagonal. apply (collect_window (fun i => mget P i (i + k)) (zlen P) lo hi); subst lo hi; try lia.
  - intros i Hi Hn. destruct (mget P i (i + k)) eqn:E; [|reflexivity]. apply (mget_in (ncols P)) in E; auto. lia.
  - intros i Hi. apply (mget_some (ncols P)); auto; lia.
Qed.
Lemma diag_through o P a k st qs : o_denotes_by F c o (D2 P) -> ncols P < LONG_MAX -> st = ncols P + 1 -> 0 <= a <= LONG_MAX -> 0 <= k <= LONG_MAX -> zlen qs = k ->
  (forall i, 0 <= i < k -> 0 <= a + i * st < zlen P * ncols P /\ znth qs i = znth (concat P) (a + i * st)) ->
  exists v o', o_view1 c o = Ok v /\ o_slice1 c v (SeqN a k st) = Ok o' /\ o_denotes_by F c o' (D1 qs).
Proof.
  intros Hd HC -> Ha Hk HL HQ. pose proof (den2_dims c o P Hd) as [B1 B2]. pose proof Hd as (_ & Hw & HB & ER & EC & ES & _).
  apply (through_view1 c (F:=F) o P (SeqN a k (ncols P + 1)) a k (ncols P + 1) qs); auto.
  - cbn. unfold is_long, LONG_MIN, LONG_MAX in *. lia.
  - cbn. rewrite concat_len by assumption. split; [lia|]. split; [lia|]. intros i Hi. now apply HQ.
  - cbn. intros _ Hk0. destruct (HQ (k - 1) ltac:(lia)) as [R _]. rewrite Z.mul_comm. assert (0 <= (k - 1) * (ncols P + 1)) by nia. unfold LONG_MIN. lia.
  - intros i Hi. rewrite concat_len by assumption. now apply HQ.
  - intros i Hi. now apply HQ.
Qed.
Lemma diag_ok o P k : o_denotes_by F c o (D2 P) -> is_long k -> k <> LONG_MIN -> ncols P < LONG_MAX -> - zlen P < k < ncols P ->
  exists o', o_diag c o k = Ok o' /\ o_denotes_by F c o' (D1 (diagonal P k)).
Proof.
  intros Hd Hkl Hkm HC Hk. pose proof (den2_dims c o P Hd) as [B1 B2]. pose proof Hd as (_ & Hw & HB & ER & EC & ES & _). pose proof (wfm_rect _ Hw) as HR.
  destruct (diagonal_spec P k Hw ltac:(lia)) as [LD ND]. unfold o_diag. rewrite ER, EC. set (m := zlen P) in *. set (n := ncols P) in *.
  assert (forall i, 0 <= i < zlen (diagonal P k) -> znth (diagonal P k) i = znth (concat P) ((Z.max 0 (- k) + i) * n + (Z.max 0 (- k) + i + k)) /\
    0 <= Z.max 0 (- k) + i < m /\ 0 <= Z.max 0 (- k) + i + k < n) as HN.
  { intros i Hi. rewrite LD in Hi. rewrite ND by lia. split; [|lia]. unfold n. rewrite concat_get; auto; fold m n; lia. }
  destruct (Z.leb_spec 0 k) as [K|K].
  - replace (Z.max 0 (- k)) with 0 in * by lia.
    destruct (diag_through o P k (Z.min m (n - k)) (n + 1) (diagonal P k)) as (v & o' & Ev & Es & Ho); auto; unfold is_long, LONG_MAX, LONG_MIN in *; try lia.
    + intros i Hi. destruct (HN i) as (E & R1 & R2); [lia|]. rewrite E. replace ((0 + i) * n + (0 + i + k)) with (k + i * (n + 1)) in * by ring. split; [|reflexivity].
      pose proof (addr_range m n (0 + i) (0 + i + k) R1 R2) as R. fold m n. lia.
    + exists o'. split; [|assumption]. rewrite Ev. cbn [bind]. replace (k <? n) with true by lia. rewrite check_debug_true. cbn [bind].
      rewrite lsub_ok by (unfold LONG_MIN, LONG_MAX; lia). cbn [bind]. rewrite ladd_ok by (unfold LONG_MIN, LONG_MAX; lia). cbn [bind].
      assert (mins m (n - k) = Z.min m (n - k)) as -> by (unfold mins; destruct (Z.ltb_spec m (n - k)); lia). exact Es.
  - replace (Z.max 0 (- k)) with (- k) in * by lia. assert (0 < n) by (pose proof (wfm_zero P Hw) as HZ; fold m n in HZ; lia). assert (0 <= - k * n) by nia. assert (- k * n < m * n) by (apply Z.mul_lt_mono_pos_r; lia).
    destruct (diag_through o P (- k * n) (Z.min (m + k) n) (n + 1) (diagonal P k)) as (v & o' & Ev & Es & Ho); auto; try (unfold is_long, LONG_MAX, LONG_MIN in *; lia).
    + intros i Hi. destruct (HN i) as (E & R1 & R2); [lia|]. rewrite E. replace ((- k + i) * n + (- k + i + k)) with (- k * n + i * (n + 1)) in * by ring. split; [|reflexivity].
      pose proof (addr_range m n (- k + i) (- k + i + k) R1 R2) as R. fold m n. lia.
    + exists o'. split; [|assumption]. rewrite Ev. cbn [bind]. assert (labs k = Ok (- k)) as -> by (unfold labs; replace (k <? 0) with true by lia; apply lret_ok; unfold is_long, LONG_MIN, LONG_MAX in *; lia).
      cbn [bind]. replace (- k <? m) with true by lia. rewrite check_debug_true. cbn [bind].
      rewrite lmul_ok by (unfold LONG_MIN, LONG_MAX in *; lia). cbn [bind]. rewrite lsub_ok by (unfold LONG_MIN, LONG_MAX in *; lia). cbn [bind].
      rewrite ladd_ok by (unfold LONG_MIN, LONG_MAX in *; lia). cbn [bind]. replace (m - - k) with (m + k) by lia.
      assert (mins (m + k) n = Z.min (m + k) n) as -> by (unfold mins; destruct (Z.ltb_spec (m + k) n); lia). exact Es.
Qed.
Lemma diag0_ok o P : o_denotes_by F c o (D2 P) -> ncols P < LONG_MAX ->
  exists o', o_diag0 c o = Ok o' /\ o_denotes_by F c o' (D1 (diagonal P 0)).
Proof.
  intros Hd HC. pose proof (den2_dims c o P Hd) as [B1 B2]. pose proof Hd as (_ & Hw & HB & ER & EC & ES & _). pose proof (wfm_rect _ Hw) as HR.
  destruct (diagonal_spec P 0 Hw ltac:(lia)) as [LD ND]. change (Z.max 0 (- 0)) with 0 in *. unfold o_diag0. rewrite ER, EC. set (m := zlen P) in *. set (n := ncols P) in *.
  destruct (diag_through o P 0 (Z.min m n) (n + 1) (diagonal P 0)) as (v & o' & Ev & Es & Ho); auto; try (unfold is_long, LONG_MAX, LONG_MIN in *; lia).
  - intros i Hi. rewrite ND by lia. pose proof (addr_range m n i i ltac:(lia) ltac:(lia)) as R. replace (0 + i * (n + 1)) with (i * n + i) by ring. fold m n. split; [lia|].
    unfold n. rewrite concat_get; auto; fold m n; try lia. f_equal; lia.
  - exists o'. split; [|assumption]. rewrite Ev. cbn [bind]. rewrite ladd_ok by (unfold LONG_MIN, LONG_MAX in *; lia). cbn [bind].
    assert (mins m n = Z.min m n) as -> by (unfold mins; destruct (Z.ltb_spec m n); lia). exact Es.
Qed.

(** Blocks *)
Lemma pick_run0 {A} (l : list A) a k : 0 <= a -> 0 <= k -> (0 < k -> a + k <= zlen l) ->
  pick l (map (fun i => a + i * 1) (all_positions k)) = run_of a k l.
Proof using. clear F. intros Ha Hk H. destruct (Z.eq_dec k 0) as [->|]; [reflexivity|]. apply pick_run; lia. Qed.
Lemma seq1_positions n a b : 0 <= a <= b -> b < n -> positions n (Seq a b 1) = map (fun i => a + i * 1) (all_positions (b - a + 1)).
Proof using. clear F. intros. cbn [positions]. change (0 <? 1) with true. cbv iota. rewrite seq_up_positions by lia. now rewrite Z.div_1_r. Qed.
Lemma block_ok o P ix1 jx1 ix2 jx2 : o_denotes_by F c o (D2 P) -> idx_fits (zlen P) ix1 -> idx_fits (zlen P) ix2 -> idx_fits (ncols P) jx1 -> idx_fits (ncols P) jx2 ->
  let i1 := denotes (zlen P) ix1 in let i2 := denotes (zlen P) ix2 in let j1 := denotes (ncols P) jx1 in let j2 := denotes (ncols P) jx2 in
  0 <= i1 <= i2 -> i2 < zlen P -> 0 <= j1 <= j2 -> j2 < ncols P ->
  exists o', o_block c o ix1 jx1 ix2 jx2 = Ok o' /\ o_denotes_by F c o' (D2 (map (run_of j1 (j2 - j1 + 1)) (run_of i1 (i2 - i1 + 1) P))).
Proof.
  intros Hd F1 F2 F3 F4 i1 i2 j1 j2 I1 I2 J1 J2. pose proof (den2_dims c o P Hd) as [B1 B2]. pose proof Hd as (_ & Hw & HB & ER & EC & ES & _). pose proof (wfm_rect _ Hw) as HR.
  pose proof (denotes_long (zlen P) ix1 B1 F1). pose proof (denotes_long (zlen P) ix2 B1 F2). pose proof (denotes_long (ncols P) jx1 B2 F3). pose proof (denotes_long (ncols P) jx2 B2 F4).
  unfold o_block. rewrite ER, EC, !idx_get_ok by auto. cbn [bind]. fold i1 i2 j1 j2.
  assert (is_long 1) by (unfold is_long, LONG_MIN, LONG_MAX; lia).
  destruct (slice2_ok c (F:=F) o P (Seq i1 i2 1) (Seq j1 j2 1)) as (o' & E & Ho); auto; try (cbn; auto; lia).
  - rewrite !seq1_positions by lia. rewrite !zlen_map, !positions_all by lia. nia.
  - exists o'. split; [assumption|]. unfold select2 in Ho. rewrite !seq1_positions in Ho by lia. rewrite pick_run in Ho by lia.
    replace (norm _) with (map (run_of j1 (j2 - j1 + 1)) (run_of i1 (i2 - i1 + 1) P)) in Ho; [assumption|].
    assert (map (fun r => pick r (map (fun i => j1 + i * 1) (all_positions (j2 - j1 + 1)))) (run_of i1 (i2 - i1 + 1) P) = map (run_of j1 (j2 - j1 + 1)) (run_of i1 (i2 - i1 + 1) P)) as ->.
    { apply map_ext_in. intros r Hr. apply pick_run; try lia. apply in_znth in Hr as (t & Ht). pose proof Ht as T. apply znth_lt in T. rewrite zlen_run in T by lia. rewrite znth_run in Ht by lia.
      replace (t <? i2 - i1 + 1) with true in Ht by lia. rewrite (rect_nth _ _ _ _ HR Ht). lia. }
    symmetry. apply norm_id. apply (wfm_intro (j2 - j1 + 1)); [|lia]. apply (rect_map (ncols P)).
    + apply Forall_forall. intros r Hr. apply in_znth in Hr as (t & Ht). pose proof Ht as T. apply znth_lt in T. rewrite zlen_run in T by lia. rewrite znth_run in Ht by lia.
      replace (t <? i2 - i1 + 1) with true in Ht by lia. apply (rect_nth _ _ _ _ HR Ht).
    + intros r Lr. apply zlen_run; lia.
Qed.
Lemma seqn1_acceptable n a k : acceptable n (SeqN a k 1) <-> 0 <= a /\ 0 <= k /\ (0 < k -> a + k <= n).
Proof using. clear F.
  cbn. split; intros (H1 & H2 & H3); split; auto; split; auto.
  - intros Hk. specialize (H3 (k - 1)). lia.
  - intros i Hi. lia.
Qed.
Lemma blockN_ok o P ix jx nr nc : o_denotes_by F c o (D2 P) -> idx_fits (zlen P) ix -> idx_fits (ncols P) jx -> is_long nr -> is_long nc ->
  let i := denotes (zlen P) ix in let j := denotes (ncols P) jx in
  0 <= i -> 0 <= nr -> (0 < nr -> i + nr <= zlen P) -> 0 <= j -> 0 <= nc -> (0 < nc -> j + nc <= ncols P) ->
  exists o', o_blockN c o ix jx nr nc = Ok o' /\ o_denotes_by F c o' (D2 (norm (map (run_of j nc) (run_of i nr P)))).
Proof.
  intros Hd F1 F2 L1 L2 i j I1 I2 I3 J1 J2 J3. pose proof (den2_dims c o P Hd) as [B1 B2]. pose proof Hd as (_ & Hw & HB & ER & EC & ES & _). pose proof (wfm_rect _ Hw) as HR.
  pose proof (denotes_long (zlen P) ix B1 F1). pose proof (denotes_long (ncols P) jx B2 F2). assert (is_long 1) by (unfold is_long, LONG_MIN, LONG_MAX; lia).
  unfold o_blockN. rewrite ER, EC, !idx_get_ok by auto. cbn [bind]. fold i j.
  destruct (slice2_ok c (F:=F) o P (SeqN i nr 1) (SeqN j nc 1)) as (o' & E & Ho); auto; try (cbn; auto; fail); try (apply seqn1_acceptable; auto).
  - unfold no_overflow, LONG_MIN. intros. lia.
  - unfold no_overflow, LONG_MIN. intros. lia.
  - cbn [positions]. rewrite !zlen_map, !positions_all by lia. destruct (Z.eq_dec nr 0); [subst; unfold LONG_MAX; lia|]. destruct (Z.eq_dec nc 0); [subst; unfold LONG_MAX; lia|]. nia.
  - exists o'. split; [assumption|]. unfold select2 in Ho. cbn [positions] in Ho. rewrite pick_run0 in Ho by auto.
    assert (map (fun r => pick r (map (fun i0 => j + i0 * 1) (all_positions nc))) (run_of i nr P) = map (run_of j nc) (run_of i nr P)) as E2; [|now rewrite E2 in Ho].
    apply map_ext_in. intros r Hr. apply pick_run0; auto. intros Hnc. apply in_znth in Hr as (t & Ht). pose proof Ht as T. apply znth_lt in T.
    rewrite znth_run in Ht by lia. destruct (t <? nr); [|discriminate]. rewrite (rect_nth _ _ _ _ HR Ht). lia.
Qed.

(** view2D *)
Lemma chunks_spec {A} m n (l : list A) : 0 <= m -> 0 <= n -> zlen l = m * n ->
  rect n (chunks m n l) /\ zlen (chunks m n l) = m /\ forall i j, 0 <= i < m -> 0 <= j < n -> mget (chunks m n l) i j = znth l (i * n + j).
Proof using. clear F.
  intros Hm Hn HL. unfold chunks. split; [|split].
  - apply Forall_forall. intros r Hr. apply in_map_iff in Hr as (i & <- & Hi). apply in_zseq in Hi. assert (0 <= i * n) by nia. assert (i * n + n <= m * n) by nia.
    apply (zlen_run (i * n) n); lia.
  - rewrite zlen_map, zlen_zseq. lia.
  - intros i j Hi Hj. unfold mget. rewrite znth_map_zseq by lia. assert (0 <= i * n) by nia. replace (0 + i) with i by lia. fold (run_of (i * n) n l). rewrite znth_run by lia.
    now replace (j <? n) with true by lia.
Qed.
Lemma view2_ok o d m n : let ps := match d with D1 ps => ps | D2 P => concat P end in
  o_denotes_by F c o d -> 0 <= m -> 0 <= n -> is_long m -> is_long n -> m * n = zlen ps ->
  exists o', o_view2 c o m n = Ok o' /\ o_denotes_by F c o' (D2 (norm (chunks m n ps))).
Proof.
  intros ps Hd Hm Hn Lm Ln HS. pose proof (linear_of c o d Hd) as HL. fold ps in HL. destruct HL as (H1 & H2 & H3). unfold is_long in *. pose proof (zlen_nonneg ps).
  unfold o_view2. rewrite H2. cbn [bind]. rewrite lmul_ok by (unfold LONG_MIN; lia). cbn [bind]. unfold check_always. replace (m * n =? zlen ps) with true by lia. cbn [bind].
  rewrite !make_seqn_ok by lia. cbn [bind]. unfold o_make2. cbn [o_rows o_cols rvalid]. rewrite !seqn_valid_ok by lia. rewrite !check_debug_true. cbn [bind].
  eexists. split; [reflexivity|]. cbn [rsize qsize]. destruct (chunks_spec m n ps Hm Hn) as (CR & CL & CN); [lia|]. destruct (norm_wfm n (chunks m n ps)) as (W1 & W2 & W3); auto.
  destruct (Z.eqb_spec m 0) as [->|Zm]; [|destruct (Z.eqb_spec n 0) as [->|Zn]].
  - rewrite W2 by (left; apply zlen_zero; lia). now apply empty_den.
  - rewrite W2 by now right. now apply empty_den.
  - assert (chunks m n ps <> []) as NE by (apply nonempty_len; lia). destruct (W3 NE) as [EN EC]; [lia|]. rewrite EN in *.
    apply os2_den; auto; try (cbn; lia).
    intros i j p E. pose proof (mget_in _ _ _ _ _ CR E) as [R1 R2]. rewrite CL in R1. rewrite CN in E by lia. pose proof (addr_range m n i j R1 R2). assert (0 <= i * n) by nia.
    exists i, j. rewrite !(rmap_seq LONG_MAX) by lia. replace (0 + i * 1) with i by lia. replace (0 + j * 1) with j by lia. repeat (split; [reflexivity|]).
    cbn [o_at]. rewrite lmul_ok by (unfold LONG_MIN; lia). cbn [bind]. rewrite ladd_ok by (unfold LONG_MIN; lia). cbn [bind]. now apply H3.
Qed.
Lemma view2_mismatch o d m n : let ps := match d with D1 ps => ps | D2 P => concat P end in
  o_denotes_by F c o d -> is_long (m * n) -> m * n <> zlen ps -> exc c = true \/ ndbg c = false -> o_view2 c o m n = Fail (report c).
Proof.
  intros ps Hd Lmn HS HE. pose proof (linear_of c o d Hd) as HL. fold ps in HL. destruct HL as (H1 & H2 & H3).
  unfold o_view2. rewrite H2. cbn [bind]. rewrite lmul_ok by (unfold is_long in *; lia). cbn [bind]. replace (m * n =? zlen ps) with false by lia.
  unfold check_always, report. destruct HE as [->| ->]; [reflexivity|]. destruct (exc c); reflexivity.
Qed.
Lemma view2_negative o d m n : let ps := match d with D1 ps => ps | D2 P => concat P end in
  o_denotes_by F c o d -> is_long (m * n) -> m < 0 \/ n < 0 -> checked c = true -> o_view2 c o m n = Fail (report c).
Proof.
  intros ps Hd Lmn HS Hk. destruct (Z.eq_dec (m * n) (zlen ps)) as [E|E].
  - pose proof (linear_of c o d Hd) as HL. fold ps in HL. destruct HL as (H1 & H2 & H3).
    unfold o_view2. rewrite H2. cbn [bind]. rewrite lmul_ok by (unfold is_long in *; lia). cbn [bind]. unfold check_always. replace (m * n =? zlen ps) with true by lia. cbn [bind].
    unfold make_seqn. change (-1 <? 0) with true. rewrite check_debug_true. cbn [bind]. destruct (Z.ltb_spec (-1) m).
    + rewrite check_debug_true. cbn [bind]. replace (-1 <? n) with false by lia. now rewrite check_debug_false.
    + now rewrite check_debug_false.
  - apply (view2_mismatch o d); auto. unfold checked in Hk. destruct (exc c), (ndbg c), (dbg c); auto; discriminate.
Qed.

(** One view *)
Lemma apply_ok o d w : o_denotes_by F c o d -> vop_typed d w = true -> vop_fits d w -> vop_ok d w ->
  exists o' d', den_apply d w = Some d' /\ o_apply c o w = Ok o' /\ o_denotes_by F c o' d'.
Proof.
  intros Hd HT HF HO. assert (is_two o = match d with D1 _ => false | D2 _ => true end) as ET by (destruct d; apply Hd).
  destruct d as [ps|P]; unfold o_apply; rewrite ET; destruct w; try discriminate HT; cbn [vop_fits vop_ok den_apply] in *.
  - destruct (slice1_ok c (F:=F) o ps s (linear_of c o _ Hd)) as (o' & E & H); try tauto. eauto.
  - destruct (slice1_ok c (F:=F) o ps All (linear_of c o _ Hd)) as (o' & E & H); cbn; auto.
    { rewrite positions_all by apply zlen_nonneg. apply Hd. }
    cbn [positions] in H. rewrite pick_all_eq in H. eauto.
  - destruct (view2_ok o (D1 ps) m n) as (o' & E & H); try tauto. eauto.
  - destruct (slice2_ok c (F:=F) o P s1 s2 Hd) as (o' & E & H); try tauto. eauto.
  - destruct (rows_slice_ok o P s Hd) as (o' & E & H); try tauto. eauto.
  - destruct (cols_slice_ok o P s Hd) as (o' & E & H); try tauto. eauto.
  - destruct (row_ok o P ix Hd) as (r & o' & E1 & E & H); try tauto. rewrite E1. cbn [option_map]. eauto.
  - destruct (col_ok o P jx Hd) as (o' & E & H); try tauto. eauto.
  - destruct (diag0_ok o P Hd) as (o' & E & H); try tauto. eauto.
  - destruct (diag_ok o P i Hd) as (o' & E & H); try tauto. eauto.
  - destruct (block_ok o P ix1 jx1 ix2 jx2 Hd) as (o' & E & H); try tauto. eauto.
  - destruct (blockN_ok o P ix jx nr nc Hd) as (o' & E & H); try tauto. eauto.
  - destruct (view1_ok c o (D2 P) Hd) as (o' & E & H). eauto.
  - destruct (view2_ok o (D2 P) m n Hd) as (o' & E & H); try tauto.
    + rewrite concat_len; [tauto|]. apply Hd.
    + eauto.
Qed.
Lemma chain_ok_den ws : forall o d, o_denotes_by F c o d -> chain_ok d ws ->
  exists o' d', den_chain d ws = Some d' /\ o_chain c o ws = Ok o' /\ o_denotes_by F c o' d'.
Proof.
  induction ws as [|w ws IH]; intros o d Hd HC; [exists o, d; auto|]. destruct HC as (HT & HF & HO & HC).
  destruct (apply_ok o d w Hd HT HF HO) as (o' & d' & E1 & E2 & Hd'). cbn [den_chain o_chain]. rewrite E1 in *. rewrite E2. cbn [bind]. now apply IH.
Qed.
Lemma apply_bad o d w : o_denotes_by F c o d -> vop_typed d w = true -> vop_fits d w -> checked c = true -> ~ vop_ok d w -> o_apply c o w = Fail (report c).
Proof.
  intros Hd HT HF Hk HB. assert (is_two o = match d with D1 _ => false | D2 _ => true end) as ET by (destruct d; apply Hd).
  assert (exc c = true \/ ndbg c = false) as HE by (unfold checked in Hk; destruct (exc c), (ndbg c), (dbg c); auto; discriminate).
  destruct d as [ps|P]; unfold o_apply; rewrite ET; destruct w; try discriminate HT; cbn [vop_fits vop_ok] in *; try tauto.
  - apply (slice1_bad c (F:=F) o ps); try tauto. apply (linear_of c o _ Hd).
  - destruct (Z.ltb_spec m 0); [apply (view2_negative o (D1 ps)); tauto|]. destruct (Z.ltb_spec n 0); [apply (view2_negative o (D1 ps)); tauto|]. apply (view2_mismatch o (D1 ps)); tauto.
  - apply (slice2_bad c (F:=F) o P); tauto.
  - apply (rows_slice_bad o P); tauto.
  - apply (cols_slice_bad o P); tauto.
  - pose proof (den2_dims c o P Hd) as [B1 B2]. pose proof Hd as (_ & _ & _ & ER & EC & _). unfold o_row. rewrite ER. rewrite idx_get_ok by auto. cbn [bind].
    replace (valid_row _ _) with false by (unfold valid_row; lia). now rewrite check_debug_false.
  - pose proof (den2_dims c o P Hd) as [B1 B2]. pose proof Hd as (_ & _ & _ & ER & EC & _). unfold o_col. rewrite EC. rewrite idx_get_ok by auto. cbn [bind].
    replace (valid_col _ _) with false by (unfold valid_col; lia). now rewrite check_debug_false.
  - pose proof (den2_dims c o P Hd) as [B1 B2]. pose proof Hd as (_ & _ & _ & ER & EC & _). unfold o_diag. rewrite ER, EC.
    assert (zlen P = 0 <-> ncols P = 0) as HZ by (apply wfm_zero; apply Hd).
    destruct (view1_ok c o (D2 P) Hd) as (v & E & _). rewrite E. cbn [bind]. destruct (Z.leb_spec 0 i).
    + replace (i <? ncols P) with false by lia. now rewrite check_debug_false.
    + assert (labs i = Ok (- i)) as -> by (unfold labs; replace (i <? 0) with true by lia; apply lret_ok; unfold is_long, LONG_MIN, LONG_MAX in *; lia).
      cbn [bind]. replace (- i <? zlen P) with false by lia. now rewrite check_debug_false.
  - pose proof (den2_dims c o P Hd) as [B1 B2]. pose proof Hd as (_ & _ & _ & ER & EC & _). unfold o_block. rewrite ER, EC.
    destruct HF as (F1 & F2 & F3 & F4). pose proof (denotes_long (zlen P) ix1 B1 F1). pose proof (denotes_long (zlen P) ix2 B1 F2). pose proof (denotes_long (ncols P) jx1 B2 F3). pose proof (denotes_long (ncols P) jx2 B2 F4).
    rewrite !idx_get_ok by auto. cbn [bind]. assert (is_long 1) by (unfold is_long, LONG_MIN, LONG_MAX; lia). apply (slice2_bad c (F:=F) o P); auto; try (cbn; auto; fail). cbn [acceptable]. lia.
  - pose proof (den2_dims c o P Hd) as [B1 B2]. pose proof Hd as (_ & _ & _ & ER & EC & _). unfold o_blockN. rewrite ER, EC.
    destruct HF as (F1 & F2 & F3 & F4 & F5 & F6). pose proof (denotes_long (zlen P) ix B1 F1). pose proof (denotes_long (ncols P) jx B2 F2).
    rewrite !idx_get_ok by auto. cbn [bind]. assert (is_long 1) by (unfold is_long, LONG_MIN, LONG_MAX; lia). apply (slice2_bad c (F:=F) o P); auto; try (cbn; auto; fail).
    + unfold no_overflow, is_long, LONG_MIN in *. intros. lia.
    + unfold no_overflow, is_long, LONG_MIN in *. intros. lia.
    + rewrite !seqn1_acceptable. tauto.
  - assert (zlen (concat P) = zlen P * ncols P) as EL by (apply concat_len; apply Hd).
    destruct (Z.ltb_spec m 0); [apply (view2_negative o (D2 P)); tauto|]. destruct (Z.ltb_spec n 0); [apply (view2_negative o (D2 P)); tauto|]. apply (view2_mismatch o (D2 P)); rewrite ?EL; tauto.
Qed.
(** The first invalid view of a chain is reported. *)
Lemma chain_bad ws w ws' : forall o d, o_denotes_by F c o d -> chain_ok d ws ->
  checked c = true -> (forall d', den_chain d ws = Some d' -> vop_typed d' w = true /\ vop_fits d' w /\ ~ vop_ok d' w) ->
  o_chain c o (ws ++ w :: ws') = Fail (report c).
Proof.
  induction ws as [|w0 ws IH]; intros o d Hd HC Hk HW.
  - cbn. destruct (HW d eq_refl) as (HT & HF & HB). now rewrite (apply_bad o d w).
  - destruct HC as (HT & HF & HO & HC). destruct (apply_ok o d w0 Hd HT HF HO) as (o' & d' & E1 & E2 & Hd'). cbn [app o_chain den_chain] in *. rewrite E1 in *. rewrite E2. cbn [bind].
    now apply (IH o' d').
Qed.

(** Owning arrays *)
Lemma whole1_den n : 0 <= n <= LONG_MAX -> o_denotes c (O1 n) (whole1 n).
Proof using. clear F.
  intros Hn. split; [reflexivity|]. rewrite positions_all by lia. split; [lia|]. split; [reflexivity|]. intros i p E. apply znth_all_positions in E; [|lia]. destruct E as [-> _]. reflexivity.
Qed.
Lemma whole2_den m n : 0 <= m -> 0 <= n -> (m = 0 <-> n = 0) -> m * n <= LONG_MAX -> o_denotes c (O2 m n (m * n)) (whole2 m n).
Proof using. clear F.
  intros Hm Hn HZ HL. assert (0 <= m * n) as Hmn by nia. assert (zlen (all_positions (m * n)) = m * n) as EL by (apply positions_all; lia).
  destruct (chunks_spec m n (all_positions (m * n)) Hm Hn EL) as (CR & CL & CN). unfold whole2, o_denotes, o_denotes_by. set (Q := chunks m n (all_positions (m * n))) in *.
  assert (wfm Q /\ ncols Q = n) as [Hw EC].
  { destruct (Z.eq_dec m 0) as [->|Em].
    - assert (Q = []) as -> by (apply zlen_zero; lia). split; [apply wfm_nil|]. cbn. symmetry. tauto.
    - assert (n <> 0) by tauto. split; [apply (wfm_intro n); auto; lia|]. apply rect_ncols; auto. apply nonempty_len. lia. }
  assert (forall k p, znth (all_positions (m * n)) k = Some p -> p = k) as HI by (intros k p E; apply znth_all_positions in E; [tauto|lia]).
  split; [reflexivity|]. split; [assumption|]. rewrite CL, EC. split; [assumption|]. split; [reflexivity|]. split; [reflexivity|]. split; [reflexivity|]. split.
  - intros i j p E. pose proof (mget_in _ _ _ _ _ CR E) as [R1 R2]. rewrite CL in R1. rewrite CN in E by lia. apply HI in E. subst p. pose proof (addr_range m n i j R1 R2). assert (0 <= i * n) by nia.
    cbn [o_at]. rewrite lmul_ok by (unfold LONG_MIN; lia). cbn [bind]. apply ladd_ok. unfold LONG_MIN. lia.
  - intros k p E. cbn [o_lin]. destruct (Z.eq_dec n 0) as [E0|E0].
    + assert (Q = []) as EQ by (apply zlen_zero; lia). rewrite EQ in E. cbn in E. now rewrite znth_nil in E.
    + pose proof E as Hk. apply znth_lt in Hk. rewrite (zlen_concat n) in Hk by assumption. rewrite CL in Hk. destruct (addr_div m n k) as (i & j & Hi & Hj & ->); try lia.
      rewrite (concat_get n) in E by (auto; lia). rewrite CN in E by lia. apply HI in E. now rewrite E.
Qed.
End P.
