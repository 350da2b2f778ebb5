(** attach1D and attach2D are views of the window of memory they are given. *)
From Verif Require Import Base.Outcome Base.ZList Model.IntModel Model.ScalarOps Model.Index Model.Slice Model.Array1D Model.Array2D Model.View2D Model.Attach.
From Verif Require Import Spec.ArraySpec Spec.SliceSpec Spec.MatrixSpec Spec.Matrix2Spec Spec.View2DSpec Spec.ConfigSpec.
From Verif Require Import Proofs.ScalarProofs Proofs.Array1DProofs Proofs.SliceProofs Proofs.ViewProofs Proofs.SliceThms Proofs.MatrixProofs Proofs.Array2DProofs Proofs.Array2DSim Proofs.View2DProofs Proofs.View2DOps Proofs.View2DThms Proofs.ExprProofs Proofs.ConfigProofs Proofs.ConfigThms.
Ltac Zify.zify_post_hook ::= Z.div_mod_to_equations.

Section T.
Context (c : cfg).

Lemma seqn0 n : 0 <= n -> make_seqn c 0 n 1 = Ok (mkseqn 0 n 1).
Proof. intros H. unfold make_seqn. replace (-1 <? n) with true by lia. change (-1 <? 0) with true. now rewrite !check_debug_true. Qed.
Lemma seqn0_neg n : n < 0 -> checked c = true -> make_seqn c 0 n 1 = Fail (report c).
Proof. intros H HC. unfold make_seqn. replace (-1 <? n) with false by lia. change (-1 <? 0) with true. rewrite check_debug_true. cbn [bind]. now rewrite check_debug_false. Qed.
Lemma seqn0_valid n : 0 <= n <= LONG_MAX -> seqn_valid n (mkseqn 0 n 1) = Ok true.
Proof.
  intros H. unfold seqn_valid. cbn [qsize qstart qstride]. destruct (Z.eqb_spec n 0); [reflexivity|]. unfold oand, valid_index.
  replace ((-1 <? 0) && (0 <? n)) with true by lia. unfold LONG_MAX in *.
  rewrite lsub_ok by (unfold LONG_MIN, LONG_MAX; lia). cbn [bind]. rewrite lmul_ok by (unfold LONG_MIN, LONG_MAX; lia). cbn [bind]. rewrite ladd_ok by (unfold LONG_MIN, LONG_MAX; lia). cbn [bind]. f_equal. lia.
Qed.
Lemma seq_acc n k : 0 <= k <= n -> acceptable n (SeqN 0 k 1).
Proof. intros H. cbn. repeat split; lia. Qed.
Lemma seq_noov n k : 0 <= k <= LONG_MAX -> no_overflow n (SeqN 0 k 1).
Proof. intros H _ Hk. unfold LONG_MIN in *. lia. Qed.

Theorem attach1_thm n : is_long n ->
  (0 <= n -> exists v, attach1 c n = Ok v /\ is_view c n v /\ is_two v = false /\ o_size v = Ok n /\ forall i, 0 <= i < n -> o_lin c v i = Ok i) /\
  (n < 0 -> checked c = true -> attach1 c n = Fail (report c)).
Proof.
  intros HL. unfold is_long in HL. split.
  - intros Hn. unfold attach1. rewrite seqn0 by assumption. cbn [bind]. rewrite seqn0_valid by lia. rewrite check_debug_true. cbn [bind]. eexists. split; [reflexivity|].
    split; [|split; [reflexivity|split; [reflexivity|]]].
    + exists (O1 n), (whole1 n), [VwSlice (SeqN 0 n 1)]. split; [left; repeat split; lia|].
      assert (zlen (all_positions n) = n) as EZ by (unfold all_positions; rewrite zlen_zseq; lia).
      split.
      * unfold whole1. cbn [chain_ok]. split; [reflexivity|]. cbn [vop_fits vop_ok den_apply]. rewrite EZ.
        split; [|split; [apply seq_acc; lia|exact I]]. split; [unfold args_long, is_long, LONG_MIN, LONG_MAX in *; lia|]. split; [apply seq_noov; lia|].
        cbn [positions]. rewrite zlen_map. unfold all_positions in EZ |- *. lia.
      * cbn [o_chain o_apply is_two]. unfold o_slice1. cbn [o_size bind slice_resolve]. rewrite seqn0 by assumption. cbn [bind]. rewrite seqn0_valid by lia. rewrite check_debug_true. cbn [bind rvalid].
        rewrite seqn0_valid by lia. now rewrite check_debug_true.
    + intros i Hi. cbn [o_lin rmap qstart qstride]. rewrite lmul_ok by (unfold LONG_MIN, LONG_MAX in *; lia). cbn [bind]. rewrite ladd_ok by (unfold LONG_MIN, LONG_MAX in *; lia). cbn [bind]. f_equal. lia.
  - intros Hn HC. unfold attach1. now rewrite seqn0_neg.
Qed.

Lemma attach2_ok m n : 0 <= m <= LONG_MAX -> 0 <= n <= LONG_MAX ->
  attach2 c m n = Ok (OS2 (O2 m n (m * n)) (RSeq (mkseqn 0 (clip m n) 1)) (RSeq (mkseqn 0 (clip n m) 1))).
Proof.
  intros Hm Hn. unfold attach2. rewrite !seqn0 by lia. cbn [bind]. unfold o_make2. cbn [o_rows o_cols rvalid]. rewrite !seqn0_valid by assumption. rewrite !check_debug_true. cbn [bind rsize qsize].
  unfold clip. destruct (Z.eqb_spec m 0) as [->|]; [destruct (Z.eqb_spec n 0) as [->|]; reflexivity|]. destruct (Z.eqb_spec n 0) as [->|]; reflexivity.
Qed.
Theorem attach2_thm m n : is_long m -> is_long n ->
  (0 <= m -> 0 <= n -> m * n <= LONG_MAX -> exists v, attach2 c m n = Ok v /\ is_two v = true /\ o_rows v = clip m n /\ o_cols v = clip n m /\ o_size v = Ok (m * n) /\
     ((m = 0 <-> n = 0) -> is_view c (m * n) v) /\
     (forall i j, 0 <= i < m -> 0 <= j < n -> o_at c v i j = Ok (i * n + j)) /\ (forall k, 0 <= k < m * n -> o_lin c v k = Ok k)) /\
  (m < 0 \/ n < 0 -> checked c = true -> attach2 c m n = Fail (report c)).
Proof.
  intros HL1 HL2. unfold is_long in *. split.
  - intros Hm Hn HP. rewrite attach2_ok by lia. eexists. split; [reflexivity|]. split; [reflexivity|]. split; [reflexivity|]. split; [reflexivity|].
    assert (forall i j, 0 <= i < m -> 0 <= j < n -> o_at c (OS2 (O2 m n (m * n)) (RSeq (mkseqn 0 (clip m n) 1)) (RSeq (mkseqn 0 (clip n m) 1))) i j = Ok (i * n + j)) as HA.
    { intros i j Hi Hj. cbn [o_at rmap qstart qstride]. assert (0 <= i * n /\ i * n + j < m * n) as HB by nia. unfold LONG_MAX in *.
      do 2 (rewrite lmul_ok by (unfold LONG_MIN, LONG_MAX; lia); cbn [bind]; rewrite ladd_ok by (unfold LONG_MIN, LONG_MAX; lia); cbn [bind]).
      rewrite lmul_ok by (unfold LONG_MIN, LONG_MAX; lia); cbn [bind]; rewrite ladd_ok by (unfold LONG_MIN, LONG_MAX; lia). f_equal. lia. }
    split; [|split; [|split; [exact HA|]]].
    + cbn [o_size rsize qsize]. unfold clip. destruct (Z.eqb_spec n 0) as [->|]; [rewrite lmul_ok; [f_equal; destruct (m =? 0); lia|destruct (m =? 0); unfold LONG_MIN, LONG_MAX; lia]|].
      destruct (Z.eqb_spec m 0) as [->|]; rewrite lmul_ok; [reflexivity|unfold LONG_MIN, LONG_MAX; lia|reflexivity|unfold LONG_MIN; nia].
    + intros HE. exists (O2 m n (m * n)), (whole2 m n), [VwSlice2 (SeqN 0 m 1) (SeqN 0 n 1)].
      assert (root (O2 m n (m * n)) (whole2 m n) (m * n)) as HR by (right; exists m, n; repeat split; auto; lia).
      split; [exact HR|].
      assert (wfm (chunks m n (all_positions (m * n))) /\ zlen (chunks m n (all_positions (m * n))) = m /\ ncols (chunks m n (all_positions (m * n))) = n) as (HW & EZ & EC).
      { pose proof (whole2_den c m n Hm Hn HE HP) as (_ & HW & _ & E1 & E2 & _). cbn [o_rows o_cols] in E1, E2. auto. }
      split.
      * unfold whole2. cbn [chain_ok]. split; [reflexivity|]. cbn [vop_fits vop_ok den_apply]. rewrite EZ, EC. cbn [positions]. unfold all_positions. rewrite !zlen_map, !zlen_zseq, !Z2Nat.id by lia.
        split; [|split; [split; apply seq_acc; lia|exact I]]. split; [unfold args_long, is_long, LONG_MIN, LONG_MAX in *; lia|]. split; [apply seq_noov; lia|]. split; [unfold args_long, is_long, LONG_MIN, LONG_MAX in *; lia|]. split; [apply seq_noov; lia|assumption].
      * cbn [o_chain o_apply is_two]. unfold o_slice2. cbn [slice_ctor]. change (-1 <? 0) with true. replace (-1 <? m) with true by lia. replace (-1 <? n) with true by lia. rewrite !check_debug_true. cbn [bind].
        unfold o_resolve2. cbn [o_size o_rows o_cols bind slice_resolve]. rewrite !seqn0 by assumption. cbn [bind]. rewrite !seqn0_valid by lia. rewrite !check_debug_true. cbn [bind fst snd].
        pose proof (attach2_ok m n) as E. unfold attach2 in E. rewrite !seqn0 in E by lia. cbn [bind] in E. rewrite E by lia. reflexivity.
    + intros k Hk. assert (0 < n) by nia. assert (0 < m) by nia. unfold LONG_MAX in *.
      assert (0 <= k / n < m) as Hi by (split; [apply Z.div_pos; lia|apply Z.div_lt_upper_bound; lia]). assert (0 <= k mod n < n) as Hj by (apply Z.mod_pos_bound; lia).
      pose proof (Z.div_mod k n) as E. rewrite (Z.mul_comm n) in E. specialize (HA _ _ Hi Hj). rewrite <- E in HA by lia. rewrite <- HA.
      cbn [o_lin rsize qsize]. replace (clip n m) with n at 1 by (unfold clip; now replace (m =? 0) with false by lia).
      rewrite E at 1 by lia. rewrite index_map_ok by (unfold LONG_MAX; lia). reflexivity.
  - intros HN HC. unfold attach2. destruct (Z.ltb_spec m 0); [now rewrite seqn0_neg|]. rewrite seqn0 by assumption. cbn [bind]. rewrite seqn0_neg by (auto; lia). reflexivity.
Qed.

(** Access through a view of the attached memory. *)
Theorem ptr1_thm {V} N v n ix (mem : list V) base : is_view c N v -> o_size v = Ok n -> idx_fits n ix -> 0 <= base -> base + N <= zlen mem ->
  let i := denotes n ix in
  (0 <= i < n -> exists p x, o_lin c v i = Ok p /\ 0 <= p < N /\ znth mem (base + p) = Some x /\ ptr_read1 c mem base v ix = Ok x /\
     forall y, exists mem', ptr_write1 c mem base v ix y = Ok mem' /\ zlen mem' = zlen mem /\
       forall q, znth mem' q = if q =? base + p then Some y else znth mem q) /\
  (~ 0 <= i < n -> checked c = true -> ptr_read1 c mem base v ix = Fail (report c) /\ forall y, ptr_write1 c mem base v ix y = Fail (report c)).
Proof.
  intros HV HS HF HB HN i. destruct (view_size _ _ _ HV) as (n' & E' & Hn'). rewrite HS in E'. injection E' as <-. destruct (view_known _ _ _ HV) as [d KO].
  unfold ptr_read1, ptr_write1, o_ref1. rewrite HS. cbn [bind]. rewrite idx_get_ok by auto. fold i. cbn [bind]. split.
  - intros Hi. destruct (lin_known _ _ _ d i n KO HS Hi) as (p & E & R & L). destruct (znth_some mem (base + p)) as [x Ex]; [lia|]. exists p, x.
    replace (valid_index n i) with true by (unfold valid_index; lia). rewrite check_debug_true. cbn [bind]. rewrite L. cbn [bind]. repeat (split; [auto|]).
    + now apply oget_ok.
    + intros y. unfold ptr_set. rewrite oset_ok by lia. eexists. split; [reflexivity|]. rewrite zlen_zupd. split; [reflexivity|]. intros q. apply znth_zupd. lia.
  - intros Hi Hk. replace (valid_index n i) with false by (unfold valid_index; lia). now rewrite check_debug_false.
Qed.
Theorem ptr2_thm {V} N v ix jx (mem : list V) base : is_view c N v -> is_two v = true -> idx_fits (o_rows v) ix -> idx_fits (o_cols v) jx -> 0 <= base -> base + N <= zlen mem ->
  let i := denotes (o_rows v) ix in let j := denotes (o_cols v) jx in let inside := 0 <= i < o_rows v /\ 0 <= j < o_cols v in
  (inside -> exists p x, o_at c v i j = Ok p /\ 0 <= p < N /\ znth mem (base + p) = Some x /\ ptr_read2 c mem base v ix jx = Ok x /\
     forall y, exists mem', ptr_write2 c mem base v ix jx y = Ok mem' /\ zlen mem' = zlen mem /\
       forall q, znth mem' q = if q =? base + p then Some y else znth mem q) /\
  (~ inside -> checked c = true -> ptr_read2 c mem base v ix jx = Fail (report c) /\ forall y, ptr_write2 c mem base v ix jx y = Fail (report c)).
Proof.
  intros HV HT F1 F2 HB HN i j inside. pose proof (view_dims _ _ _ HV HT) as (B1 & B2 & _). destruct (known2 _ _ _ HV HT) as (P & KO & ER & EC).
  unfold ptr_read2, ptr_write2, o_ref2. rewrite !idx_get_ok by auto. fold i j. cbn [bind]. split.
  - intros [Hi Hj]. destruct (known_at _ _ _ P i j KO Hi Hj) as (p & E & R & L). destruct (znth_some mem (base + p)) as [x Ex]; [lia|]. exists p, x.
    replace (Array2D.valid_index2 _ _ i j) with true by (unfold Array2D.valid_index2, valid_row, valid_col; lia). rewrite check_debug_true. cbn [bind]. rewrite L. cbn [bind]. repeat (split; [auto|]).
    + now apply oget_ok.
    + intros y. unfold ptr_set. rewrite oset_ok by lia. eexists. split; [reflexivity|]. rewrite zlen_zupd. split; [reflexivity|]. intros q. apply znth_zupd. lia.
  - intros Hi Hk. replace (Array2D.valid_index2 _ _ i j) with false by (unfold Array2D.valid_index2, valid_row, valid_col, inside in *; lia). now rewrite check_debug_false.
Qed.
(** Two attached arrays over the same memory. *)
Theorem alias_thm {V} n1 n2 v1 v2 i j (mem : list V) b1 b2 y : 0 <= n1 <= LONG_MAX -> 0 <= n2 <= LONG_MAX -> attach1 c n1 = Ok v1 -> attach1 c n2 = Ok v2 ->
  0 <= b1 -> b1 + n1 <= zlen mem -> 0 <= b2 -> b2 + n2 <= zlen mem -> 0 <= i < n1 -> 0 <= j < n2 ->
  exists mem', ptr_write1 c mem b1 v1 (Plain i) y = Ok mem' /\
    ptr_read1 c mem' b2 v2 (Plain j) = if b1 + i =? b2 + j then Ok y else ptr_read1 c mem b2 v2 (Plain j).
Proof.
  intros L1 L2 E1 E2 B1 B1' B2 B2' Hi Hj. assert (is_long n1 /\ is_long n2) as [I1 I2] by (unfold is_long, LONG_MIN in *; lia).
  destruct (attach1_thm n1 I1) as [A1 _]. destruct (attach1_thm n2 I2) as [A2 _].
  destruct A1 as (w1 & F1 & V1 & _ & S1 & P1); [lia|]. destruct A2 as (w2 & F2 & V2 & _ & S2 & P2); [lia|]. rewrite E1 in F1. injection F1 as <-. rewrite E2 in F2. injection F2 as <-.
  assert (idx_fits n1 (Plain i) /\ idx_fits n2 (Plain j)) as [X1 X2] by (unfold LONG_MAX in *; cbn; unfold is_long, LONG_MIN, LONG_MAX; lia).
  destruct (ptr1_thm n1 v1 n1 (Plain i) mem b1) as [T1 _]; auto. cbn [denotes] in T1. destruct (T1 Hi) as (p & x & Lp & _ & _ & _ & W). rewrite P1 in Lp by assumption. injection Lp as <-.
  destruct (W y) as (mem' & -> & Z' & N'). exists mem'. split; [reflexivity|].
  destruct (ptr1_thm n2 v2 n2 (Plain j) mem b2) as [T2 _]; auto. destruct (ptr1_thm n2 v2 n2 (Plain j) mem' b2) as [T3 _]; auto; [lia|]. cbn [denotes] in T2, T3.
  destruct (T2 Hj) as (q & x2 & Lq & _ & G2 & R2 & _). destruct (T3 Hj) as (r & x3 & Lr & _ & G3 & R3 & _). rewrite P2 in Lq, Lr by assumption. injection Lq as <-. injection Lr as <-.
  rewrite R2, R3. rewrite N' in G3. rewrite (Z.eqb_sym (b1 + i)). destruct (b2 + j =? b1 + i); congruence.
Qed.
End T.

(** After attaching, any chain of view operations, valid or not, stays inside the window. *)
Theorem attach_safe_thm {V} c n ws (mem : list V) base v : checked c = true -> 0 <= n <= LONG_MAX -> attach1 c n = Ok v ->
  (forall d, o_denotes c v d -> chain_fits d ws) -> 0 <= base -> base + n <= zlen mem ->
  o_chain c v ws = Fail (report c) \/
  exists w, o_chain c v ws = Ok w /\
    (forall ix k, o_size w = Ok k -> idx_fits k ix ->
       ptr_read1 c mem base w ix = Fail (report c) \/ exists p, 0 <= p < n /\ ptr_read1 c mem base w ix = oget mem (base + p) /\ oget mem (base + p) <> UB) /\
    (forall ix jx, is_two w = true -> idx_fits (o_rows w) ix -> idx_fits (o_cols w) jx ->
       ptr_read2 c mem base w ix jx = Fail (report c) \/ exists p, 0 <= p < n /\ ptr_read2 c mem base w ix jx = oget mem (base + p) /\ oget mem (base + p) <> UB).
Proof.
  intros HC Hn E HF HB HM. assert (is_long n) as HL by (unfold is_long, LONG_MIN in *; lia).
  destruct (attach1_thm c n HL) as [A _]. destruct A as (v' & E' & HV & _); [lia|]. rewrite E in E'. injection E' as <-.
  destruct (access_thm c n HC v ws HV HF) as [H|(w & Ew & Vw & R1 & R2)]; [now left|right]. exists w. split; [assumption|].
  assert (forall p, 0 <= p < n -> oget mem (base + p) <> UB) as HO by (intros p Hp; destruct (znth_some mem (base + p)) as [x Ex]; [lia|]; now rewrite (oget_ok _ _ _ Ex)).
  split.
  - intros ix k Hk Hix. destruct (R1 ix k Hk Hix) as [[H|(p & H & Hp)] _]; unfold ptr_read1; rewrite H; cbn [bind]; [now left|right]. exists p. split; [assumption|]. split; [reflexivity|auto].
  - intros ix jx HT F1 F2. destruct (R2 ix jx HT F1 F2) as [[H|(p & H & Hp)] _]; unfold ptr_read2; rewrite H; cbn [bind]; [now left|right]. exists p. split; [assumption|]. split; [reflexivity|auto].
Qed.
