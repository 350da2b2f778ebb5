(** Final forms of the slice theorems. *)
From Coq Require Import Sorting.Sorted.
From Verif Require Import Base.Outcome Base.ZList Model.Index Model.Array1D Model.Slice.
From Verif Require Import Spec.ArraySpec Spec.SliceSpec Spec.Configs.
From Verif Require Import Proofs.Array1DProofs Proofs.SliceProofs Proofs.ViewProofs.
Ltac Zify.zify_post_hook ::= Z.div_mod_to_equations.

Lemma seqn_valid_thm c v start size stride :
  0 <= view_size v <= LONG_MAX -> is_long start -> is_long size -> is_long stride ->
  0 <= start -> 0 <= size -> (forall i, 0 <= i < size -> 0 <= start + i * stride < view_size v) ->
  exists r, view_slice c v (SeqN start size stride) = Ok (VSlice v r) /\ rsize r = size /\
    forall i, 0 <= i < size -> rmap r i = Ok (start + i * stride).
Proof.
  intros Hn H1 H2 H3 Ha Hb H. 
  assert (view_slice c v (SeqN start size stride) = Ok (VSlice v (RSeq (mkseqn start size stride)))) as E.
  { unfold view_slice. cbn [slice_resolve]. rewrite make_seqn_ok by lia. cbn [bind rvalid].
    unfold is_long in H2. rewrite seqn_valid_ok by (auto; lia). rewrite check_debug_true. cbn [bind rvalid].
    rewrite seqn_valid_ok by (auto; lia). now rewrite check_debug_true. }
  eexists. split; [exact E|]. split; [reflexivity|]. intros i Hi. apply (rmap_seq (view_size v)); auto. lia.
Qed.
Lemma seqn_invalid_thm c v start size stride :
  0 <= view_size v <= LONG_MAX -> is_long start -> is_long size -> is_long stride -> checked c = true ->
  ~ (0 <= start /\ 0 <= size /\ forall i, 0 <= i < size -> 0 <= start + i * stride < view_size v) ->
  (0 <= start -> 0 < size -> is_long (stride * (size - 1)) /\ is_long (start + stride * (size - 1))) ->
  view_slice c v (SeqN start size stride) = Fail (report c).
Proof. intros Hn H1 H2 H3 Hk Ha Ho. apply view_slice_bad; simpl; auto. Qed.
Lemma seqn_overflow_thm c v start size stride :
  0 <= view_size v <= LONG_MAX -> is_long start -> is_long size -> is_long stride -> checked c = true ->
  0 <= start -> 0 < size -> ~ (is_long (stride * (size - 1)) /\ is_long (start + stride * (size - 1))) ->
  view_slice c v (SeqN start size stride) = UB.
Proof. intros Hn H1 H2 H3 Hk Ha Hb Ho. apply view_slice_overflow; simpl; auto. Qed.

Lemma seq_valid_thm c v first last stride :
  0 <= view_size v <= LONG_MAX -> is_long stride ->
  0 <= first < view_size v -> 0 <= last < view_size v ->
  (stride > 0 /\ first <= last \/ stride < 0 /\ last <= first \/ stride = 0 /\ first = last) ->
  exists r, view_slice c v (Seq first last stride) = Ok (VSlice v r) /\ 1 <= rsize r /\
    (forall i, 0 <= i < rsize r -> rmap r i = Ok (first + i * stride) /\
       0 <= first + i * stride < view_size v /\ Z.min first last <= first + i * stride <= Z.max first last) /\
    (forall p k, 0 <= k -> p = first + k * stride -> Z.min first last <= p <= Z.max first last ->
       stride = 0 \/ k < rsize r).
Proof.
  intros Hn Hs Hf Hl H. destruct (view_slice_ok c v (Seq first last stride)) as (r & E & Hr & Hm); cbn [args_long acceptable no_overflow]; auto.
  { unfold is_long in *. unfold LONG_MIN, LONG_MAX in *. repeat split; lia. }
  exists r. split; [exact E|]. cbn [positions] in Hr, Hm.
  destruct H as [[Hd H]|[[Hd H]|[Hd H]]].
  - replace (0 <? stride) with true in * by lia. rewrite seq_up_positions in Hr, Hm by lia.
    pose proof (Z.div_pos (last - first) stride ltac:(lia) ltac:(lia)) as Q0.
    assert (rsize r = (last - first) / stride + 1) as ER.
    { rewrite Hr. unfold all_positions. rewrite zlen_map, zlen_zseq. clear - Q0. lia. }
    split; [clear - ER Q0; lia|]. split.
    + intros i Hi. rewrite <- Hr in Hm. rewrite Hm by assumption. unfold oget, all_positions.
      rewrite ER in Hi. rewrite znth_map_zseq by (clear - Hi; lia). split; [reflexivity|].
      assert (i * stride <= last - first) by (apply quot_step; lia || (clear - Hi; lia)).
      assert (0 <= i * stride) by (clear - Hi Hd; nia). clear Q0 ER Hi Hm Hr. lia.
    + intros p k Hk -> Hp. right. rewrite ER. apply quot_step; try lia; clear Q0 ER Hm Hr; lia.
  - replace (0 <? stride) with false in * by lia. replace (stride <? 0) with true in * by lia.
    rewrite seq_down_positions in Hr, Hm by lia.
    pose proof (Z.div_pos (first - last) (- stride) ltac:(lia) ltac:(lia)) as Q0.
    assert (rsize r = (first - last) / - stride + 1) as ER.
    { rewrite Hr. unfold all_positions. rewrite zlen_map, zlen_zseq. clear - Q0. lia. }
    split; [clear - ER Q0; lia|]. split.
    + intros i Hi. rewrite <- Hr in Hm. rewrite Hm by assumption. unfold oget, all_positions.
      rewrite ER in Hi. rewrite znth_map_zseq by (clear - Hi; lia). split; [reflexivity|].
      assert (i * - stride <= first - last) by (apply quot_step; lia || (clear - Hi; lia)).
      assert (0 <= i * - stride) by (clear - Hi Hd; nia). clear Q0 ER Hi Hm Hr. lia.
    + intros p k Hk -> Hp. right. rewrite ER. apply quot_step; try lia; clear Q0 ER Hm Hr; lia.
  - subst stride last. cbn [Z.ltb Z.compare] in Hr, Hm. unfold zlen in Hr. simpl in Hr. rewrite Hr. split; [lia|]. split.
    + intros i Hi. assert (i = 0) as -> by lia. rewrite Hm by (unfold zlen; simpl; lia). 
      split; [unfold oget; simpl; f_equal; lia|lia].
    + intros; now left.
Qed.
Lemma seq_invalid_thm c v first last stride :
  0 <= view_size v <= LONG_MAX -> is_long first -> is_long last -> is_long stride -> checked c = true ->
  ~ (0 <= first < view_size v /\ 0 <= last < view_size v /\
     (stride > 0 /\ first <= last \/ stride < 0 /\ last <= first \/ stride = 0 /\ first = last)) ->
  view_slice c v (Seq first last stride) = Fail (report c).
Proof. intros. apply view_slice_bad; simpl; auto. Qed.

Lemma placeholders_thm c v s :
  0 <= view_size v <= LONG_MAX -> args_long s -> acceptable (view_size v) s -> no_overflow (view_size v) s ->
  exists r, view_slice c v s = Ok (VSlice v r) /\ addresses r (positions (view_size v) s) /\
    Forall (fun p => 0 <= p < view_size v) (positions (view_size v) s).
Proof.
  intros Hn HA Hacc Hno. destruct (view_slice_ok c v s) as (r & E & Hr); auto. exists r. split; [exact E|]. split; [exact Hr|].
  apply positions_in_range; [lia|assumption].
Qed.
Lemma skip_overflow_thm c v k :
  0 <= view_size v <= LONG_MAX -> is_long k -> 0 < k -> LONG_MAX < view_size v + k -> view_slice c v (SkipN k) = UB.
Proof. intros. apply view_slice_overflow; simpl; auto. lia. Qed.

Lemma znth_pick_affine {V} (l : list V) a d m i : 0 <= m -> (forall j, 0 <= j < m -> 0 <= a + j * d < zlen l) -> 0 <= i ->
  znth (pick l (map (fun i => a + i * d) (all_positions m))) i = if i <? m then znth l (a + i * d) else None.
Proof.
  intros Hm H Hi. rewrite znth_pick.
  - destruct (Z.ltb_spec i m).
    + unfold all_positions. rewrite znth_map_zseq by lia. reflexivity.
    + rewrite znth_none; [reflexivity|]. unfold all_positions. rewrite zlen_map, zlen_zseq. lia.
  - apply Forall_forall. intros p Hp. apply in_map_iff in Hp as (j & <- & Hj). apply in_zseq in Hj. apply H. lia.
Qed.

Lemma placeholder_laws (V : Type) (l : list V) :
  let n := zlen l in
  pick l (positions n All) = l /\
  pick l (positions n Reverse) = rev l /\
  (forall k, 0 <= k <= n -> pick l (positions n (FirstN k)) = firstn (Z.to_nat k) l /\
                            pick l (positions n (LastN (n - k))) = skipn (Z.to_nat k) l) /\
  (forall p, 0 <= p < n -> In p (positions n Even) \/ In p (positions n Odd)) /\
  (forall p, In p (positions n Even) -> In p (positions n Odd) -> False) /\
  (forall i, 0 <= i -> znth (pick l (positions n Even)) i = znth l (2 * i) /\
                       znth (pick l (positions n Odd)) i = znth l (2 * i + 1)) /\
  (forall k i, 0 < k -> 0 <= i -> znth (pick l (positions n (SkipN k))) i = znth l (k * i)).
Proof.
  intros n. pose proof (zlen_nonneg l) as Hn. fold n in Hn. cbn [positions]. repeat split.
  - rewrite all_positions_affine. apply list_ext_znth. intros i Hi. rewrite znth_pick_affine by (fold n; auto; lia).
    destruct (Z.ltb_spec i n); [f_equal; lia|]. rewrite znth_none; auto. fold n. lia.
  - rewrite reverse_positions by lia. apply list_ext_znth. intros i Hi. rewrite znth_pick_affine by (fold n; auto; lia).
    destruct (Z.ltb_spec i n).
    + rewrite znth_rev by (fold n; lia). fold n. f_equal. lia.
    + rewrite znth_none; auto. rewrite zlen_rev. fold n. lia.
  - rewrite first_positions by lia. apply list_ext_znth. intros i Hi. rewrite znth_pick_affine by (fold n; auto; lia).
    rewrite znth_firstn by lia. destruct (i <? k); [f_equal; lia|reflexivity].
  - rewrite last_positions by lia. apply list_ext_znth. intros i Hi. rewrite znth_pick_affine by (fold n; auto; lia).
    rewrite znth_skipn by lia. destruct (Z.ltb_spec i (n - k)); [f_equal; lia|]. rewrite znth_none; auto. fold n. lia.
  - intros p Hp. rewrite !filter_In. unfold all_positions. rewrite in_zseq. rewrite <- Z.negb_even.
    destruct (Z.even p) eqn:E; [left|right]; split; auto; lia.
  - intros p H1 H2. apply filter_In in H1 as [_ H1]. apply filter_In in H2 as [_ H2]. rewrite <- Z.negb_even, H1 in H2. discriminate.
  - rewrite even_positions by lia. rewrite znth_pick_affine by (fold n; auto; lia).
    destruct (Z.ltb_spec i ((n + 1) / 2)); [f_equal; lia|]. symmetry. apply znth_none. fold n. lia.
  - rewrite odd_positions by lia. rewrite znth_pick_affine by (fold n; auto; lia).
    destruct (Z.ltb_spec i (n / 2)); [f_equal; lia|]. symmetry. apply znth_none. fold n. lia.
  - intros k i Hk Hi. rewrite skip_positions by lia.
    pose proof (Z.div_pos (n + k - 1) k ltac:(lia) ltac:(lia)) as Q0.
    rewrite znth_pick_affine; [|assumption| |assumption].
    + destruct (Z.ltb_spec i ((n + k - 1) / k)) as [H|H]; [f_equal; clear; lia|].
      symmetry. apply znth_none. fold n. intros [H1 H2].
      assert (i < (n + k - 1) / k) by (apply ceil_div_spec; clear Q0 H; lia). clear - H H0. lia.
    + intros j Hj. fold n. assert (j * k < n) by (apply ceil_div_spec; [assumption|clear - Hj; lia]). clear Q0. nia.
Qed.

Lemma vector_thm c v w : 0 <= view_size v <= LONG_MAX ->
  (Forall (fun p => 0 <= p < view_size v) w -> view_slice c v (Vec w) = Ok (VSlice v (RVec w))) /\
  (~ Forall (fun p => 0 <= p < view_size v) w -> checked c = true -> view_slice c v (Vec w) = Fail (report c)) /\
  (forall i, rmap (RVec w) i = oget w i) /\ rsize (RVec w) = zlen w.
Proof.
  intros Hn. split; [|split; [|split; reflexivity]].
  - intros H. unfold view_slice. cbn [slice_resolve bind rvalid]. apply forall_valid_index in H. rewrite H.
    now rewrite check_debug_true.
  - intros H Hk. apply view_slice_bad; simpl; auto.
Qed.

Lemma filter_partition_length {B} (f : B -> bool) l : (length (filter f l) + length (filter (fun x => negb (f x)) l) = length l)%nat.
Proof. induction l as [|a l IH]; simpl; [reflexivity|]. destruct (f a); simpl; lia. Qed.

Lemma complement_thm c v w : 0 <= view_size v <= LONG_MAX ->
  (StronglySorted Z.lt w -> Forall (fun p => 0 <= p < view_size v) w ->
     exists u, view_slice c v (Compl w) = Ok (VSlice v (RVec u)) /\ StronglySorted Z.lt u /\
       (forall p, In p u <-> 0 <= p < view_size v /\ ~ In p w) /\ zlen u + zlen w = view_size v) /\
  (~ (StronglySorted Z.lt w /\ Forall (fun p => 0 <= p < view_size v) w) -> checked c = true ->
     view_slice c v (Compl w) = Fail (report c)).
Proof.
  intros Hn. split.
  - intros HS HF. set (n := view_size v) in *.
    set (u := filter (fun p => negb (existsb (Z.eqb p) w)) (all_positions n)).
    assert (forall p, existsb (Z.eqb p) w = true <-> In p w) as EX.
    { intros p. rewrite existsb_exists. split; [intros (y & Hy & E); now apply Z.eqb_eq in E as ->|intros H; exists p; split; [auto|lia]]. }
    assert (forall p, In p u <-> 0 <= p < n /\ ~ In p w) as HI.
    { intros p. unfold u. rewrite filter_In. unfold all_positions. rewrite in_zseq, <- EX. destruct (existsb (Z.eqb p) w); simpl; split; intros; intuition (congruence || lia). }
    exists u. split; [|split; [|split]].
    + unfold view_slice. cbn [slice_resolve]. fold n. rewrite complement_index_vector_ok by (auto; lia). cbn [bind rvalid].
      fold u. assert (valid_slice_vector n u = true) as ->.
      { apply forall_valid_index, Forall_forall. intros p Hp. apply HI in Hp. tauto. }
      now rewrite check_debug_true.
    + apply sorted_filter, sorted_zseq.
    + exact HI.
    + assert (w = filter (fun p => existsb (Z.eqb p) w) (all_positions n)) as EW.
      { apply sorted_ext; auto; [apply sorted_filter, sorted_zseq|]. intros p. rewrite filter_In, EX. unfold all_positions.
        rewrite in_zseq. rewrite Forall_forall in HF. split; [intros H; specialize (HF p H); split; [lia|auto]|tauto]. }
      pose proof (filter_partition_length (fun p => existsb (Z.eqb p) w) (all_positions n)) as FP.
      rewrite <- EW in FP. fold u in FP. unfold zlen, all_positions in *. rewrite zseq_length in FP. lia.
  - intros H Hk. apply view_slice_bad; simpl; auto.
Qed.

Lemma last_thm n k ix : 0 <= n <= LONG_MAX -> is_long k ->
  (last_minus place_last k = Ok ix -> denotes n ix = n - 1 - k) /\
  (k <> LONG_MIN -> last_plus place_last k = Ok ix -> denotes n ix = n - 1 + k).
Proof. intros. split; intros; [now apply last_minus_denotes|now apply last_plus_denotes]. Qed.

Lemma indexing_thm {V : Type} c (A : src1 V) l ix :
  produces A l -> zlen l <= LONG_MAX -> idx_fits (zlen l) ix ->
  let p := denotes (zlen l) ix in
  (forall x, znth l p = Some x -> sub1 c A ix = Ok x /\ at1 c A ix = Ok x /\ un1 A ix = Ok x) /\
  (~ 0 <= p < zlen l ->
     (checked c = true -> sub1 c A ix = Fail (report c)) /\
     (exc c || negb (ndbg c) = true -> at1 c A ix = Fail (report c))).
Proof.
  intros HA HL Hf p. split.
  - intros x Hx. split; [eapply sub1_ok; eauto|]. split; [eapply at1_ok; eauto|].
    unfold un1. destruct HA as [Hs HA]. rewrite Hs. pose proof (zlen_nonneg l).
    rewrite idx_get_ok by (auto; lia). cbn [bind]. rewrite HA by now apply znth_lt in Hx. now apply oget_ok.
  - intros Hp. split; intros; [eapply sub1_bad; eauto|eapply at1_bad; eauto].
Qed.

Lemma nested_slices_thm {V : Type} c (b : list V) ss :
  zlen b <= LONG_MAX -> all_acceptable (all_positions (zlen b)) ss ->
  let ps := compose (all_positions (zlen b)) ss in
  exists v, view_slices c (VBase (zlen b)) ss = Ok v /\ view_size v = zlen ps /\
    Forall (fun p => 0 <= p < zlen b) ps /\
    forall i p, znth ps i = Some p ->
      view_un v b i = oget b p /\
      forall x, exists b', view_set v b i x = Ok b' /\ zlen b' = zlen b /\
        forall k, znth b' k = if k =? p then Some x else znth b k.
Proof.
  intros HL Hacc ps. pose proof (zlen_nonneg b) as Hnn.
  assert (zlen (all_positions (zlen b)) = zlen b) as LA by (unfold all_positions; rewrite zlen_zseq; lia).
  destruct (view_slices_ok c (VBase (zlen b)) (all_positions (zlen b)) ss) as (v & E & Hv); auto.
  { now apply view_base. } { lia. }
  exists v. split; [exact E|]. split; [apply Hv|].
  assert (Forall (fun p => 0 <= p < zlen b) ps) as HF by (apply compose_in_range; auto; now apply all_in_range).
  split; [exact HF|]. intros i p Hp. split; [eapply view_un_ok; eauto|]. intros x.
  rewrite Forall_forall in HF. pose proof (HF p (znth_in _ _ _ Hp)) as Rp.
  exists (zupd b p x). split; [eapply view_set_ok; eauto|]. split; [apply zlen_zupd|]. intros k. now apply znth_zupd.
Qed.

Lemma slices_views {V : Type} c (b : list V) ss v :
  zlen b <= LONG_MAX -> all_acceptable (all_positions (zlen b)) ss ->
  view_slices c (VBase (zlen b)) ss = Ok v ->
  view_addresses v (compose (all_positions (zlen b)) ss) /\
  Forall (fun p => 0 <= p < zlen b) (compose (all_positions (zlen b)) ss).
Proof.
  intros HL Hacc E. pose proof (zlen_nonneg b) as Hnn.
  assert (zlen (all_positions (zlen b)) = zlen b) as LA by (unfold all_positions; rewrite zlen_zseq; lia).
  destruct (view_slices_ok c (VBase (zlen b)) (all_positions (zlen b)) ss) as (v' & E' & Hv); auto.
  { now apply view_base. } { lia. }
  rewrite E in E'. injection E' as <-. split; auto. apply compose_in_range; auto; now apply all_in_range.
Qed.

Lemma nested_access_thm {V : Type} c (b : list V) ss v ix :
  zlen b <= LONG_MAX -> all_acceptable (all_positions (zlen b)) ss ->
  view_slices c (VBase (zlen b)) ss = Ok v ->
  let ps := compose (all_positions (zlen b)) ss in
  zlen ps <= LONG_MAX -> idx_fits (zlen ps) ix ->
  (forall p, znth ps (denotes (zlen ps) ix) = Some p ->
     view_sub c v b ix = oget b p /\ forall x, view_write c v b ix x = Ok (zupd b p x)) /\
  (~ 0 <= denotes (zlen ps) ix < zlen ps -> checked c = true ->
     view_sub c v b ix = Fail (report c) /\ forall x, view_write c v b ix x = Fail (report c)).
Proof.
  intros HL Hacc E ps HLp Hf. destruct (slices_views c b ss v HL Hacc E) as [Hv HF]. fold ps in Hv, HF. split.
  - intros p Hp. rewrite Forall_forall in HF. pose proof (HF p (znth_in _ _ _ Hp)) as Rp.
    destruct (znth_some b p Rp) as [x0 _]. split.
    + eapply (view_sub_spec c v ps b ix p x0); eauto.
    + intros x. eapply (view_sub_spec c v ps b ix p x); eauto.
  - intros Hp Hk. split; [|intros x].
    + destruct b as [|x0 b]. 
      * unfold view_sub. rewrite (proj1 Hv), idx_get_ok by (auto; pose proof (zlen_nonneg ps); lia). cbn [bind].
        unfold valid_index. replace ((-1 <? _) && _) with false by lia. now rewrite check_debug_false.
      * eapply (view_sub_bad c v ps (x0 :: b) ix x0); eauto.
    + eapply (view_sub_bad c v ps b ix x); eauto.
Qed.

Lemma chain_rejected_thm c n ss s ss' :
  0 <= n <= LONG_MAX -> checked c = true -> all_acceptable (all_positions n) ss ->
  let m := zlen (compose (all_positions n) ss) in
  m <= LONG_MAX -> args_long s -> ~ acceptable m s -> no_overflow m s ->
  view_slices c (VBase n) (ss ++ s :: ss') = Fail (report c).
Proof.
  intros Hn Hk Hacc m Hm HA Hbad Hno.
  assert (zlen (all_positions n) = n) as LA by (unfold all_positions; rewrite zlen_zseq; lia).
  destruct (view_slices_ok c (VBase n) (all_positions n) ss) as (v & E & Hv); auto.
  { apply view_base. lia. } { lia. }
  rewrite view_slices_app, E. cbn [bind view_slices]. destruct Hv as [Hs _]. fold m in Hs.
  rewrite view_slice_bad; auto; rewrite Hs; auto. pose proof (zlen_nonneg (compose (all_positions n) ss)) as H. fold m in H. lia.
Qed.

Lemma view_fill_thm {V : Type} c (b : list V) ss v x :
  zlen b <= LONG_MAX -> all_acceptable (all_positions (zlen b)) ss ->
  view_slices c (VBase (zlen b)) ss = Ok v ->
  exists b', view_fill v x b = MOk b' /\ zlen b' = zlen b /\
    forall k, 0 <= k < zlen b ->
      (In k (compose (all_positions (zlen b)) ss) -> znth b' k = Some x) /\
      (~ In k (compose (all_positions (zlen b)) ss) -> znth b' k = znth b k).
Proof.
  intros HL Hacc E. destruct (slices_views c b ss v HL Hacc E) as [Hv HF].
  set (ps := compose (all_positions (zlen b)) ss) in *. pose proof (zlen_nonneg ps).
  unfold view_fill. rewrite (proj1 Hv).
  destruct (mfor_inv (fun i b' => zlen b' = zlen b /\ forall k, 0 <= k < zlen b ->
      (forall j, 0 <= j < i -> znth ps j = Some k -> znth b' k = Some x) /\
      ((forall j, 0 <= j < i -> znth ps j <> Some k) -> znth b' k = znth b k)) 0 (zlen ps)
    (fun i b => commit b (view_set v b i x)) b) as (b' & Eb & HLb & Hb').
  - lia.
  - split; [reflexivity|]. intros k Hk. split; [intros; lia|reflexivity].
  - intros i b1 Hi [L1 HP]. destruct (znth_some ps i ltac:(lia)) as [p Hp].
    rewrite Forall_forall in HF. pose proof (HF p (znth_in _ _ _ Hp)) as Rp.
    rewrite (view_set_ok v ps b1 i p x) by (auto; lia). cbn [commit]. eexists. split; [reflexivity|].
    rewrite zlen_zupd. split; [assumption|]. intros k Hk. destruct (HP k Hk) as [HP1 HP2].
    rewrite znth_zupd by lia. split.
    + intros j Hj Hjk. destruct (Z.eqb_spec k p); [reflexivity|]. apply (HP1 j); auto.
      assert (j <> i) by congruence. lia.
    + intros Hn. destruct (Z.eqb_spec k p) as [->|Hne]; [exfalso; apply (Hn i); auto; lia|].
      apply HP2. intros j Hj. apply Hn. lia.
  - exists b'. split; [exact Eb|]. split; [exact HLb|]. intros k Hk. destruct (Hb' k Hk) as [H1 H2]. split.
    + intros Hin. apply in_znth in Hin as [j Hj]. apply (H1 j); auto. now apply znth_lt in Hj.
    + intros Hni. apply H2. intros j Hj Hjk. apply Hni. now apply znth_in in Hjk.
Qed.

Lemma snapshot_refuted : exists (b : list Z) src b',
  view_slice c_dbg (VBase (zlen b)) Reverse = Ok src /\
  view_assign_view c_dbg (VBase (zlen b)) src b = MOk b' /\ b' <> rev b.
Proof.
  exists [1; 2; 3; 4], (VSlice (VBase 4) (RSeq (mkseqn 3 4 (-1)))), [4; 3; 3; 4].
  split; [vm_compute; reflexivity|]. split; [vm_compute; reflexivity|]. discriminate.
Qed.

(** implicit_vector_sequence *)
Lemma sequence_thm c n s d : is_long n ->
  (0 <= n -> (forall i, 0 <= i < n -> is_long (i * d) /\ is_long (s + i * d)) ->
     exists v, implicit_vector_sequence c n s d = Ok v /\ zlen v = n /\ forall i, 0 <= i < n -> znth v i = Some (s + i * d)) /\
  (n < 0 -> checked c = true -> implicit_vector_sequence c n s d = Fail (report c)).
Proof.
  intros HN. unfold implicit_vector_sequence. split.
  - intros H0 HL. replace (-1 <? n) with true by lia. rewrite check_debug_true. cbn [bind]. replace (n <? 0) with false by lia.
    destruct (for_inv (fun i v => v = map (fun i => s + i * d) (zseq 0 (Z.to_nat i))) 0 n
      (fun i v => d0 <- lmul i d ;; e <- ladd s d0 ;; Ok (v ++ [e])) []) as (v & E & Hv); [lia|reflexivity| |].
    + intros i v Hi ->. destruct (HL i Hi) as [H1 H2]. rewrite lmul_ok by exact H1. cbn [bind]. rewrite ladd_ok by exact H2. cbn [bind]. eexists. split; [reflexivity|].
      replace (Z.to_nat (i + 1)) with (S (Z.to_nat i)) by lia. rewrite zseq_S, map_app. cbn [map]. now replace (0 + Z.of_nat (Z.to_nat i)) with i by lia.
    + exists v. split; [exact E|]. subst v. split; [rewrite zlen_map, zlen_zseq; lia|]. intros i Hi. rewrite znth_map_zseq by lia. reflexivity.
  - intros H0 Hk. replace (-1 <? n) with false by lia. rewrite check_debug_false by assumption. reflexivity.
Qed.
