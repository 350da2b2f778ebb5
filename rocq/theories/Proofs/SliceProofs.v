From Coq Require Import Sorting.Sorted.
From Verif Require Import Base.Outcome Base.ZList Model.Index Model.Slice Spec.SliceSpec.
From Verif Require Import Spec.ArraySpec.
Ltac Zify.zify_post_hook ::= Z.div_mod_to_equations.

(** ** Strictly sorted lists are determined by their elements *)
Lemma sorted_ext (l1 l2 : list Z) :
  StronglySorted Z.lt l1 -> StronglySorted Z.lt l2 -> (forall x, In x l1 <-> In x l2) -> l1 = l2.
Proof.
  revert l2. induction l1 as [|a l1 IH]; intros [|b l2] H1 H2 HI.
  - reflexivity.
  - exfalso. now apply (HI b); left.
  - exfalso. now apply (HI a); left.
  - apply StronglySorted_inv in H1 as [S1 F1]. apply StronglySorted_inv in H2 as [S2 F2].
    rewrite Forall_forall in F1, F2.
    assert (a = b) as <-.
    { destruct (proj1 (HI a) (or_introl eq_refl)) as [|Ha]; [congruence|].
      destruct (proj2 (HI b) (or_introl eq_refl)) as [|Hb]; [congruence|].
      apply F2 in Ha. apply F1 in Hb. lia. }
    f_equal. apply IH; auto. intros x. split; intros Hx.
    + destruct (proj1 (HI x) (or_intror Hx)) as [<-|]; auto. apply F1 in Hx. lia.
    + destruct (proj2 (HI x) (or_intror Hx)) as [<-|]; auto. apply F2 in Hx. lia.
Qed.
Lemma sorted_zseq lo k : StronglySorted Z.lt (zseq lo k).
Proof.
  revert lo. induction k; intros lo; simpl; constructor; auto.
  apply Forall_forall. intros x Hx. apply in_zseq in Hx. lia.
Qed.
Lemma sorted_filter (f : Z -> bool) l : StronglySorted Z.lt l -> StronglySorted Z.lt (filter f l).
Proof.
  induction 1 as [|a l HS IH HF]; simpl; [constructor|]. destruct (f a); auto.
  constructor; auto. rewrite Forall_forall in *. intros x Hx. apply filter_In in Hx as [Hx _]. auto.
Qed.
Lemma sorted_affine start stride lo k : 0 < stride -> StronglySorted Z.lt (map (fun i => start + i * stride) (zseq lo k)).
Proof.
  intros Hs. revert lo. induction k; intros lo; simpl; constructor; auto.
  apply Forall_forall. intros x Hx. apply in_map_iff in Hx as (i & <- & Hi). apply in_zseq in Hi. nia.
Qed.
Lemma sorted_nodup l : StronglySorted Z.lt l -> NoDup l.
Proof.
  induction 1 as [|a l HS IH HF]; constructor; auto. rewrite Forall_forall in HF. intros Ha. apply HF in Ha. lia.
Qed.

Lemma znth_rev {V} (l : list V) i : 0 <= i < zlen l -> znth (rev l) i = znth l (zlen l - 1 - i).
Proof.
  unfold znth, zlen. intros H. replace (i <? 0) with false by lia.
  replace (Z.of_nat (length l) - 1 - i <? 0) with false by lia.
  replace (Z.to_nat (Z.of_nat (length l) - 1 - i)) with (length l - S (Z.to_nat i))%nat by lia.
  assert (Z.to_nat i < length l)%nat as Hi by lia. clear H.
  destruct (nth_error (rev l) (Z.to_nat i)) eqn:E.
  - apply nth_error_nth with (d := v) in E. rewrite rev_nth in E by assumption.
    rewrite <- E. symmetry. apply nth_error_nth'. lia.
  - apply nth_error_None in E. rewrite rev_length in E. lia.
Qed.
Lemma zlen_rev {V} (l : list V) : zlen (rev l) = zlen l.
Proof. unfold zlen. now rewrite rev_length. Qed.
Lemma rev_map_zseq {B} (f : Z -> B) k :
  rev (map f (zseq 0 k)) = map (fun i => f (Z.of_nat k - 1 - i)) (zseq 0 k).
Proof.
  apply list_ext_zlen; rewrite zlen_rev, !zlen_map, !zlen_zseq; [reflexivity|].
  intros i Hi. rewrite znth_rev by (rewrite zlen_map, zlen_zseq; lia).
  rewrite zlen_map, zlen_zseq. rewrite !znth_map_zseq by lia. simpl. do 2 f_equal; lia.
Qed.

(** ** Affine slices *)
Lemma rmap_seq n start size stride i :
  n <= LONG_MAX -> (forall i, 0 <= i < size -> 0 <= start + i * stride < n) -> 0 <= i < size ->
  rmap (RSeq (mkseqn start size stride)) i = Ok (start + i * stride).
Proof.
  intros Hn H Hi. cbn [rmap qstart qstride]. pose proof (H i Hi) as Ha. pose proof (H 0 ltac:(lia)) as Hb.
  rewrite lmul_ok by (unfold LONG_MIN, LONG_MAX in *; lia). cbn [bind].
  apply ladd_ok. unfold LONG_MIN, LONG_MAX in *; lia.
Qed.


Lemma addresses_seq n start size stride :
  n <= LONG_MAX -> 0 <= size -> (forall i, 0 <= i < size -> 0 <= start + i * stride < n) ->
  addresses (RSeq (mkseqn start size stride)) (map (fun i => start + i * stride) (all_positions size)).
Proof.
  intros Hn Hs H. unfold addresses, all_positions. rewrite zlen_map, zlen_zseq. split; [simpl; lia|].
  intros i Hi. rewrite (rmap_seq n) by (auto; lia). unfold oget. rewrite znth_map_zseq by lia. reflexivity.
Qed.
Lemma addresses_vec v : addresses (RVec v) v.
Proof. split; reflexivity. Qed.

(* first and last in range imply all in range *)
Lemma affine_between n start size stride :
  0 <= start < n -> 0 <= start + stride * (size - 1) < n ->
  forall i, 0 <= i < size -> 0 <= start + i * stride < n.
Proof.
  intros H1 H2 i Hi. destruct (Z.le_gt_cases 0 stride).
  - assert (i * stride <= stride * (size - 1)) by nia. assert (0 <= i * stride) by nia. lia.
  - assert (stride * (size - 1) <= i * stride) by nia. assert (i * stride <= 0) by nia. lia.
Qed.

Lemma make_seqn_ok c a b d : 0 <= a -> 0 <= b -> make_seqn c a b d = Ok (mkseqn a b d).
Proof.
  intros. unfold make_seqn. replace (-1 <? a) with true by lia. replace (-1 <? b) with true by lia.
  rewrite check_debug_true. reflexivity.
Qed.



Lemma seqn_valid_ok n a b d : n <= LONG_MAX -> 0 <= a -> 0 <= b <= LONG_MAX ->
  (forall i, 0 <= i < b -> 0 <= a + i * d < n) -> seqn_valid n (mkseqn a b d) = Ok true.
Proof.
  intros Hn Ha Hb H. unfold seqn_valid. cbn [qsize qstart qstride].
  destruct (Z.eqb_spec b 0); [reflexivity|].
  pose proof (H 0 ltac:(lia)) as H0. pose proof (H (b - 1) ltac:(lia)) as H1.
  rewrite lsub_ok by (unfold LONG_MIN, LONG_MAX in *; lia). cbn [bind].
  rewrite lmul_ok by (unfold LONG_MIN, LONG_MAX in *; lia). cbn [bind].
  rewrite ladd_ok by (unfold LONG_MIN, LONG_MAX in *; lia). cbn [bind oand].
  unfold valid_index, oand. cbn [bind]. f_equal. lia.
Qed.

(* the exact outcome of the validity test when start and size are non-negative *)
Lemma seqn_valid_exact n a b d : 0 <= a -> 0 <= b <= LONG_MAX ->
  seqn_valid n (mkseqn a b d) =
    if b =? 0 then Ok true
    else if in_long (d * (b - 1)) && in_long (a + d * (b - 1))
         then Ok ((a <? n) && ((0 <=? a + d * (b - 1)) && (a + d * (b - 1) <? n)))
         else UB.
Proof.
  intros Ha Hb. unfold seqn_valid. cbn [qsize qstart qstride].
  destruct (Z.eqb_spec b 0); [reflexivity|].
  rewrite lsub_ok by (unfold LONG_MIN, LONG_MAX in *; lia). cbn [bind].
  unfold lmul, ladd, lret. destruct (in_long (d * (b - 1))); [cbn [bind andb]|reflexivity].
  destruct (in_long (a + d * (b - 1))); [|reflexivity]. unfold oand, valid_index. cbn [bind]. f_equal. lia.
Qed.

(** ** Placeholders as affine maps *)
Lemma even_positions n : 0 <= n -> filter Z.even (all_positions n) = map (fun i => 0 + i * 2) (all_positions ((n + 1) / 2)).
Proof.
  intros Hn. apply sorted_ext; [apply sorted_filter, sorted_zseq|apply sorted_affine; lia|].
  intros x. rewrite filter_In, in_map_iff. unfold all_positions. rewrite in_zseq. split.
  - intros [Hx E]. apply Z.even_spec in E as [k ->]. exists k. rewrite in_zseq. lia.
  - intros (k & <- & Hk). rewrite in_zseq in Hk. split; [lia|]. rewrite Z.even_spec. exists k. lia.
Qed.
Lemma odd_positions n : 0 <= n -> filter Z.odd (all_positions n) = map (fun i => 1 + i * 2) (all_positions (n / 2)).
Proof.
  intros Hn. apply sorted_ext; [apply sorted_filter, sorted_zseq|apply sorted_affine; lia|].
  intros x. rewrite filter_In, in_map_iff. unfold all_positions. rewrite in_zseq. split.
  - intros [Hx E]. apply Z.odd_spec in E as [k ->]. exists k. rewrite in_zseq. lia.
  - intros (k & <- & Hk). rewrite in_zseq in Hk. split; [lia|]. rewrite Z.odd_spec. exists k. lia.
Qed.
Lemma ceil_div_spec n k x : 0 < k -> x < (n + k - 1) / k <-> x * k < n.
Proof.
  intros Hk. pose proof (Z.div_mod (n + k - 1) k ltac:(lia)) as E. pose proof (Z.mod_pos_bound (n + k - 1) k Hk) as B.
  split; intros H; nia.
Qed.
Lemma skip_positions n k : 0 <= n -> 0 < k ->
  filter (fun p => p mod k =? 0) (all_positions n) = map (fun i => 0 + i * k) (all_positions ((n + k - 1) / k)).
Proof.
  intros Hn Hk. apply sorted_ext; [apply sorted_filter, sorted_zseq|apply sorted_affine; lia|].
  intros x. rewrite filter_In, in_map_iff. unfold all_positions. rewrite in_zseq. split.
  - intros [Hx E]. apply Z.eqb_eq in E. exists (x / k).
    pose proof (Z.div_mod x k ltac:(lia)) as D. split; [lia|]. rewrite in_zseq.
    pose proof (Z.div_pos x k ltac:(lia) Hk). pose proof (proj2 (ceil_div_spec n k (x / k) Hk) ltac:(lia)). clear - H H0. lia.
  - intros (i & <- & Hi). rewrite in_zseq in Hi.
    assert (i < (n + k - 1) / k) as H1 by (clear - Hi; lia). apply ceil_div_spec in H1; [|assumption].
    split; [clear - H1 Hi Hk; nia|]. rewrite Z.add_0_l, Z.mod_mul by lia. reflexivity.
Qed.
Lemma first_positions n m : 0 <= m <= n ->
  filter (fun p => p <? m) (all_positions n) = map (fun i => 0 + i * 1) (all_positions m).
Proof.
  intros Hn. apply sorted_ext; [apply sorted_filter, sorted_zseq|apply sorted_affine; lia|].
  intros x. rewrite filter_In, in_map_iff. unfold all_positions. rewrite in_zseq. split.
  - intros [Hx E]. exists x. rewrite in_zseq. lia.
  - intros (k & <- & Hk). rewrite in_zseq in Hk. lia.
Qed.
Lemma last_positions n m : 0 <= m <= n ->
  filter (fun p => n - m <=? p) (all_positions n) = map (fun i => (n - m) + i * 1) (all_positions m).
Proof.
  intros Hn. apply sorted_ext; [apply sorted_filter, sorted_zseq|apply sorted_affine; lia|].
  intros x. rewrite filter_In, in_map_iff. unfold all_positions. rewrite in_zseq. split.
  - intros [Hx E]. exists (x - (n - m)). rewrite in_zseq. lia.
  - intros (k & <- & Hk). rewrite in_zseq in Hk. lia.
Qed.
Lemma all_positions_affine n : all_positions n = map (fun i => 0 + i * 1) (all_positions n).
Proof. rewrite <- (map_id (all_positions n)) at 1. apply map_ext. intros. lia. Qed.
Lemma reverse_positions n : 0 <= n -> rev (all_positions n) = map (fun i => (n - 1) + i * -1) (all_positions n).
Proof.
  intros Hn. unfold all_positions. rewrite <- (map_id (zseq 0 (Z.to_nat n))) at 1. rewrite rev_map_zseq.
  apply map_ext. intros. lia.
Qed.
Lemma quot_step d s x : 0 < s -> 0 <= d -> 0 <= x -> x < d / s + 1 <-> x * s <= d.
Proof.
  intros Hs Hd Hx. pose proof (Z.div_mod d s ltac:(lia)) as E. pose proof (Z.mod_pos_bound d s Hs) as B. split; intros; nia.
Qed.
Lemma seq_up_positions n first last s : 0 <= first -> first <= last -> last < n -> 0 < s ->
  filter (fun p => (first <=? p) && (p <=? last) && ((p - first) mod s =? 0)) (all_positions n) =
  map (fun i => first + i * s) (all_positions ((last - first) / s + 1)).
Proof.
  intros H0 H1 H2 Hs. apply sorted_ext; [apply sorted_filter, sorted_zseq|apply sorted_affine; lia|].
  intros x. rewrite filter_In, in_map_iff. unfold all_positions. rewrite in_zseq.
  rewrite !andb_true_iff, !Z.leb_le, Z.eqb_eq. split.
  - intros [Hx [[E1 E2] E3]]. exists ((x - first) / s).
    pose proof (Z.div_mod (x - first) s ltac:(lia)) as D. split; [lia|]. rewrite in_zseq.
    pose proof (Z.div_pos (x - first) s ltac:(lia) Hs).
    pose proof (proj2 (quot_step (last - first) s ((x - first) / s) Hs ltac:(lia) H) ltac:(lia)) as HH. clear - H HH. lia.
  - intros (i & <- & Hi). rewrite in_zseq in Hi.
    assert (0 <= i) as Hi0 by (clear - Hi; lia).
    assert (i < (last - first) / s + 1) as Hi1 by (clear - Hi; lia).
    apply quot_step in Hi1; [|lia|lia|lia].
    replace (first + i * s - first) with (i * s) by lia. rewrite Z.mod_mul by lia. clear Hi. nia.
Qed.
Lemma seq_down_positions n first last s : 0 <= last -> last <= first -> first < n -> s < 0 ->
  rev (filter (fun p => (last <=? p) && (p <=? first) && ((first - p) mod (- s) =? 0)) (all_positions n)) =
  map (fun i => first + i * s) (all_positions ((first - last) / (- s) + 1)).
Proof.
  intros H0 H1 H2 Hs. set (k := (first - last) / (- s) + 1).
  assert (0 <= k) as Hk0. { unfold k. pose proof (Z.div_pos (first - last) (- s) ltac:(lia) ltac:(lia)). clear - H. lia. }
  rewrite <- (rev_involutive (map _ _)). f_equal. unfold all_positions at 2. rewrite rev_map_zseq.
  rewrite (map_ext _ (fun i => (first + (k - 1) * s) + i * (- s))).
  2:{ intros i. rewrite Z2Nat.id by assumption. ring. }
  apply sorted_ext; [apply sorted_filter, sorted_zseq|apply sorted_affine; lia|].
  intros x. rewrite filter_In, in_map_iff. unfold all_positions. rewrite in_zseq.
  rewrite !andb_true_iff, !Z.leb_le, Z.eqb_eq. split.
  - intros [Hx [[E1 E2] E3]]. set (q := (first - x) / (- s)). exists (k - 1 - q).
    pose proof (Z.div_mod (first - x) (- s) ltac:(lia)) as D. rewrite E3 in D. fold q in D.
    split; [clear - D; lia|]. rewrite in_zseq.
    assert (0 <= q) as Hq by (apply Z.div_pos; lia).
    pose proof (proj2 (quot_step (first - last) (- s) q ltac:(lia) ltac:(lia) Hq) ltac:(lia)) as HH. fold k in HH. clear - Hq HH Hk0. lia.
  - intros (i & <- & Hi). rewrite in_zseq in Hi. rewrite Z2Nat.id in Hi by assumption.
    assert (0 <= k - 1 - i) as Hi0 by (clear - Hi; lia).
    assert (k - 1 - i < (first - last) / - s + 1) as Hi1 by (fold k; clear - Hi; lia).
    apply quot_step in Hi1; [|lia|lia|lia].
    replace (first - (first + (k - 1) * s + i * - s)) with ((k - 1 - i) * (- s)) by ring.
    rewrite Z.mod_mul by lia. clear - Hi1 Hi0 H0 H1 H2 Hs Hi.
    assert (0 <= (k - 1 - i) * - s) by nia. lia.
Qed.

(** ** Complements *)
Lemma complement_loop_spec k : forall i rest,
  StronglySorted Z.lt rest -> Forall (fun p => i <= p) rest ->
  complement_loop k i rest = filter (fun p => negb (existsb (Z.eqb p) rest)) (zseq i k).
Proof.
  induction k as [|k IH]; intros i rest HS HF; [reflexivity|]. cbn [complement_loop zseq filter].
  destruct rest as [|x rest].
  - simpl. f_equal. rewrite IH by constructor. reflexivity.
  - apply StronglySorted_inv in HS as HS2. destruct HS2 as [HS2 HF2].
    destruct (Z.eqb_spec i x) as [->|Hne].
    + simpl existsb at 1. rewrite Z.eqb_refl. simpl negb at 1. cbv iota. rewrite IH.
      * apply filter_ext_in. intros p Hp. apply in_zseq in Hp. simpl. replace (p =? x) with false by lia. reflexivity.
      * assumption.
      * eapply Forall_impl; [|exact HF2]. simpl. lia.
    + apply Forall_inv in HF as Hx. 
      assert (Forall (fun p => i + 1 <= p) (x :: rest)) as HF3.
      { constructor; [lia|]. eapply Forall_impl; [|exact HF2]. simpl. lia. }
      assert (existsb (Z.eqb i) (x :: rest) = false) as ->.
      { apply not_true_is_false. intros E. apply existsb_exists in E as (y & Hy & E).
        rewrite Forall_forall in HF3. apply HF3 in Hy. lia. }
      simpl negb. cbv iota. f_equal. apply IH; auto.
Qed.

Lemma is_sorted_le_spec v : is_sorted_le v = true <-> StronglySorted Z.lt v.
Proof.
  induction v as [|x v IH]; [split; [constructor|reflexivity]|].
  cbn [is_sorted_le]. destruct v as [|y v].
  - split; [repeat constructor|reflexivity].
  - rewrite andb_true_iff, IH. split.
    + intros [H HS]. constructor; auto. apply StronglySorted_inv in HS as [HS HF]. constructor; [lia|].
      eapply Forall_impl; [|exact HF]. simpl. lia.
    + intros HS. apply StronglySorted_inv in HS as [HS HF]. apply Forall_inv in HF. split; auto. lia.
Qed.
Lemma last_in (v : list Z) d : v <> [] -> In (List.last v d) v.
Proof. induction v as [|x v IH]; [congruence|]. intros _. destruct v; [left; reflexivity|]. right. apply IH. discriminate. Qed.
Lemma sorted_le_last v d : StronglySorted Z.lt v -> Forall (fun p => p <= List.last v d) v.
Proof.
  induction v as [|x v IH]; intros HS; [constructor|]. apply StronglySorted_inv in HS as [HS HF].
  destruct v as [|y v]; [repeat constructor; simpl; lia|].
  change (List.last (x :: y :: v) d) with (List.last (y :: v) d).
  constructor; [|apply IH; assumption].
  rewrite Forall_forall in HF. specialize (HF (List.last (y :: v) d)). apply Z.lt_le_incl, HF.
  apply last_in. discriminate.
Qed.
Lemma valid_complement_spec n v :
  valid_complement n v = true <-> StronglySorted Z.lt v /\ Forall (fun p => 0 <= p < n) v.
Proof.
  unfold valid_complement. destruct v as [|x v]; [split; [repeat constructor|reflexivity]|].
  set (l := List.last (x :: v) 0). unfold valid_index. split.
  - intros H. destruct (negb _ || negb _) eqn:E; [discriminate|]. apply is_sorted_le_spec in H. split; auto.
    apply Forall_forall. intros p Hp. pose proof (sorted_le_last _ 0 H) as HL. fold l in HL.
    rewrite Forall_forall in HL. specialize (HL p Hp). apply StronglySorted_inv in H as [HS HF].
    rewrite Forall_forall in HF. destruct Hp as [<-|Hp]; [lia|]. specialize (HF p Hp). lia.
  - intros [HS HF]. rewrite Forall_forall in HF. pose proof (HF x (or_introl eq_refl)) as Hx.
    pose proof (HF l (last_in (x :: v) 0 ltac:(discriminate))) as Hl.
    destruct (negb _ || negb _) eqn:E; [lia|]. now apply is_sorted_le_spec.
Qed.
Lemma sorted_range_length n v : StronglySorted Z.lt v -> Forall (fun p => 0 <= p < n) v -> zlen v <= n \/ v = [].
Proof.
  intros HS HF. destruct v as [|x v]; [now right|left].
  assert (0 <= n) by (apply Forall_inv in HF; lia).
  pose proof (sorted_nodup _ HS) as ND. pose proof (NoDup_incl_length ND (l' := all_positions n)) as HH.
  unfold all_positions in HH. rewrite zseq_length in HH. unfold zlen.
  assert (incl (x :: v) (zseq 0 (Z.to_nat n))) as HI.
  { intros p Hp. rewrite Forall_forall in HF. apply HF in Hp. apply in_zseq. lia. }
  specialize (HH HI). lia.
Qed.
Lemma complement_index_vector_ok c n v : 0 <= n -> StronglySorted Z.lt v -> Forall (fun p => 0 <= p < n) v ->
  complement_index_vector c n v = Ok (filter (fun p => negb (existsb (Z.eqb p) v)) (all_positions n)).
Proof.
  intros Hn HS HF. unfold complement_index_vector.
  rewrite (proj2 (valid_complement_spec n v)) by auto. rewrite check_debug_true. cbn [bind].
  assert (zlen v <= n) as HL by (destruct (sorted_range_length n v HS HF); [assumption|subst; rewrite zlen_nil; lia]).
  replace (n <? zlen v) with false by lia. f_equal. apply complement_loop_spec; auto.
  eapply Forall_impl; [|exact HF]. simpl. lia.
Qed.
Lemma complement_index_vector_bad c n v : checked c = true -> ~ (StronglySorted Z.lt v /\ Forall (fun p => 0 <= p < n) v) ->
  complement_index_vector c n v = Fail (report c).
Proof.
  intros Hk H. unfold complement_index_vector. destruct (valid_complement n v) eqn:E.
  - apply valid_complement_spec in E. contradiction.
  - now rewrite check_debug_false.
Qed.

(** ** Resolution of every kind of slice *)

Lemma forall_valid_index n v : valid_slice_vector n v = true <-> Forall (fun p => 0 <= p < n) v.
Proof.
  unfold valid_slice_vector. rewrite forallb_forall, Forall_forall. unfold valid_index.
  split; intros H x Hx; specialize (H x Hx); lia.
Qed.

Lemma resolved_seq c n a b d ps :
  0 <= n <= LONG_MAX -> 0 <= a -> 0 <= b <= LONG_MAX -> (forall i, 0 <= i < b -> 0 <= a + i * d < n) ->
  ps = map (fun i => a + i * d) (all_positions b) ->
  exists r, (q <- make_seqn c a b d ;; Ok (RSeq q)) = Ok r /\ addresses r ps /\ rvalid n r = Ok true.
Proof.
  intros Hn Ha Hb H ->. rewrite make_seqn_ok by lia. cbn [bind].
  eexists. split; [reflexivity|]. split.
  - apply (addresses_seq n); [lia|lia|assumption].
  - simpl. apply seqn_valid_ok; auto; lia.
Qed.

Lemma quot_div_pos a b : 0 <= a -> 0 < b -> Z.quot a b = a / b.
Proof. intros. apply Z.quot_div_nonneg; lia. Qed.
Lemma quot_neg a b : a <= 0 -> b < 0 -> Z.quot a b = (- a) / (- b).
Proof. intros. rewrite <- Z.quot_div_nonneg by lia. rewrite Z.quot_opp_opp; lia. Qed.

Lemma slice_resolve_ok c n s :
  0 <= n <= LONG_MAX -> args_long s -> acceptable n s -> no_overflow n s ->
  exists r, slice_resolve c n (n =? 0) s = Ok r /\ addresses r (positions n s) /\ rvalid n r = Ok true.
Proof.
  intros Hn HA Hacc Hno. destruct s as [a b d|f l d| | | | |k|m|m|v|v]; cbn [slice_resolve acceptable no_overflow positions args_long] in *.
  - (* seqN *) destruct Hacc as (Ha & Hb & H). unfold is_long in HA.
    rewrite make_seqn_ok by lia. cbn [bind].
    rewrite seqn_valid_ok by (auto; lia). rewrite check_debug_true. cbn [bind].
    eexists. split; [reflexivity|]. split; [apply (addresses_seq n); auto; lia|].
    simpl. apply seqn_valid_ok; auto; lia.
  - (* seq *) destruct Hacc as (Hf & Hl & H).
    replace (-1 <? f) with true by lia. replace (-1 <? l) with true by lia.
    replace (seq_cond f l d) with true by (unfold seq_cond; lia).
    replace (negb (n =? 0)) with true by lia.
    replace (seq_valid n f l) with true by (unfold seq_valid, valid_index; lia).
    rewrite !check_debug_true. cbn [bind]. unfold seq_to_slice.
    destruct H as [[Hd H]|[[Hd H]|[Hd H]]].
    + replace (d =? 0) with false by lia. replace (0 <? d) with true by lia.
      rewrite lsub_ok by (unfold LONG_MIN, LONG_MAX in *; lia). cbn [bind].
      pose proof (Z.div_pos (l - f) d ltac:(lia) ltac:(lia)) as Q0.
      assert ((l - f) / d <= l - f) as Q1 by (apply Z.div_le_upper_bound; nia).
      rewrite ldiv_ok; [|lia|rewrite quot_div_pos by lia; unfold LONG_MIN, LONG_MAX in *; clear - Q0 Q1 Hf Hl Hn; lia].
      cbn [bind]. rewrite quot_div_pos by lia.
      rewrite ladd_ok by (unfold LONG_MIN, LONG_MAX in *; clear - Q0 Q1 Hf Hl Hn; lia). cbn [bind].
      apply resolved_seq; [assumption|lia|clear - Q0 Q1 Hf Hl Hn; lia| |apply seq_up_positions; lia].
      intros i Hi. assert (i * d <= l - f) by (apply quot_step; lia || (clear - Hi; lia)). assert (0 <= i * d) by (clear - Hi Hd; nia). clear Q0 Q1 Hi. lia.
    + replace (d =? 0) with false by lia. replace (0 <? d) with false by lia. replace (d <? 0) with true by lia.
      rewrite lsub_ok by (unfold LONG_MIN, LONG_MAX in *; lia). cbn [bind].
      assert (Z.quot (l - f) d = (f - l) / (- d)) as EQ by (rewrite quot_neg by lia; f_equal; lia).
      pose proof (Z.div_pos (f - l) (- d) ltac:(lia) ltac:(lia)) as Q0.
      assert ((f - l) / - d <= f - l) as Q1 by (apply Z.div_le_upper_bound; nia).
      rewrite ldiv_ok; [|lia|rewrite EQ; unfold LONG_MIN, LONG_MAX in *; clear - Q0 Q1 Hf Hl Hn; lia].
      cbn [bind]. rewrite EQ.
      rewrite ladd_ok by (unfold LONG_MIN, LONG_MAX in *; clear - Q0 Q1 Hf Hl Hn; lia). cbn [bind].
      apply resolved_seq; [assumption|lia|clear - Q0 Q1 Hf Hl Hn; lia| |apply seq_down_positions; lia].
      intros i Hi. assert (i * - d <= f - l) by (apply quot_step; lia || (clear - Hi; lia)).
      assert (0 <= i * - d) by (clear - Hi Hd; nia). clear Q0 Q1 Hi. lia.
    + subst d. cbn [Z.eqb Z.ltb Z.compare]. apply resolved_seq; [assumption|lia|unfold LONG_MAX; lia|intros; lia|].
      simpl. f_equal. lia.
  - (* all *) apply resolved_seq; [assumption|lia|lia|intros; lia|apply all_positions_affine].
  - (* even *) rewrite ladd_ok by (unfold LONG_MIN, LONG_MAX in *; lia). cbn [bind].
    rewrite ldiv_ok; [|lia|rewrite quot_div_pos by lia; unfold LONG_MIN, LONG_MAX in *; lia].
    cbn [bind]. rewrite quot_div_pos by lia.
    apply resolved_seq; [assumption|lia|lia|intros; lia|apply even_positions; lia].
  - (* odd *) rewrite ldiv_ok; [|lia|rewrite quot_div_pos by lia; unfold LONG_MIN, LONG_MAX in *; lia].
    cbn [bind]. rewrite quot_div_pos by lia.
    apply resolved_seq; [assumption|lia|lia|intros; lia|apply odd_positions; lia].
  - (* reverse *) destruct (Z.eqb_spec n 0) as [->|Hn0].
    + apply resolved_seq; [assumption|lia|lia|intros; lia|reflexivity].
    + rewrite lsub_ok by (unfold LONG_MIN, LONG_MAX in *; lia). cbn [bind].
      apply resolved_seq; [assumption|lia|lia|intros; lia|apply reverse_positions; lia].
  - (* skipN *) replace (0 <? k) with true by lia. rewrite check_debug_true. cbn [bind].
    rewrite ladd_ok by (unfold LONG_MIN, LONG_MAX in *; lia). cbn [bind].
    rewrite lsub_ok by (unfold LONG_MIN, LONG_MAX in *; lia). cbn [bind].
    pose proof (Z.div_pos (n + k - 1) k ltac:(lia) ltac:(lia)) as Q0.
    assert ((n + k - 1) / k <= n) as Q1.
    { clear - Hn Hacc. destruct (Z.eqb_spec n 0) as [->|]; [rewrite Z.div_small; lia|].
      apply Z.div_le_upper_bound; nia. }
    rewrite ldiv_ok; [|lia|rewrite quot_div_pos by lia; unfold LONG_MIN, LONG_MAX in *; clear - Q0 Q1 Hn; lia].
    cbn [bind]. rewrite quot_div_pos by lia.
    apply resolved_seq; [assumption|lia|clear - Q0 Q1 Hn; lia| |apply skip_positions; lia].
    intros i Hi. assert (i * k < n) by (apply ceil_div_spec; lia). clear Q0 Q1. nia.
  - (* firstN *) replace (-1 <? m) with true by lia. replace (m <=? n) with true by lia.
    rewrite !check_debug_true. cbn [bind].
    apply resolved_seq; [assumption|lia|lia|intros; lia|apply first_positions; lia].
  - (* lastN *) replace (-1 <? m) with true by lia. replace (m <=? n) with true by lia.
    rewrite !check_debug_true. cbn [bind]. rewrite lsub_ok by (unfold LONG_MIN, LONG_MAX in *; lia). cbn [bind].
    apply resolved_seq; [assumption|lia|lia|intros; lia|apply last_positions; lia].
  - (* vector *) eexists. split; [reflexivity|]. split; [apply addresses_vec|]. simpl. f_equal. now apply forall_valid_index.
  - (* complement *) destruct Hacc as [HS HF]. rewrite complement_index_vector_ok by (auto; lia). cbn [bind].
    eexists. split; [reflexivity|]. split; [apply addresses_vec|]. simpl. f_equal. apply forall_valid_index.
    apply Forall_forall. intros p Hp. apply filter_In in Hp as [Hp _]. apply in_zseq in Hp. lia.
Qed.

Lemma positions_in_range n s : 0 <= n -> acceptable n s -> Forall (fun p => 0 <= p < n) (positions n s).
Proof.
  intros Hn Hacc. apply Forall_forall. intros p Hp.
  assert (forall f, In p (filter f (all_positions n)) -> 0 <= p < n) as HF.
  { intros f H. apply filter_In in H as [H _]. apply in_zseq in H. lia. }
  destruct s as [a b d|f l d| | | | |k|m|m|v|v]; cbn [positions acceptable] in *; eauto.
  - apply in_map_iff in Hp as (i & <- & Hi). apply in_zseq in Hi. apply Hacc. lia.
  - destruct (0 <? d); eauto. destruct (d <? 0).
    + apply in_rev in Hp. eauto.
    + destruct Hp as [<-|[]]. lia.
  - apply in_zseq in Hp. lia.
  - apply in_rev in Hp. apply in_zseq in Hp. lia.
  - rewrite Forall_forall in Hacc. auto.
Qed.

Lemma view_slice_ok c v s :
  0 <= view_size v <= LONG_MAX -> args_long s -> acceptable (view_size v) s -> no_overflow (view_size v) s ->
  exists r, view_slice c v s = Ok (VSlice v r) /\ addresses r (positions (view_size v) s).
Proof.
  intros Hn HA Hacc Hno. unfold view_slice.
  destruct (slice_resolve_ok c (view_size v) s Hn HA Hacc Hno) as (r & -> & Hr & Hv). cbn [bind].
  rewrite Hv, check_debug_true. cbn [bind]. eauto.
Qed.

Lemma affine_acceptable n a b d : 0 <= a -> 0 < b ->
  (forall i, 0 <= i < b -> 0 <= a + i * d < n) <-> (a < n /\ 0 <= a + d * (b - 1) < n).
Proof.
  intros Ha Hb. split.
  - intros H. pose proof (H 0 ltac:(lia)). pose proof (H (b - 1) ltac:(lia)). lia.
  - intros [H1 H2]. now apply affine_between.
Qed.

Lemma view_slice_bad c v s :
  0 <= view_size v <= LONG_MAX -> args_long s -> checked c = true -> ~ acceptable (view_size v) s -> no_overflow (view_size v) s ->
  view_slice c v s = Fail (report c).
Proof.
  intros Hn HA Hk Hacc Hno. unfold view_slice. set (n := view_size v) in *.
  destruct s as [a b d|f l d| | | | |k|m|m|w|w]; cbn [slice_resolve acceptable no_overflow args_long] in *; try (exfalso; apply Hacc; exact I).
  - unfold make_seqn, is_long in *.
    destruct (Z.ltb_spec (-1) a) as [Ha|Ha]; [|now rewrite check_debug_false].
    rewrite check_debug_true. cbn [bind].
    destruct (Z.ltb_spec (-1) b) as [Hb|Hb]; [|now rewrite check_debug_false].
    rewrite check_debug_true. cbn [bind]. rewrite seqn_valid_exact by lia.
    destruct (Z.eqb_spec b 0) as [->|Hb0].
    { exfalso. apply Hacc. repeat split; lia. }
    specialize (Hno ltac:(lia) ltac:(lia)). rewrite (proj2 (in_long_spec (d * (b - 1)))), (proj2 (in_long_spec (a + d * (b - 1)))) by lia.
    cbn [andb]. destruct (_ && _) eqn:E; [|now rewrite check_debug_false].
    exfalso. apply Hacc. split; [lia|]. split; [lia|]. apply affine_acceptable; lia.
  - destruct (Z.ltb_spec (-1) f) as [Hf|Hf]; [|now rewrite check_debug_false].
    destruct (Z.ltb_spec (-1) l) as [Hl|Hl]; [|rewrite check_debug_true, check_debug_false; auto].
    rewrite !check_debug_true. cbn [bind].
    destruct (seq_cond f l d) eqn:E; [|now rewrite check_debug_false]. rewrite !check_debug_true. cbn [bind].
    destruct (Z.eqb_spec n 0) as [E0|]; [simpl; now rewrite check_debug_false|]. simpl negb. rewrite check_debug_true. cbn [bind].
    destruct (seq_valid n f l) eqn:E2; [|now rewrite check_debug_false].
    exfalso. apply Hacc. unfold seq_cond, seq_valid, valid_index in *. lia.
  - replace (0 <? k) with false by lia. now rewrite check_debug_false.
  - destruct (Z.ltb_spec (-1) m); [|now rewrite check_debug_false]. rewrite check_debug_true. cbn [bind].
    replace (m <=? n) with false by lia. now rewrite check_debug_false.
  - destruct (Z.ltb_spec (-1) m); [|now rewrite check_debug_false]. rewrite check_debug_true. cbn [bind].
    replace (m <=? n) with false by lia. now rewrite check_debug_false.
  - cbn [bind rvalid]. destruct (valid_slice_vector n w) eqn:E; [|now rewrite check_debug_false].
    apply forall_valid_index in E. contradiction.
  - now rewrite complement_index_vector_bad.
Qed.

(** Overflowing validations. *)
Lemma view_slice_overflow c v s :
  0 <= view_size v <= LONG_MAX -> args_long s -> ~ no_overflow (view_size v) s ->
  (checked c = true \/ match s with SkipN k => 0 < k | Even => True | _ => False end) ->
  match s with SkipN k => 0 < k | _ => True end ->
  view_slice c v s = UB.
Proof.
  intros Hn HA Hno Hk Hpos. unfold view_slice. set (n := view_size v) in *.
  destruct s as [a b d|f l d| | | | |k|m|m|w|w]; cbn [slice_resolve no_overflow args_long] in *; try (exfalso; apply Hno; exact I).
  - destruct Hk as [Hk|[]]. unfold is_long in HA.
    assert (0 <= a) as Ha by (destruct (Z.le_gt_cases 0 a); auto; exfalso; apply Hno; lia).
    assert (0 < b) as Hb by (destruct (Z.lt_ge_cases 0 b); auto; exfalso; apply Hno; lia).
    rewrite make_seqn_ok by lia. cbn [bind]. rewrite seqn_valid_exact by lia.
    replace (b =? 0) with false by lia.
    destruct (in_long _ && in_long _) eqn:E.
    + exfalso. apply Hno. intros _ _. rewrite andb_true_iff, !in_long_spec in E. exact E.
    + now rewrite check_debug_ub.
  - unfold ladd. rewrite lret_ub by lia. reflexivity.
  - replace (0 <? k) with true by lia. rewrite check_debug_true. cbn [bind]. unfold ladd. rewrite lret_ub by lia. reflexivity.
Qed.

(** ** Nested views *)


Lemma zlen_pick {V} (l : list V) ps : Forall (fun p => 0 <= p < zlen l) ps -> zlen (pick l ps) = zlen ps.
Proof.
  induction 1 as [|p ps Hp HF IH]; [reflexivity|]. unfold pick in *. cbn [flat_map].
  destruct (znth_some l p Hp) as [w ->]. cbn [app]. rewrite !zlen_cons. lia.
Qed.
Lemma znth_pick {V} (l : list V) ps i : Forall (fun p => 0 <= p < zlen l) ps ->
  znth (pick l ps) i = match znth ps i with Some p => znth l p | None => None end.
Proof.
  intros HF. revert i. induction HF as [|p ps Hp HF IH]; intros i; [change (pick l []) with (@nil V); now rewrite !znth_nil|].
  unfold pick in *. cbn [flat_map]. destruct (znth_some l p Hp) as [w Hw]. rewrite Hw. cbn [app].
  destruct (Z.lt_trichotomy i 0) as [H|[->|H]].
  - rewrite !znth_neg by assumption. reflexivity.
  - rewrite !znth_cons_0. now rewrite Hw.
  - rewrite !znth_cons_pos by assumption. apply IH.
Qed.

Lemma view_slices_ok c v ps ss :
  view_addresses v ps -> zlen ps <= LONG_MAX -> all_acceptable ps ss ->
  exists v', view_slices c v ss = Ok v' /\ view_addresses v' (compose ps ss).
Proof.
  revert v ps. induction ss as [|s ss IH]; intros v ps Hv Hl Hacc.
  - exists v. split; [reflexivity|assumption].
  - cbn [view_slices compose all_acceptable] in *. destruct Hacc as (HA & H1 & H2 & H3 & H4).
    destruct Hv as [Hs Hm]. pose proof (zlen_nonneg ps) as Hnn.
    destruct (view_slice_ok c v s) as (r & -> & Hr & Hrm); rewrite ?Hs; auto; try lia.
    cbn [bind]. rewrite Hs in Hr, Hrm.
    pose proof (positions_in_range (zlen ps) s Hnn H1) as HR.
    apply IH; auto.
    + split; cbn [view_size view_map]; rewrite zlen_pick by assumption; [assumption|].
      intros i Hi. rewrite Hrm by assumption. unfold oget at 1.
      destruct (znth_some (positions (zlen ps) s) i Hi) as [p Hp]. rewrite Hp. cbn [bind].
      assert (0 <= p < zlen ps) as Hpr.
      { rewrite Forall_forall in HR. apply HR. now apply znth_in in Hp. }
      rewrite Hm by assumption. unfold oget. rewrite znth_pick by assumption. now rewrite Hp.
    + now rewrite zlen_pick.
Qed.
