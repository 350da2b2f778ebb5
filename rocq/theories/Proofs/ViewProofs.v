From Coq Require Import Sorting.Sorted.
From Verif Require Import Base.Outcome Base.ZList Model.Index Model.Array1D Model.Slice Spec.SliceSpec.
From Verif Require Import Proofs.Array1DProofs Proofs.SliceProofs.
From Verif Require Import Spec.ArraySpec.
Ltac Zify.zify_post_hook ::= Z.div_mod_to_equations.

(** ** Index arguments *)

Lemma idx_get_ok n ix : 0 <= n <= LONG_MAX -> idx_fits n ix -> idx_get n ix = Ok (denotes n ix).
Proof.
  intros Hn Hf. destruct ix as [i|k]; [reflexivity|]. destruct Hf as [Hk H]. unfold is_long in Hk. cbn [idx_get denotes].
  rewrite lsub_ok by (unfold LONG_MIN, LONG_MAX in *; lia). cbn [bind].
  rewrite lsub_ok by (unfold LONG_MIN, LONG_MAX in *; lia). f_equal. lia.
Qed.
Lemma idx_get_ub n k : 0 <= n <= LONG_MAX -> is_long k -> LONG_MAX < n - k -> idx_get n (FromLast k) = UB.
Proof.
  intros Hn Hk H. cbn [idx_get]. unfold lsub at 1. rewrite lret_ub by lia. reflexivity.
Qed.
Lemma last_plus_denotes n i ix : 0 <= n <= LONG_MAX -> is_long i -> i <> LONG_MIN -> last_plus place_last i = Ok ix -> denotes n ix = n - 1 + i.
Proof.
  intros Hn Hi Hne. unfold last_plus, place_last. unfold is_long in Hi.
  rewrite lsub_ok by (unfold LONG_MIN, LONG_MAX in *; lia). cbn [bind]. intros [= <-]. simpl. lia.
Qed.
Lemma last_minus_denotes n i ix : 0 <= n <= LONG_MAX -> is_long i -> last_minus place_last i = Ok ix -> denotes n ix = n - 1 - i.
Proof.
  intros Hn Hi. unfold last_minus, place_last. unfold is_long in Hi.
  rewrite ladd_ok by (unfold LONG_MIN, LONG_MAX in *; lia). cbn [bind]. intros [= <-]. simpl. lia.
Qed.

Section V.
Context {V : Type}.
Implicit Types (l b : list V).

Lemma sub1_ok c (A : src1 V) l ix v : produces A l -> zlen l <= LONG_MAX -> idx_fits (zlen l) ix ->
  znth l (denotes (zlen l) ix) = Some v -> sub1 c A ix = Ok v.
Proof.
  intros [Hs HA] HL Hf Hv. unfold sub1. rewrite Hs. pose proof (zlen_nonneg l).
  rewrite idx_get_ok by (auto; lia). cbn [bind]. apply znth_lt in Hv as Hr.
  unfold valid_index. replace ((-1 <? _) && _) with true by lia. rewrite check_debug_true. cbn [bind].
  rewrite HA by assumption. now apply oget_ok.
Qed.
Lemma sub1_bad c (A : src1 V) l ix : produces A l -> zlen l <= LONG_MAX -> idx_fits (zlen l) ix -> checked c = true ->
  ~ (0 <= denotes (zlen l) ix < zlen l) -> sub1 c A ix = Fail (report c).
Proof.
  intros [Hs HA] HL Hf Hk Hv. unfold sub1. rewrite Hs. pose proof (zlen_nonneg l).
  rewrite idx_get_ok by (auto; lia). cbn [bind].
  unfold valid_index. replace ((-1 <? _) && _) with false by lia. now rewrite check_debug_false.
Qed.
Lemma at1_ok c (A : src1 V) l ix v : produces A l -> zlen l <= LONG_MAX -> idx_fits (zlen l) ix ->
  znth l (denotes (zlen l) ix) = Some v -> at1 c A ix = Ok v.
Proof.
  intros [Hs HA] HL Hf Hv. unfold at1. rewrite Hs. pose proof (zlen_nonneg l).
  rewrite idx_get_ok by (auto; lia). cbn [bind]. apply znth_lt in Hv as Hr.
  unfold valid_index. replace ((-1 <? _) && _) with true by lia. rewrite check_always_true. cbn [bind].
  rewrite HA by assumption. now apply oget_ok.
Qed.
Lemma at1_bad c (A : src1 V) l ix : produces A l -> zlen l <= LONG_MAX -> idx_fits (zlen l) ix -> exc c || negb (ndbg c) = true ->
  ~ (0 <= denotes (zlen l) ix < zlen l) -> at1 c A ix = Fail (report c).
Proof.
  intros [Hs HA] HL Hf Hk Hv. unfold at1. rewrite Hs. pose proof (zlen_nonneg l).
  rewrite idx_get_ok by (auto; lia). cbn [bind].
  unfold valid_index. replace ((-1 <? _) && _) with false by lia.
  unfold check_always, report in *. destruct (exc c), (ndbg c); simpl in *; congruence.
Qed.
Lemma sub1_last_ub c (A : src1 V) l k : produces A l -> zlen l <= LONG_MAX -> is_long k -> LONG_MAX < zlen l - k ->
  sub1 c A (FromLast k) = UB /\ at1 c A (FromLast k) = UB.
Proof.
  intros [Hs HA] HL Hk H. pose proof (zlen_nonneg l). unfold sub1, at1. rewrite Hs, idx_get_ub by (auto; lia). split; reflexivity.
Qed.

(** ** Access through views *)
Lemma view_un_ok v ps b i p : view_addresses v ps -> znth ps i = Some p -> view_un v b i = oget b p.
Proof.
  intros [Hs Hm] Hp. unfold view_un. rewrite Hm by now apply znth_lt in Hp. rewrite (oget_ok _ _ _ Hp). reflexivity.
Qed.
Lemma view_set_ok v ps b i p x : view_addresses v ps -> znth ps i = Some p -> 0 <= p < zlen b -> view_set v b i x = Ok (zupd b p x).
Proof.
  intros [Hs Hm] Hp Hb. unfold view_set. rewrite Hm by now apply znth_lt in Hp. rewrite (oget_ok _ _ _ Hp). cbn [bind].
  now apply oset_ok.
Qed.

Lemma view_sub_spec c v ps b ix p x : view_addresses v ps -> zlen ps <= LONG_MAX -> idx_fits (zlen ps) ix ->
  znth ps (denotes (zlen ps) ix) = Some p -> 
  view_sub c v b ix = oget b p /\ (0 <= p < zlen b -> view_write c v b ix x = Ok (zupd b p x)).
Proof.
  intros Hv HL Hf Hp. pose proof (zlen_nonneg ps). unfold view_sub, view_write. rewrite (proj1 Hv).
  rewrite idx_get_ok by (auto; lia). cbn [bind]. apply znth_lt in Hp as Hr.
  unfold valid_index. replace ((-1 <? _) && _) with true by lia. rewrite check_debug_true. cbn [bind]. split.
  - eapply view_un_ok; eauto.
  - intros Hb. eapply view_set_ok; eauto.
Qed.
Lemma view_sub_bad c v ps b ix x : view_addresses v ps -> zlen ps <= LONG_MAX -> idx_fits (zlen ps) ix -> checked c = true ->
  ~ (0 <= denotes (zlen ps) ix < zlen ps) ->
  view_sub c v b ix = Fail (report c) /\ view_write c v b ix x = Fail (report c).
Proof.
  intros Hv HL Hf Hk Hp. pose proof (zlen_nonneg ps). unfold view_sub, view_write. rewrite (proj1 Hv).
  rewrite idx_get_ok by (auto; lia). cbn [bind].
  unfold valid_index. replace ((-1 <? _) && _) with false by lia. rewrite check_debug_false by assumption. split; reflexivity.
Qed.

Lemma view_base n : 0 <= n -> view_addresses (VBase n) (all_positions n).
Proof.
  intros Hn. unfold view_addresses, all_positions. rewrite zlen_zseq. split; [simpl; lia|].
  intros i Hi. simpl. unfold oget. rewrite znth_zseq by lia. f_equal.
Qed.
Lemma compose_in_range n ss : forall ps, Forall (fun p => 0 <= p < n) ps -> all_acceptable ps ss ->
  Forall (fun p => 0 <= p < n) (compose ps ss).
Proof.
  induction ss as [|s ss IH]; intros ps HF Hacc; [exact HF|]. cbn [compose all_acceptable] in *.
  destruct Hacc as (_ & Ha & _ & _ & Hacc). apply IH; auto.
  apply Forall_forall. intros p Hp. apply in_znth in Hp as [i Hi]. 
  pose proof (positions_in_range (zlen ps) s (zlen_nonneg ps) Ha) as HR.
  rewrite znth_pick in Hi by assumption. destruct (znth (positions (zlen ps) s) i) as [q|]; [|discriminate].
  apply znth_in in Hi. rewrite Forall_forall in HF. auto.
Qed.
Lemma view_slices_app c ss1 : forall v ss2, view_slices c v (ss1 ++ ss2) = (v' <- view_slices c v ss1 ;; view_slices c v' ss2).
Proof.
  induction ss1 as [|s ss1 IH]; intros v ss2; [reflexivity|]. cbn [view_slices app].
  destruct (view_slice c v s) as [v'| |]; cbn [bind]; auto.
Qed.

(** ** Scatter *)
Lemma zlen_scatter b pvs : zlen (scatter b pvs) = zlen b.
Proof. revert b. induction pvs as [|pv pvs IH]; intros b; [reflexivity|]. simpl. rewrite IH. apply zlen_zupd. Qed.
Lemma scatter_other b pvs p : (forall q v, In (q, v) pvs -> q <> p /\ 0 <= q < zlen b) -> znth (scatter b pvs) p = znth b p.
Proof.
  revert b. induction pvs as [|[q v] pvs IH]; intros b H; [reflexivity|]. simpl.
  destruct (H q v (or_introl eq_refl)) as [Hne Hq]. rewrite IH.
  - rewrite znth_zupd by assumption. simpl. now replace (p =? q) with false by lia.
  - intros q' v' Hin. rewrite zlen_zupd. apply (H q' v'). now right.
Qed.
Lemma scatter_app b pvs1 pvs2 : scatter b (pvs1 ++ pvs2) = scatter (scatter b pvs1) pvs2.
Proof. apply fold_left_app. Qed.
Lemma scatter_hit b pvs1 p v pvs2 : 0 <= p < zlen b -> (forall q w, In (q, w) pvs2 -> q <> p /\ 0 <= q < zlen b) ->
  znth (scatter b (pvs1 ++ (p, v) :: pvs2)) p = Some v.
Proof.
  intros Hp H. rewrite scatter_app. simpl. rewrite scatter_other.
  - rewrite znth_zupd by now rewrite zlen_scatter. simpl. now rewrite Z.eqb_refl.
  - intros q w Hin. rewrite zlen_zupd, zlen_scatter. eauto.
Qed.

Lemma firstn_snoc {B} (l : list B) i x : 0 <= i -> znth l i = Some x ->
  firstn (Z.to_nat (i + 1)) l = firstn (Z.to_nat i) l ++ [x].
Proof.
  intros Hi Hx. replace (Z.to_nat (i + 1)) with (S (Z.to_nat i)) by lia.
  unfold znth in Hx. replace (i <? 0) with false in Hx by lia. revert Hx. generalize (Z.to_nat i). clear.
  intros k. revert l. induction k as [|k IH]; intros [|y l] H; simpl in *; try congruence.
  f_equal. now apply IH.
Qed.
Lemma znth_combine {B C} (l1 : list B) (l2 : list C) i (p : B) (q : C) : znth l1 i = Some p -> znth l2 i = Some q ->
  znth (combine l1 l2) i = Some (p, q).
Proof.
  unfold znth. destruct (i <? 0); [discriminate|]. generalize (Z.to_nat i). clear. intros k.
  revert l1 l2. induction k as [|k IH]; intros [|x l1] [|y l2] H1 H2; simpl in *; try congruence. now apply IH.
Qed.
Lemma in_firstn_combine {B C} (l1 : list B) (l2 : list C) (i : Z) p v : 0 <= i -> In (p, v) (firstn (Z.to_nat i) (combine l1 l2)) ->
  exists j, 0 <= j < i /\ znth l1 j = Some p /\ znth l2 j = Some v.
Proof.
  intros Hi Hin. apply in_znth in Hin as [j Hj]. apply znth_lt in Hj as Hr.
  rewrite znth_firstn in Hj by lia. destruct (j <? i) eqn:E; [|discriminate]. exists j. split; [lia|].
  clear - Hj. revert Hj. unfold znth. destruct (j <? 0); [discriminate|]. generalize (Z.to_nat j). intros k.
  revert l1 l2. induction k as [|k IH]; intros [|x l1] [|y l2] H; simpl in *; try congruence; [split; congruence|].
  now apply IH.
Qed.

(** ** Assignment between views of the same storage *)

Lemma view_assign_view_ok c dst srcv pd ps b :
  view_addresses dst pd -> view_addresses srcv ps -> zlen pd = zlen ps ->
  Forall (fun p => 0 <= p < zlen b) pd -> Forall (fun p => 0 <= p < zlen b) ps ->
  reads_before_writes pd ps ->
  view_assign_view c dst srcv b = MOk (scatter b (combine pd (pick b ps))).
Proof.
  intros Hd Hs HL Fd Fs HR. unfold view_assign_view, view_assign_rd. rewrite (proj1 Hd), (proj1 Hs), HL, Z.eqb_refl.
  rewrite check_debug_true. pose proof (zlen_nonneg ps) as Hnn.
  assert (zlen (pick b ps) = zlen ps) as LP by now apply zlen_pick.
  assert (zlen (combine pd (pick b ps)) = zlen ps) as LC.
  { unfold zlen in *. rewrite combine_length. lia. }
  destruct (mfor_inv (fun i b' => b' = scatter b (firstn (Z.to_nat i) (combine pd (pick b ps)))) 0 (zlen ps)
    (fun i b => commit b (x <- view_un srcv b i ;; view_set dst b i x)) b) as (b' & E & Hb').
  - lia.
  - reflexivity.
  - intros i b1 Hi ->.
    destruct (znth_some pd i ltac:(lia)) as [p Hp]. destruct (znth_some ps i ltac:(lia)) as [q Hq].
    rewrite Forall_forall in Fd, Fs. pose proof (Fd p (znth_in _ _ _ Hp)) as Rp. pose proof (Fs q (znth_in _ _ _ Hq)) as Rq.
    destruct (znth_some b q Rq) as [x Hx].
    rewrite (view_un_ok _ ps _ _ q) by assumption.
    assert (znth (scatter b (firstn (Z.to_nat i) (combine pd (pick b ps)))) q = Some x) as Hx'.
    { rewrite scatter_other; [assumption|]. intros q' v' Hin. apply in_firstn_combine in Hin as (j & Hj & H1 & H2); [|lia].
      split; [|apply Fd; now apply znth_in in H1]. intros ->. eapply HR; [exact Hj|exact H1|exact Hq]. }
    rewrite (oget_ok _ _ _ Hx'). cbn [bind]. rewrite (view_set_ok _ pd _ _ p) by (auto; now rewrite zlen_scatter).
    cbn [commit]. eexists. split; [reflexivity|].
    rewrite (firstn_snoc _ i (p, x)); [rewrite scatter_app; reflexivity|lia|].
    apply znth_combine; [assumption|]. rewrite znth_pick by (apply Forall_forall; auto). now rewrite Hq.
  - rewrite E, Hb'. do 2 f_equal. apply firstn_all2. unfold zlen in *. lia.
Qed.

(* pointwise form when the destination positions are distinct *)
Lemma scatter_combine_nth b pd vs i p v : NoDup pd -> zlen pd = zlen vs -> Forall (fun p => 0 <= p < zlen b) pd ->
  znth pd i = Some p -> znth vs i = Some v -> znth (scatter b (combine pd vs)) p = Some v.
Proof.
  revert b vs i. induction pd as [|q pd IH]; intros b vs i HN HL HF Hp Hv; [now rewrite znth_nil in Hp|].
  destruct vs as [|w vs]; [now rewrite znth_nil in Hv|]. simpl.
  apply NoDup_cons_iff in HN as [Hni HN]. apply Forall_cons_iff in HF as [Hq HF].
  destruct (Z.eqb_spec i 0) as [->|Hi].
  - rewrite znth_cons_0 in Hp. rewrite znth_cons_0 in Hv. injection Hp as ->. injection Hv as ->.
    rewrite scatter_other.
    + rewrite znth_zupd by assumption. simpl. now rewrite Z.eqb_refl.
    + intros q' v' Hin. apply in_combine_l in Hin. rewrite zlen_zupd. split; [congruence|].
      rewrite Forall_forall in HF. auto.
  - apply znth_lt in Hp as Hr. rewrite znth_cons_pos in Hp by lia. rewrite znth_cons_pos in Hv by lia.
    rewrite !zlen_cons in HL. eapply IH; eauto; [lia|]. simpl. now rewrite zlen_zupd.
Qed.

Lemma zlen_copy_through' (pqs : list (Z * Z)) b :
  zlen (fold_left (fun b pq => match znth b (snd pq) with Some x => zupd b (fst pq) x | None => b end) pqs b) = zlen b.
Proof. revert b. induction pqs as [|pq pqs IH]; intros b; [reflexivity|]. simpl. rewrite IH. destruct (znth b (snd pq)); [apply zlen_zupd|reflexivity]. Qed.
Lemma view_assign_view_seq c dst srcv pd ps b :
  view_addresses dst pd -> view_addresses srcv ps -> zlen pd = zlen ps ->
  Forall (fun p => 0 <= p < zlen b) pd -> Forall (fun p => 0 <= p < zlen b) ps ->
  view_assign_view c dst srcv b = MOk (copy_through pd ps b).
Proof.
  intros Hd Hs HL Fd Fs. unfold view_assign_view, view_assign_rd. rewrite (proj1 Hd), (proj1 Hs), HL, Z.eqb_refl.
  rewrite check_debug_true. pose proof (zlen_nonneg ps) as Hnn.
  assert (zlen (combine pd ps) = zlen ps) as LC.
  { unfold zlen in *. rewrite combine_length. lia. }
  set (stp := fun b pq => match znth b (snd pq) with Some x => zupd b (fst pq) x | None => b end).
  destruct (mfor_inv (fun i b' => b' = fold_left stp (firstn (Z.to_nat i) (combine pd ps)) b) 0 (zlen ps)
    (fun i b => commit b (x <- view_un srcv b i ;; view_set dst b i x)) b) as (b' & E & Hb').
  - lia.
  - reflexivity.
  - intros i b1 Hi E1.
    destruct (znth_some pd i ltac:(lia)) as [p Hp]. destruct (znth_some ps i ltac:(lia)) as [q Hq].
    rewrite Forall_forall in Fd, Fs. pose proof (Fd p (znth_in _ _ _ Hp)) as Rp. pose proof (Fs q (znth_in _ _ _ Hq)) as Rq.
    assert (zlen b1 = zlen b) as L1 by (rewrite E1; apply zlen_copy_through').
    destruct (znth_some b1 q) as [x Hx]; [lia|].
    rewrite (view_un_ok _ ps _ _ q) by assumption.
    rewrite (oget_ok _ _ _ Hx). cbn [bind]. rewrite (view_set_ok _ pd _ _ p) by (auto; lia).
    cbn [commit]. eexists. split; [reflexivity|].
    rewrite (firstn_snoc _ i (p, q)); [|lia|now apply znth_combine].
    rewrite fold_left_app, <- E1. simpl. unfold stp. simpl. now rewrite Hx.
  - rewrite E, Hb'. unfold copy_through. do 2 f_equal. apply firstn_all2. unfold zlen in *. lia.
Qed.
Lemma view_assign_view_mismatch c dst srcv b : checked c = true -> view_size dst <> view_size srcv ->
  view_assign_view c dst srcv b = MFail (report c) b.
Proof.
  intros Hk H. unfold view_assign_view, view_assign_rd. replace (view_size dst =? view_size srcv) with false by lia.
  now rewrite check_debug_false.
Qed.

(** A pointwise rule for sequential copying. *)
Lemma view_assign_view_pointwise c dst srcv pd ps b (g : Z -> Z -> option V) :
  view_addresses dst pd -> view_addresses srcv ps -> zlen pd = zlen ps ->
  Forall (fun p => 0 <= p < zlen b) pd -> Forall (fun p => 0 <= p < zlen b) ps ->
  (forall k, g 0 k = znth b k) ->
  (forall i k p q, 0 <= i -> znth pd i = Some p -> znth ps i = Some q -> g (i + 1) k = if k =? p then g i q else g i k) ->
  exists b', view_assign_view c dst srcv b = MOk b' /\ zlen b' = zlen b /\ forall k, znth b' k = g (zlen ps) k.
Proof.
  intros Hd Hs HL Fd Fs H0 Hstep. unfold view_assign_view, view_assign_rd. rewrite (proj1 Hd), (proj1 Hs), HL, Z.eqb_refl.
  rewrite check_debug_true. pose proof (zlen_nonneg ps) as Hnn.
  apply (mfor_inv (fun i b' => zlen b' = zlen b /\ forall k, znth b' k = g i k)); auto.
  intros i b1 Hi [L1 E1].
  destruct (znth_some pd i ltac:(lia)) as [p Hp]. destruct (znth_some ps i ltac:(lia)) as [q Hq].
  rewrite Forall_forall in Fd, Fs. pose proof (Fd p (znth_in _ _ _ Hp)) as Rp. pose proof (Fs q (znth_in _ _ _ Hq)) as Rq.
  destruct (znth_some b1 q) as [x Hx]; [lia|].
  rewrite (view_un_ok _ ps _ _ q) by assumption.
  rewrite (oget_ok _ _ _ Hx). cbn [bind]. rewrite (view_set_ok _ pd _ _ p) by (auto; lia).
  cbn [commit]. eexists. split; [reflexivity|]. rewrite zlen_zupd. split; [assumption|].
  intros k. rewrite znth_zupd by lia. rewrite (Hstep i k p q) by (auto; lia). rewrite <- !E1, Hx. reflexivity.
Qed.

Lemma view_of_slice c n s : 0 <= n <= LONG_MAX -> args_long s -> acceptable n s -> no_overflow n s ->
  exists v, view_slice c (VBase n) s = Ok v /\ view_addresses v (positions n s).
Proof.
  intros Hn HA Hacc Hno. destruct (view_slice_ok c (VBase n) s) as (r & E & Hr); auto.
  exists (VSlice (VBase n) r). split; [exact E|]. destruct Hr as [Hs Hm]. cbn [view_size] in *. split; [exact Hs|].
  intros i Hi. cbn [view_map]. rewrite Hm by assumption. destruct (znth_some _ _ Hi) as [p Hp]. 
  rewrite (oget_ok _ _ _ Hp). reflexivity.
Qed.

Lemma all_in_range n (b : list V) : zlen b = n -> Forall (fun p => 0 <= p < zlen b) (all_positions n).
Proof. intros <-. apply Forall_forall. intros p Hp. apply in_zseq in Hp. pose proof (zlen_nonneg b). lia. Qed.
Lemma znth_all_positions n i p : 0 <= n -> znth (all_positions n) i = Some p -> p = i /\ 0 <= i < n.
Proof.
  intros Hn H. apply znth_lt in H as Hr. unfold all_positions in *. rewrite zlen_zseq in Hr.
  rewrite znth_zseq in H by lia. injection H as <-. lia.
Qed.

(* A(all) = A(reverse) mirrors the upper half onto the lower half and leaves the upper half as it was. *)
Lemma assign_reverse c b srcv : zlen b <= LONG_MAX -> view_slice c (VBase (zlen b)) Reverse = Ok srcv ->
  exists b', view_assign_view c (VBase (zlen b)) srcv b = MOk b' /\ zlen b' = zlen b /\
    forall k, 0 <= k < zlen b -> znth b' k = if 2 * k <? zlen b then znth b (zlen b - 1 - k) else znth b k.
Proof.
  intros HL E. set (n := zlen b) in *. pose proof (zlen_nonneg b) as Hnn. fold n in Hnn.
  destruct (view_of_slice c n Reverse) as (v & E' & Hv); try exact I; [lia|]. rewrite E' in E. injection E as ->.
  cbn [positions] in Hv.
  destruct (view_assign_view_pointwise c (VBase n) srcv (all_positions n) (rev (all_positions n)) b
    (fun i k => if (0 <=? k) && (k <? i) && (2 * k <? n) then znth b (n - 1 - k) else znth b k)) as (b' & Hb' & HL' & HP).
  - apply view_base. lia.
  - exact Hv.
  - now rewrite zlen_rev.
  - now apply all_in_range.
  - apply Forall_rev. now apply all_in_range.
  - intros k. replace ((0 <=? k) && (k <? 0)) with false by lia. reflexivity.
  - intros i k p q Hi Hp Hq. apply znth_all_positions in Hp as [-> Hr]; [|lia].
    rewrite znth_rev in Hq by (unfold all_positions; rewrite zlen_zseq; lia).
    apply znth_all_positions in Hq as [Hq Hr']; [|lia]. unfold all_positions in Hq. rewrite zlen_zseq in Hq.
    assert (q = n - 1 - i) as -> by lia. clear Hq.
    destruct (Z.eqb_spec k i) as [->|Hne].
    + replace ((0 <=? i) && (i <? i + 1)) with true by lia. cbn [andb].
      destruct (Z.ltb_spec (2 * i) n).
      * replace ((0 <=? n - 1 - i) && (n - 1 - i <? i)) with false by lia. reflexivity.
      * replace ((0 <=? n - 1 - i) && (n - 1 - i <? i) && (2 * (n - 1 - i) <? n)) with true by lia.
        f_equal. lia.
    + replace ((0 <=? k) && (k <? i + 1)) with ((0 <=? k) && (k <? i)) by lia. reflexivity.
  - exists b'. split; [exact Hb'|]. split; [exact HL'|]. intros k Hk. rewrite HP, zlen_rev.
    unfold all_positions. rewrite zlen_zseq. replace ((0 <=? k) && (k <? _)) with true by lia. reflexivity.
Qed.

(* A(seqN{d, n-d}) = A(firstN(n-d)) with d > 0 repeats the first d elements periodically. *)
Lemma assign_right_shift c b d dst srcv : zlen b <= LONG_MAX -> 0 < d <= zlen b ->
  view_slice c (VBase (zlen b)) (LastN (zlen b - d)) = Ok dst ->
  view_slice c (VBase (zlen b)) (FirstN (zlen b - d)) = Ok srcv ->
  exists b', view_assign_view c dst srcv b = MOk b' /\ zlen b' = zlen b /\
    forall k, 0 <= k < zlen b -> znth b' k = znth b (k mod d).
Proof.
  intros HL Hd E1 E2. set (n := zlen b) in *. pose proof (zlen_nonneg b) as Hnn. fold n in Hnn.
  destruct (view_of_slice c n (LastN (n - d))) as (v1 & E1' & Hv1); cbn [args_long acceptable no_overflow]; unfold is_long, LONG_MIN in *; try exact I; try lia.
  rewrite E1' in E1. injection E1 as ->.
  destruct (view_of_slice c n (FirstN (n - d))) as (v2 & E2' & Hv2); cbn [args_long acceptable no_overflow]; unfold is_long, LONG_MIN in *; try exact I; try lia.
  rewrite E2' in E2. injection E2 as ->.
  pose proof (positions_in_range n (LastN (n - d)) Hnn ltac:(simpl; lia)) as R1.
  pose proof (positions_in_range n (FirstN (n - d)) Hnn ltac:(simpl; lia)) as R2.
  cbn [positions] in *. rewrite last_positions in Hv1, R1 by lia. rewrite first_positions in Hv2, R2 by lia.
  destruct (view_assign_view_pointwise c dst srcv (map (fun i => (n - (n - d)) + i * 1) (all_positions (n - d))) (map (fun i => 0 + i * 1) (all_positions (n - d))) b
    (fun i k => if (0 <=? k) && (k <? i + d) then znth b (k mod d) else znth b k)) as (b' & Hb' & HL' & HP).
  - exact Hv1.
  - exact Hv2.
  - rewrite !zlen_map. reflexivity.
  - exact R1.
  - exact R2.
  - intros k. destruct ((0 <=? k) && (k <? 0 + d)) eqn:E; [|reflexivity]. rewrite Z.mod_small by lia. reflexivity.
  - intros i k p q Hi Hp Hq. 
    apply znth_lt in Hp as Hr. unfold all_positions in Hp, Hq, Hr. rewrite zlen_map, zlen_zseq in Hr.
    rewrite znth_map_zseq in Hp by lia. rewrite znth_map_zseq in Hq by lia.
    assert (p = i + d) as -> by (injection Hp; lia). assert (q = i) as -> by (injection Hq; lia). clear Hp Hq.
    destruct (Z.eqb_spec k (i + d)) as [->|Hne].
    + replace ((0 <=? i + d) && (i + d <? i + 1 + d)) with true by lia.
      replace ((0 <=? i) && (i <? i + d)) with true by lia. f_equal.
      replace (i + d) with (i + 1 * d) by lia. apply Z.mod_add. lia.
    + replace ((0 <=? k) && (k <? i + 1 + d)) with ((0 <=? k) && (k <? i + d)) by lia. reflexivity.
  - exists b'. split; [exact Hb'|]. split; [exact HL'|]. intros k Hk. rewrite HP, zlen_map.
    unfold all_positions. rewrite zlen_zseq. replace ((0 <=? k) && (k <? _)) with true by lia. reflexivity.
Qed.

(* Left shifts (and exact overlaps) never read an overwritten element. *)
Lemma left_shift_safe a a' m d : 0 < d -> a <= a' ->
  reads_before_writes (map (fun i => a + i * d) (all_positions m)) (map (fun i => a' + i * d) (all_positions m)).
Proof.
  intros Hd Ha i j p Hij Hp Hq.
  apply znth_lt in Hp as R1. apply znth_lt in Hq as R2. unfold all_positions in *. rewrite zlen_map, zlen_zseq in *.
  rewrite znth_map_zseq in Hp by lia. rewrite znth_map_zseq in Hq by lia. injection Hp as <-. injection Hq as H. nia.
Qed.

(** Whole-array assignment [A = <slice of A>] (array_base1D.hpp 252-257) is the same loop. *)
Lemma arr_assign_view_same c a srcv : an a = zlen (buf a) ->
  arr_assign_rd c (view_size srcv) (fun b i => view_un srcv b i) a =
  with_buf a (view_assign_view c (VBase (an a)) srcv (buf a)).
Proof.
  intros Ha. unfold arr_assign_rd, view_assign_view, view_assign_rd. cbn [view_size].
  destruct (check_debug c (Ok (an a =? view_size srcv))); cbn [with_buf mbind]; [|destruct a; reflexivity|reflexivity].
  f_equal. 
Qed.
End V.
