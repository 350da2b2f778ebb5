(** Merges of matrices, views of expressions, reductions, and expression trees of any depth. *)
From Verif Require Import Base.Outcome Base.ZList Model.IntModel Model.ScalarOps Model.Index Model.Slice Model.Array1D Model.Array2D Model.View2D Model.Expr.
From Verif Require Import Spec.ArraySpec Spec.SliceSpec Spec.MatrixSpec Spec.Matrix2Spec Spec.View2DSpec Spec.ExprSpec.
From Verif Require Import Proofs.ScalarProofs Proofs.Array1DProofs Proofs.SliceProofs Proofs.ViewProofs Proofs.SliceThms Proofs.MatrixProofs Proofs.Array2DProofs Proofs.Array2DSim Proofs.View2DProofs Proofs.View2DOps Proofs.View2DThms Proofs.ExprProofs.

Section Merge2.
Context (c : cfg).
Lemma plump_size {V} (M : mx V) : plump M -> 0 <= mr M -> 0 <= mc M -> (mr M * mc M = 0 <-> mr M = 0) /\ (mr M = 0 /\ mc M = 0 \/ 0 < mr M /\ 0 < mc M).
Proof. unfold plump. intros H H1 H2. split; [|lia]. rewrite Z.mul_eq_0. tauto. Qed.

Definition hjoin {V} (M N : mx V) : mx V :=
  mkmx (Z.max (mr M) (mr N)) (mc M + mc N) (fun i j => if j <? mc M then mel M i j else mel N i (j - mc M)).
Definition vjoin {V} (M N : mx V) : mx V :=
  mkmx (mr M + mr N) (Z.max (mc M) (mc N)) (fun i j => if i <? mr M then mel M i j else mel N (i - mr M) j).

Lemma mergeh_step {V} (A B : src2 V) M N r1 r2 : yields2 A M -> yields2 B N -> plump M -> plump N -> r1 = mr M -> r2 = mr N ->
  Z.max (mr M) (mr N) * (mc M + mc N) <= LONG_MAX -> (nonempty M -> nonempty N -> mr M = mr N) ->
  exists R, ((if negb (s2size A =? 0) && negb (s2size B =? 0) then check_debug c (Ok (r1 =? r2)) else Ok tt) ;;;
    let m := if negb (s2size A =? 0) then s2rows A else s2rows B in
    n <- ladd (s2cols A) (s2cols B) ;; x_gen2 c m n (horizontal_op c A B)) = Ok R /\ yields2 R (hjoin M N).
Proof.
  intros HA HB PM PN -> -> HL HR. pose proof HA as (E1 & E2 & B1 & B2 & E3 & B3 & _). pose proof HB as (F1 & F2 & C1 & C2 & F3 & C3 & _).
  destruct (plump_size M PM) as [SM DM]; try lia. destruct (plump_size N PN) as [SN DN]; try lia.
  pose proof HA as (_ & _ & _ & _ & _ & _ & _ & LA). pose proof HB as (_ & _ & _ & _ & _ & _ & _ & LB).
  assert (forall P, (if negb (s2size A =? 0) && negb (s2size B =? 0) then check_debug c (Ok (mr M =? mr N)) else Ok tt) ;;; P = P :> outcome (src2 V)) as EC.
  { intros P. rewrite E3, F3. destruct (Z.eqb_spec (mr M * mc M) 0); [reflexivity|]. destruct (Z.eqb_spec (mr N * mc N) 0); [reflexivity|]. cbn [negb andb].
    replace (mr M =? mr N) with true; [now rewrite check_debug_true|]. symmetry. apply Z.eqb_eq, HR; unfold nonempty; lia. }
  rewrite EC. assert ((if negb (s2size A =? 0) then s2rows A else s2rows B) = mr (hjoin M N)) as ->.
  { cbn [hjoin mr]. rewrite E3, E1, F1. destruct (Z.eqb_spec (mr M * mc M) 0) as [E|E]; cbn [negb]; [lia|].
    destruct DN as [[DN _]|[DN DN']]; [lia|]. assert (mr M = mr N) by (apply HR; unfold nonempty; lia). lia. }
  assert (mc M + mc N <= LONG_MAX) as BN. { destruct DM as [DM|DM], DN as [DN|DN]; try lia. nia. }
  cbn zeta. rewrite E2, F2. rewrite ladd_ok by (unfold LONG_MIN; lia). cbn [bind]. apply (gen2_ok c (horizontal_op c A B) (hjoin M N)).
  { unfold sized. cbn [hjoin mr mc]. lia. }
  cbn [hjoin mr mc mel]. intros i j Hi Hj. unfold horizontal_op. rewrite E2, F2. rewrite ladd_ok by (unfold LONG_MIN; lia). cbn [bind].
  pose proof (addr_max _ _ i j Hi Hj HL) as BA. pose proof (index_map_ok c (mc M + mc N) i j) as IM. unfold index_map_one_to_two in IM.
  destruct (ldiv c (i * (mc M + mc N) + j) (mc M + mc N)) as [q| |]; try (discriminate IM; lia). cbn [bind] in *.
  destruct (lmod c (i * (mc M + mc N) + j) (mc M + mc N)) as [r| |]; try (discriminate IM; lia). cbn [bind] in *.
  assert (q = i /\ r = j) as [-> ->] by (split; injection IM; lia). rewrite lsub_ok by (unfold LONG_MIN, LONG_MAX in *; lia). cbn [bind].
  assert (j < mc M -> i < mr M) as I1. { intros. destruct DM; [lia|]. destruct DN as [DN|DN]; [lia|]. assert (mr M = mr N) by (apply HR; unfold nonempty; lia). lia. }
  assert (mc M <= j -> i < mr N) as I2. { intros. destruct DN; [lia|]. destruct DM as [DM|DM]; [lia|]. assert (mr M = mr N) by (apply HR; unfold nonempty; lia). lia. }
  destruct (Z.ltb_spec j (mc M)).
  - pose proof (addr_max (mr M) (mc M) i j ltac:(lia) ltac:(lia) B3). rewrite lmul_ok by (unfold LONG_MIN; lia). cbn [bind]. rewrite ladd_ok by (unfold LONG_MIN; lia). cbn [bind]. apply LA; lia.
  - pose proof (addr_max (mr N) (mc N) i (j - mc M) ltac:(lia) ltac:(lia) C3). rewrite lmul_ok by (unfold LONG_MIN; lia). cbn [bind]. rewrite ladd_ok by (unfold LONG_MIN; lia). cbn [bind]. apply LB; lia.
Qed.
Lemma mergev_step {V} (A B : src2 V) M N r1 r2 : yields2 A M -> yields2 B N -> plump M -> plump N -> r1 = mc M -> r2 = mc N ->
  (mr M + mr N) * Z.max (mc M) (mc N) <= LONG_MAX -> (nonempty M -> nonempty N -> mc M = mc N) ->
  exists R, ((if negb (s2size A =? 0) && negb (s2size B =? 0) then check_debug c (Ok (r1 =? r2)) else Ok tt) ;;;
    let n := if negb (s2size A =? 0) then s2cols A else s2cols B in
    m <- ladd (s2rows A) (s2rows B) ;;
    x_gen2 c m n (fun i => if i <? s2size A then s2lin A i else k <- lsub i (s2size A) ;; s2lin B k)) = Ok R /\ yields2 R (vjoin M N).
Proof.
  intros HA HB PM PN -> -> HL HR. pose proof HA as (E1 & E2 & B1 & B2 & E3 & B3 & _). pose proof HB as (F1 & F2 & C1 & C2 & F3 & C3 & _).
  destruct (plump_size M PM) as [SM DM]; try lia. destruct (plump_size N PN) as [SN DN]; try lia.
  pose proof HA as (_ & _ & _ & _ & _ & _ & _ & LA). pose proof HB as (_ & _ & _ & _ & _ & _ & _ & LB).
  assert (forall P, (if negb (s2size A =? 0) && negb (s2size B =? 0) then check_debug c (Ok (mc M =? mc N)) else Ok tt) ;;; P = P :> outcome (src2 V)) as EC.
  { intros P. rewrite E3, F3. destruct (Z.eqb_spec (mr M * mc M) 0); [reflexivity|]. destruct (Z.eqb_spec (mr N * mc N) 0); [reflexivity|]. cbn [negb andb].
    replace (mc M =? mc N) with true; [now rewrite check_debug_true|]. symmetry. apply Z.eqb_eq, HR; unfold nonempty; lia. }
  rewrite EC. assert ((if negb (s2size A =? 0) then s2cols A else s2cols B) = mc (vjoin M N)) as ->.
  { cbn [vjoin mc]. rewrite E3, E2, F2. destruct (Z.eqb_spec (mr M * mc M) 0) as [E|E]; cbn [negb]; [lia|].
    destruct DN as [[_ DN]|[DN DN']]; [lia|]. assert (mc M = mc N) by (apply HR; unfold nonempty; lia). lia. }
  assert (mr M + mr N <= LONG_MAX) as BN. { destruct DM as [DM|DM], DN as [DN|DN]; try lia. nia. }
  cbn zeta. rewrite E1, F1, E3. rewrite ladd_ok by (unfold LONG_MIN; lia). cbn [bind].
  match goal with |- context [x_gen2 c _ _ ?g] => apply (gen2_ok c g (vjoin M N)) end.
  { unfold sized. cbn [vjoin mr mc]. lia. }
  cbn [vjoin mr mc mel]. intros i j Hi Hj. pose proof (addr_max _ _ i j Hi Hj HL) as BA.
  assert (i < mr M -> mc M = Z.max (mc M) (mc N)) as I1. { intros. destruct DM; [lia|]. destruct DN as [DN|DN]; [lia|]. assert (mc M = mc N) by (apply HR; unfold nonempty; lia). lia. }
  assert (mr M <= i -> mc N = Z.max (mc M) (mc N) /\ (mr M = 0 \/ mc M = mc N)) as I2. { intros. destruct DN; [lia|]. destruct DM as [DM|DM]; [lia|]. assert (mc M = mc N) by (apply HR; unfold nonempty; lia). lia. }
  destruct (Z.ltb_spec i (mr M)).
  - rewrite <- I1 in * by lia. replace (i * mc M + j <? mr M * mc M) with true; [apply LA; lia|]. symmetry. apply Z.ltb_lt. pose proof (addr_range (mr M) (mc M) i j). lia.
  - destruct (I2 ltac:(lia)) as [I3 I4]. rewrite <- I3 in *. assert (mr M * mc M = mr M * mc N) as -> by (destruct I4 as [->| ->]; lia).
    assert (mr M * mc N <= i * mc N) by (apply Z.mul_le_mono_nonneg_r; lia). assert (0 <= mr M * mc N) by (apply Z.mul_nonneg_nonneg; lia).
    replace (i * mc N + j <? mr M * mc N) with false by (symmetry; apply Z.ltb_ge; clear - H0 Hj; lia). rewrite lsub_ok by (unfold LONG_MIN; lia). cbn [bind].
    replace (i * mc N + j - mr M * mc N) with ((i - mr M) * mc N + j) by lia. apply LB; lia.
Qed.
Lemma mergeh_ok {V} (A B : src2 V) M N : yields2 A M -> yields2 B N -> plump M -> plump N ->
  Z.max (mr M) (mr N) * (mc M + mc N) <= LONG_MAX -> (nonempty M -> nonempty N -> mr M = mr N) ->
  exists R, x_mergeh c A B = Ok R /\ yields2 R (hjoin M N).
Proof. intros HA HB. intros. apply (mergeh_step (x_un2 Ok A) (x_un2 Ok B) M N (s2rows A) (s2rows B)); auto using un2_id; [apply HA|apply HB]. Qed.
Lemma mergev_ok {V} (A B : src2 V) M N : yields2 A M -> yields2 B N -> plump M -> plump N ->
  (mr M + mr N) * Z.max (mc M) (mc N) <= LONG_MAX -> (nonempty M -> nonempty N -> mc M = mc N) ->
  exists R, x_mergev c A B = Ok R /\ yields2 R (vjoin M N).
Proof. intros HA HB. intros. apply (mergev_step (x_un2 Ok A) (x_un2 Ok B) M N (s2cols A) (s2cols B)); auto using un2_id; [apply HA|apply HB]. Qed.
Lemma mergeh_bad {V} (A B : src2 V) M N : yields2 A M -> yields2 B N -> nonempty M -> nonempty N -> mr M <> mr N -> checked c = true -> x_mergeh c A B = Fail (report c).
Proof.
  intros HA HB NM NN HR HC. pose proof HA as (E1 & E2 & B1 & B2 & E3 & B3 & _). pose proof HB as (F1 & F2 & C1 & C2 & F3 & C3 & _). unfold nonempty in *.
  unfold x_mergeh. cbn [x_un2 s2size]. rewrite E3, F3, E1, F1. replace (mr M * mc M =? 0) with false by (symmetry; apply Z.eqb_neq; nia).
  replace (mr N * mc N =? 0) with false by (symmetry; apply Z.eqb_neq; nia). cbn [negb andb]. replace (mr M =? mr N) with false by lia. now rewrite check_debug_false.
Qed.
Lemma mergev_bad {V} (A B : src2 V) M N : yields2 A M -> yields2 B N -> nonempty M -> nonempty N -> mc M <> mc N -> checked c = true -> x_mergev c A B = Fail (report c).
Proof.
  intros HA HB NM NN HR HC. pose proof HA as (E1 & E2 & B1 & B2 & E3 & B3 & _). pose proof HB as (F1 & F2 & C1 & C2 & F3 & C3 & _). unfold nonempty in *.
  unfold x_mergev. cbn [x_un2 s2size]. rewrite E3, F3, E2, F2. replace (mr M * mc M =? 0) with false by (symmetry; apply Z.eqb_neq; nia).
  replace (mr N * mc N =? 0) with false by (symmetry; apply Z.eqb_neq; nia). cbn [negb andb]. replace (mc M =? mc N) with false by lia. now rewrite check_debug_false.
Qed.

(** ** Views of expressions *)
Lemma see1_ok {V} (rd rd' : Z -> outcome V) o ps : o_denotes c o (D1 ps) -> (forall p, In p ps -> rd p = rd' p) ->
  exists R, x_see1 c rd o = Ok R /\ yields R (map rd' ps).
Proof.
  intros (_ & HL & ES & EL) HR. unfold x_see1. rewrite ES. cbn [bind]. eexists. split; [reflexivity|]. unfold yields. rewrite zlen_map. cbn [ssize sun].
  split; [reflexivity|]. split; [assumption|]. intros i Hi. destruct (znth_some ps i Hi) as [p Ep]. rewrite (EL i p Ep). cbn [bind]. unfold elt.
  rewrite znth_map, Ep. cbn [option_map]. apply HR. now apply znth_in in Ep.
Qed.
Lemma mget_entries (P : list (list Z)) i j p : mget P i j = Some p -> In p (concat P).
Proof.
  unfold mget. destruct (znth P i) eqn:E; [|discriminate]. intros H. apply in_concat. exists l. split; [now apply znth_in in E|now apply znth_in in H].
Qed.
Lemma see2_ok {V} (rd rd' : Z -> outcome V) o P : o_denotes c o (D2 P) -> (forall p, In p (concat P) -> rd p = rd' p) ->
  exists R, x_see2 c rd o = Ok R /\ yields2 R (see_mx rd' (Some (D2 P))).
Proof.
  intros HD HR. destruct (den2_dims c o P HD) as [D1 D2]. destruct HD as (_ & Hw & HL & ER & EC & ES & EA & EL). unfold x_see2. rewrite ES. cbn [bind]. eexists. split; [reflexivity|].
  pose proof (wfm_rect _ Hw) as HRc. unfold yields2, see_mx. cbn [s2rows s2cols s2size s2un s2lin mr mc mel]. repeat split; auto; try lia.
  - intros i j Hi Hj. destruct (mget_some _ P i j HRc Hi Hj) as [p Ep]. rewrite Ep, (EA i j p Ep). cbn [bind]. apply HR. eapply mget_entries, Ep.
  - intros i j Hi Hj. destruct (mget_some _ P i j HRc Hi Hj) as [p Ep]. rewrite Ep. rewrite (EL _ p) by (rewrite (concat_get (ncols P)); auto). cbn [bind]. apply HR. eapply mget_entries, Ep.
Qed.
Lemma base1_ok {V} (A : src1 V) l : yields A l -> o_denotes c (x_base1 A) (whole1 (zlen l)) /\ forall p, In p (entries (whole1 (zlen l))) -> sun A p = elt l p.
Proof.
  intros (E & HL & HU). pose proof (zlen_nonneg l). unfold x_base1. rewrite E.
  destruct (root_den c (zlen l) (O1 (zlen l)) (whole1 (zlen l))) as [R1 R2]; [left; repeat split; lia|]. split; [assumption|]. intros p Hp. apply HU. now apply R2.
Qed.
Lemma base2_ok {V} (A : src2 V) M : yields2 A M -> plump M ->
  o_denotes c (x_base2 A) (whole2 (mr M) (mc M)) /\ forall p, In p (entries (whole2 (mr M) (mc M))) -> s2lin A p = mlin M p.
Proof.
  intros HA HP. pose proof HA as (E1 & E2 & B1 & B2 & E3 & B3 & _). unfold x_base2. rewrite E1, E2, E3.
  destruct (root_den c (mr M * mc M) (O2 (mr M) (mc M) (mr M * mc M)) (whole2 (mr M) (mc M))) as [R1 R2].
  { right. exists (mr M), (mc M). repeat split; try lia; apply HP. }
  split; [assumption|]. intros p Hp. apply yields2_lin; [assumption|]. now apply R2.
Qed.
Lemma view_one {V} o d w (rd rd' : Z -> outcome V) : o_denotes c o d -> (forall p, In p (entries d) -> rd p = rd' p) ->
  vop_typed d w = true -> to_one w = true -> vop_fits d w -> vop_ok d w ->
  exists R, (o' <- o_apply c o w ;; x_see1 c rd o') = Ok R /\ yields R (see_list rd' (den_apply d w)).
Proof.
  intros HD HR HT H1 HF HO. destruct (apply_ok c o d w HD HT HF HO) as (o' & d' & E1 & E2 & HD'). rewrite E2, E1. cbn [bind].
  pose proof (entries_apply d w d' E1) as HE. destruct d' as [ps|P].
  - apply (see1_ok rd rd' o' ps HD'). intros p Hp. apply HR, HE, Hp.
  - exfalso. destruct d as [qs|Q], w; cbn in E1; try discriminate; destruct (znth Q _); discriminate.
Qed.
Lemma view_two {V} o d w (rd rd' : Z -> outcome V) : o_denotes c o d -> (forall p, In p (entries d) -> rd p = rd' p) ->
  vop_typed d w = true -> to_one w = false -> vop_fits d w -> vop_ok d w ->
  exists R, (o' <- o_apply c o w ;; x_see2 c rd o') = Ok R /\ yields2 R (see_mx rd' (den_apply d w)).
Proof.
  intros HD HR HT H1 HF HO. destruct (apply_ok c o d w HD HT HF HO) as (o' & d' & E1 & E2 & HD'). rewrite E2, E1. cbn [bind].
  pose proof (entries_apply d w d' E1) as HE. destruct d' as [ps|P].
  - exfalso. destruct d as [qs|Q], w; cbn in E1; discriminate.
  - apply (see2_ok rd rd' o' P HD'). intros p Hp. apply HR, HE, Hp.
Qed.
Lemma plain_fits n i : 0 <= i < n -> n <= LONG_MAX -> idx_fits n (Plain i).
Proof. intros. unfold idx_fits, is_long, LONG_MIN. lia. Qed.
Lemma whole2_shape m n : 0 <= m -> 0 <= n -> (m = 0 <-> n = 0) -> m * n <= LONG_MAX ->
  exists P, whole2 m n = D2 P /\ zlen P = m /\ ncols P = n /\ wfm P /\ forall i j, 0 <= i < m -> 0 <= j < n -> mget P i j = Some (i * n + j).
Proof.
  intros Hm Hn HZ HL. pose proof (whole2_den c m n Hm Hn HZ HL) as HD. unfold whole2 in *. eexists. split; [reflexivity|].
  destruct HD as (_ & Hw & _ & ER & EC & _). cbn [o_rows o_cols] in *. split; [now rewrite <- ER|]. split; [now rewrite <- EC|]. split; [assumption|].
  intros i j Hi Hj. assert (0 <= m * n) by nia. destruct (chunks_spec m n (all_positions (m * n)) Hm Hn) as (_ & _ & H3).
  { unfold all_positions. rewrite zlen_zseq. lia. }
  rewrite H3 by assumption. unfold all_positions. pose proof (addr_range m n i j Hi Hj). now rewrite znth_zseq by lia.
Qed.
Lemma row_src {V} (A : src2 V) M i : yields2 A M -> plump M -> 0 <= i < mr M -> exists r, x_row c A i = Ok r /\ yields r (mrow M i).
Proof.
  intros HA HP Hi. pose proof HA as (E1 & E2 & B1 & B2 & E3 & B3 & _). destruct (base2_ok A M HA HP) as [HD HR].
  destruct (whole2_shape (mr M) (mc M)) as (P & EP & LP & NP & WP & GP); try lia; [exact HP|]. rewrite EP in *.
  destruct (row_ok c (x_base2 A) P (Plain i) HD) as (r & o' & Er & Eo & HD'); cbn [denotes]; [apply plain_fits; lia|lia|]. cbn [denotes] in Er.
  unfold x_row. rewrite Eo. cbn [bind]. destruct (see1_ok (s2lin A) (mlin M) o' r HD') as (R & ER & YR).
  { intros p Hp. apply HR. cbn. apply in_concat. exists r. split; [now apply znth_in in Er|assumption]. }
  exists R. split; [assumption|]. pose proof (rect_nth _ _ _ _ (wfm_rect _ WP) Er) as Lr. unfold mrow.
  eapply yields_ext; [exact YR| |]; rewrite !zlen_map, ?zlen_zseq, Lr; [lia|]. intros j Hj. rewrite elt_gen by lia. unfold elt. rewrite znth_map.
  specialize (GP i j ltac:(lia) ltac:(lia)). unfold mget in GP. rewrite Er in GP. rewrite GP. cbn [option_map]. apply mlin_at; lia.
Qed.
Lemma col_src {V} (A : src2 V) M j : yields2 A M -> plump M -> 0 <= j < mc M -> exists r, x_col c A j = Ok r /\ yields r (mcol M j).
Proof.
  intros HA HP Hj. pose proof HA as (E1 & E2 & B1 & B2 & E3 & B3 & _). destruct (base2_ok A M HA HP) as [HD HR].
  destruct (whole2_shape (mr M) (mc M)) as (P & EP & LP & NP & WP & GP); try lia; [exact HP|]. rewrite EP in *.
  destruct (col_ok c (x_base2 A) P (Plain j) HD) as (o' & Eo & HD'); cbn [denotes]; [apply plain_fits; lia|lia|]. cbn [denotes] in HD'.
  destruct (column_spec P j WP) as [LC NC]; [lia|]. unfold x_col. rewrite Eo. cbn [bind]. destruct (see1_ok (s2lin A) (mlin M) o' _ HD') as (R & ER & YR).
  { intros p Hp. apply HR. cbn. apply in_znth in Hp as [i Ei]. rewrite NC in Ei. eapply mget_entries, Ei. }
  exists R. split; [assumption|]. unfold mcol.
  eapply yields_ext; [exact YR| |]; rewrite !zlen_map, ?zlen_zseq, LC; [lia|]. intros i Hi. rewrite elt_gen by lia. unfold elt. rewrite znth_map, NC.
  rewrite (GP i j) by lia. cbn [option_map]. apply mlin_at; lia.
Qed.
Lemma row_reduce_ok {V W} (op : src1 V -> outcome W) opl A M : yields2 A M -> plump M -> (forall r l, yields r l -> op r = opl l) ->
  yields (x_row_reduce c op A) (map (fun i => opl (mrow M i)) (zseq 0 (Z.to_nat (mr M)))).
Proof.
  intros HA HP HO. pose proof HA as (E1 & E2 & B1 & B2 & E3 & B3 & _). unfold yields. rewrite zlen_map, zlen_zseq. cbn [x_row_reduce ssize sun]. split; [lia|]. split; [lia|].
  intros i Hi. rewrite elt_gen by lia. destruct (row_src A M i HA HP) as (r & Er & Yr); [lia|]. rewrite Er. cbn [bind]. now apply HO.
Qed.
Lemma col_reduce_ok {V W} (op : src1 V -> outcome W) opl A M : yields2 A M -> plump M -> (forall r l, yields r l -> op r = opl l) ->
  yields (x_col_reduce c op A) (map (fun j => opl (mcol M j)) (zseq 0 (Z.to_nat (mc M)))).
Proof.
  intros HA HP HO. pose proof HA as (E1 & E2 & B1 & B2 & E3 & B3 & _). unfold yields. rewrite zlen_map, zlen_zseq. cbn [x_col_reduce ssize sun]. split; [lia|]. split; [lia|].
  intros i Hi. rewrite elt_gen by lia. destruct (col_src A M i HA HP) as (r & Er & Yr); [lia|]. rewrite Er. cbn [bind]. now apply HO.
Qed.
(** ** Dot products *)
Lemma sub_ok {V} (A : src1 V) l i : yields A l -> 0 <= i < zlen l -> sub1 c A (Plain i) = elt l i.
Proof.
  intros (E & HL & HU) Hi. unfold sub1, idx_get, valid_index. cbn [bind]. rewrite E. replace ((-1 <? i) && (i <? zlen l)) with true by lia. rewrite check_debug_true. cbn [bind]. now apply HU.
Qed.
Lemma dot_from {U V W} (add : W -> W -> outcome W) (mul : U -> V -> outcome W) A B l k : yields A l -> yields B k -> zlen l = zlen k ->
  forall n i s, 0 <= i -> Z.of_nat n = zlen l - i ->
  for_loop n i (fun i s => a <- sub1 c A (Plain i) ;; b <- sub1 c B (Plain i) ;; p <- mul a b ;; add s p) s = dotl s add mul (skipn (Z.to_nat i) l) (skipn (Z.to_nat i) k).
Proof.
  intros HA HB HL. induction n as [|n IH]; intros i s Hi Hn.
  - rewrite !skipn_all2 by (unfold zlen in *; lia). reflexivity.
  - cbn [for_loop]. rewrite (sub_ok A l), (sub_ok B k) by (auto; lia).
    assert (forall X (t : list (outcome X)), i < zlen t -> skipn (Z.to_nat i) t = elt t i :: skipn (Z.to_nat (i + 1)) t) as SK.
    { intros X t Ht. destruct (znth_some t i) as [x Ex]; [lia|]. unfold elt. rewrite Ex. unfold znth in Ex. destruct (i <? 0); [discriminate|].
      replace (Z.to_nat (i + 1)) with (S (Z.to_nat i)) by lia. clear -Ex. revert Ex. generalize (Z.to_nat i). intros m. revert t. induction m as [|m IH]; intros [|y t] E; try discriminate.
      - cbn in *. congruence.
      - cbn [skipn]. now apply IH. }
    rewrite (SK U l), (SK V k) by lia. cbn [dotl]. unfold both. destruct (elt l i); try reflexivity. cbn [bind]. destruct (elt k i); try reflexivity. cbn [bind].
    destruct (mul a a0); try reflexivity. cbn [bind]. destruct (add s a1); try reflexivity. cbn [bind]. apply IH; lia.
Qed.
Lemma dot_ok {U V W} (z : W) add (mul : U -> V -> outcome W) A B l k : yields A l -> yields B k -> zlen l = zlen k -> x_dot c z add mul A B = dotl z add mul l k.
Proof.
  intros HA HB HL. unfold x_dot, for_. destruct HA as (E & HA'). rewrite E. pose proof (zlen_nonneg l).
  rewrite (dot_from add mul A B l k); auto; try lia. split; auto.
Qed.
Lemma matvec_ok {U V W} (z : W) add (mul : U -> V -> outcome W) A x M l : yields2 A M -> plump M -> yields x l -> mc M = zlen l ->
  exists R, x_matvec c z add mul A x = Ok R /\ yields R (map (fun i => dotl z add mul (mrow M i) l) (zseq 0 (Z.to_nat (mr M)))).
Proof.
  intros HA HP HX HC. pose proof HA as (E1 & E2 & B1 & B2 & E3 & B3 & _). unfold x_matvec. rewrite E2, (proj1 HX). replace (mc M =? zlen l) with true by lia. rewrite check_debug_true. cbn [bind].
  eexists. split; [reflexivity|]. unfold yields. rewrite zlen_map, zlen_zseq. cbn [x_row_reduce ssize sun]. split; [lia|]. split; [lia|].
  intros i Hi. rewrite elt_gen by lia. destruct (row_src A M i HA HP) as (r & Er & Yr); [lia|]. rewrite Er. cbn [bind]. apply dot_ok; auto. unfold mrow. rewrite zlen_map, zlen_zseq. lia.
Qed.
Lemma matvec_bad {U V W} (z : W) add (mul : U -> V -> outcome W) A x M l : yields2 A M -> yields x l -> mc M <> zlen l -> checked c = true -> x_matvec c z add mul A x = Fail (report c).
Proof. intros (E1 & E2 & _) HX HC HK. unfold x_matvec. rewrite E2, (proj1 HX). replace (mc M =? zlen l) with false by lia. now rewrite check_debug_false. Qed.
End Merge2.
