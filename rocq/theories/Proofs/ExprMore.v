(** Point-wise expressions, merges of several arrays, generated arrays, transposition, equality. *)
From Verif Require Import Base.Outcome Base.ZList Model.IntModel Model.ScalarOps Model.Index Model.Slice Model.Array1D Model.Array2D Model.View2D Model.Expr.
From Verif Require Import Spec.IntSpec Spec.ArraySpec Spec.SliceSpec Spec.MatrixSpec Spec.Matrix2Spec Spec.View2DSpec Spec.ExprSpec.
From Verif Require Import Proofs.IntProofs Proofs.Array1DProofs Proofs.MatrixProofs Proofs.Array2DProofs Proofs.View2DProofs Proofs.View2DOps Proofs.View2DThms Proofs.ExprProofs Proofs.ExprThms Proofs.ExprTree Proofs.ExprEval.
Ltac Zify.zify_post_hook ::= Z.div_mod_to_equations.

(** ** Element-wise trees *)
Lemma pointwise (c : cfg) V (e : ex1 V) n : elementwise e -> leaves_size n e -> 0 <= n <= LONG_MAX ->
  exists A, build1 c e = Ok A /\ ssize A = n /\ forall i, 0 <= i < n -> sun A i = value_at i e.
Proof.
  intros HE HS Hn. revert HE HS.
  induction e; cbn [elementwise leaves_size build1 value_at]; try contradiction.
  - intros _ E. exists s. auto.
  - intros HE HS. destruct (IHe HE HS) as (A & -> & EA & HA). cbn [bind]. eexists. split; [reflexivity|]. cbn [x_un ssize sun]. split; [assumption|]. intros i Hi. now rewrite HA.
  - intros (HE1 & HE2) (HS1 & HS2). destruct (IHe1 HE1 HS1) as (A & -> & EA & HA). destruct (IHe2 HE2 HS2) as (B & -> & EB & HB). cbn [bind]. unfold x_bin. rewrite EA, EB, Z.eqb_refl, check_debug_true. cbn [bind].
    eexists. split; [reflexivity|]. cbn [ssize sun]. split; [reflexivity|]. intros i Hi. now rewrite HA, HB.
  - intros HE HS. destruct (IHe HE HS) as (A & -> & EA & HA). cbn [bind]. unfold x_scal_r. destruct (const1_ok c v (ssize A)) as (B & -> & (EB & _ & HB)); [lia|]. cbn [bind]. rewrite zlen_repeat in EB by lia. rewrite zlen_repeat in HB by lia. unfold x_bin. rewrite EB, Z.eqb_refl, check_debug_true. cbn [bind].
    eexists. split; [reflexivity|]. cbn [ssize sun]. split; [assumption|]. intros i Hi. rewrite HA, HB by lia. rewrite elt_repeat by lia. cbn [bind]. now destruct (value_at i e).
  - intros HE HS. destruct (IHe HE HS) as (A & -> & EA & HA). cbn [bind]. unfold x_scal_l. destruct (const1_ok c u (ssize A)) as (B & -> & (EB & _ & HB)); [lia|]. cbn [bind]. rewrite zlen_repeat in EB by lia. rewrite zlen_repeat in HB by lia. unfold x_bin. rewrite EB, Z.eqb_refl, check_debug_true. cbn [bind].
    eexists. split; [reflexivity|]. cbn [ssize sun]. split; [assumption|]. intros i Hi. rewrite HB, HA by lia. now rewrite elt_repeat by lia.
Qed.
Fixpoint leaves_ok {V : Type} (e : ex1 V) {struct e} : Prop :=
  match e in ex1 V return Prop with
  | XLeaf _ A => 0 <= ssize A <= LONG_MAX
  | XUn _ _ _ e => leaves_ok e
  | XBin _ _ _ _ e1 e2 => leaves_ok e1 /\ leaves_ok e2
  | XScalR _ _ _ _ e _ => leaves_ok e
  | XScalL _ _ _ _ _ e => leaves_ok e
  | _ => False
  end.
Lemma leaves_agree V (e : ex1 V) : leaves_ok e -> agree1 e -> leaves_size (zlen (den1 e)) e.
Proof.
  induction e; cbn [leaves_ok agree1 leaves_size den1]; try contradiction.
  - intros H _. rewrite zlen_map, zlen_zseq. lia.
  - intros H HA. rewrite zlen_map. auto.
  - intros (H1 & H2) (A1 & A2 & E). rewrite zlen_zip, <- E, Z.min_id. split; [auto|]. rewrite E. auto.
  - intros H HA. rewrite zlen_map. auto.
  - intros H HA. rewrite zlen_map. auto.
Qed.
Lemma leaves_fits V (e : ex1 V) : leaves_ok e -> fits1 e.
Proof. induction e; cbn [leaves_ok fits1]; try contradiction; try tauto. Qed.
Lemma pointwise_mismatch (c : cfg) V (e : ex1 V) : leaves_ok e -> ~ (exists n, leaves_size n e) -> checked c = true -> build1 c e = Fail (report c).
Proof.
  intros HL HN HC. apply (proj1 (build_ok c) V e (leaves_fits V e HL)); [|assumption]. intros HA. apply HN. exists (zlen (den1 e)). now apply leaves_agree.
Qed.
Lemma pointwise2 (c : cfg) V (e : ex2 V) m n : elementwise2 e -> leaves_size2 m n e -> (m = 0 <-> n = 0) -> 0 <= m <= LONG_MAX -> 0 <= n <= LONG_MAX -> m * n <= LONG_MAX ->
  exists A, build2 c e = Ok A /\ yields2 A (mkmx m n (fun i j => value_at2 i j e)).
Proof.
  intros HE HS HP Hm Hn HB. revert HE HS.
  induction e; cbn [elementwise2 leaves_size2 build2 value_at2]; try contradiction.
  - intros _ E. exists s. auto.
  - intros HE HS. destruct (IHe HE HS) as (A & -> & HA). cbn [bind]. eexists. split; [reflexivity|]. apply (un2_ok o) in HA. exact HA.
  - intros (HE1 & HE2) (HS1 & HS2). destruct (IHe1 HE1 HS1) as (A & -> & HA). destruct (IHe2 HE2 HS2) as (B & -> & HB2). cbn [bind]. apply (bin2_ok c o A B _ _ HA HB2); reflexivity.
  - intros HE HS. destruct (IHe HE HS) as (A & -> & HA). cbn [bind]. destruct (scal2_r_ok c o A _ v HA HP) as (R & -> & HR). exists R. split; [reflexivity|]. eapply yields2_ext; [exact HR|reflexivity|reflexivity|]. intros i j _ _. cbn [mel]. unfold both. now destruct (value_at2 i j e).
  - intros HE HS. destruct (IHe HE HS) as (A & -> & HA). cbn [bind]. exact (scal2_l_ok c o A _ u HA HP).
Qed.

(** ** Merging several arrays *)
Section MERGE.
Context (c : cfg).
Lemma merge_all_ok {V} : forall (Al : list (src1 V * list (outcome V))) A l, yields A l -> (forall B k, In (B, k) Al -> yields B k) -> zlen (concat (l :: map snd Al)) <= LONG_MAX ->
  exists R, x_merge_all c A (map fst Al) = Ok R /\ yields R (concat (l :: map snd Al)).
Proof.
  induction Al as [|(B, k) Al IH]; intros A l HA HB HL.
  - cbn [map x_merge_all concat]. rewrite app_nil_r. eauto.
  - cbn [map fst snd] in *. assert (HBk : yields B k) by (apply HB; now left).
    assert (zlen l + zlen (concat (k :: map snd Al)) <= LONG_MAX) as HL2 by (cbn [concat] in *; rewrite !zlen_app in *; lia).
    pose proof (zlen_nonneg l).
    destruct (IH B k HBk) as (E & EE & HE); [intros; apply HB; now right|lia|].
    destruct Al as [|p Al].
    + cbn [map x_merge_all concat] in *. rewrite app_nil_r in *. apply merge_ok; auto.
    + cbn [map] in *. assert (x_merge_all c A (B :: fst p :: map fst Al) = (E <- x_merge_all c B (fst p :: map fst Al) ;; let AE := x_un Ok A in
      n <- ladd (ssize AE) (ssize E) ;; x_gen c n (fun i => if i <? ssize AE then sun AE i else k <- lsub i (ssize AE) ;; sun E k))) as -> by reflexivity.
      rewrite EE. cbn [bind]. exact (merge_step c (x_un Ok A) E l _ (un_id A l HA) HE HL2).
Qed.
Lemma merge_backs_ok {V} (xs : list V) : forall A l, yields A l -> zlen l + zlen xs <= LONG_MAX -> exists R, x_merge_backs c A xs = Ok R /\ yields R (l ++ map Ok xs).
Proof.
  induction xs as [|x xs IH]; intros A l HA HL.
  - cbn. rewrite app_nil_r. eauto.
  - rewrite zlen_cons in HL. pose proof (zlen_nonneg xs). cbn [x_merge_backs map]. destruct (merge_back_ok c A l x HA) as (B & -> & HB); [lia|]. cbn [bind].
    destruct (IH B _ HB) as (R & ER & HR); [rewrite zlen_app, zlen_cons; change (zlen (@nil (outcome V))) with 0; lia|]. exists R. split; [assumption|]. now rewrite <- app_assoc in HR.
Qed.
Lemma merge_fronts_ok {V} (xs : list V) A l : yields A l -> zlen l + zlen xs <= LONG_MAX -> exists R, x_merge_fronts c xs A = Ok R /\ yields R (map Ok xs ++ l).
Proof.
  intros HA. induction xs as [|x xs IH]; intros HL.
  - cbn. eauto.
  - rewrite zlen_cons in HL. cbn [x_merge_fronts map app]. destruct IH as (B & -> & HB); [lia|]. cbn [bind]. apply merge_front_ok; [assumption|]. rewrite zlen_app, zlen_map. lia.
Qed.
(** Several matrices side by side (all with m rows) and one above the other (all with n columns). *)
Lemma hjoin_dims {V} (M N : mx V) m : mr M = m -> mr N = m -> mr (hjoin M N) = m /\ mc (hjoin M N) = mc M + mc N.
Proof. unfold hjoin. cbn. intros -> ->. rewrite Z.max_id. auto. Qed.
Lemma mergeh_all_ok {V} m : 0 < m -> forall (Al : list (src2 V * mx V)) A M, yields2 A M -> mr M = m -> 0 < mc M -> (forall B N, In (B, N) Al -> yields2 B N /\ mr N = m /\ 0 < mc N) ->
  m * fold_right Z.add 0 (map mc (M :: map snd Al)) <= LONG_MAX ->
  exists R N, x_mergeh_all c A (map fst Al) = Ok R /\ yields2 R N /\ mr N = m /\ mc N = fold_right Z.add 0 (map mc (M :: map snd Al)) /\ 0 < mc N /\
    forall i, 0 <= i < m -> mrow N i = concat (map (fun K => mrow K i) (M :: map snd Al)).
Proof.
  intros Hm. induction Al as [|(B, N) Al IH]; intros A M HA EM PM HB HL.
  - cbn [map x_mergeh_all fold_right concat]. exists A, M. do 5 (split; [first [assumption | reflexivity | lia]|]). intros. now rewrite app_nil_r.
  - cbn [map fst snd fold_right] in *. destruct (HB B N) as (HBN & EN & PN); [now left|].
    assert (0 <= fold_right Z.add 0 (map mc (map snd Al))) as H0.
    { clear -HB. assert (forall x, In x (map snd Al) -> 0 < mc x) as G by (intros x Hx; apply in_map_iff in Hx; destruct Hx as ((B', N') & <- & HI); cbn; apply (HB B' N'); now right). induction (map snd Al) as [|x l IH]; cbn; [lia|]. pose proof (G x (or_introl eq_refl)). specialize (IH (fun y Hy => G y (or_intror Hy))). lia. }
    destruct (IH B N HBN EN PN) as (E & K & EE & HE & RK & CK & PK & HK); [intros; apply HB; now right|nia|].
    assert (plump M) as LM by (unfold plump; lia). assert (plump K) as LK by (unfold plump; lia).
    assert (Z.max (mr M) (mr K) * (mc M + mc K) <= LONG_MAX) as HX by (rewrite EM, RK, Z.max_id, CK; cbn; lia).
    assert (exists R, x_mergeh_all c A (B :: map fst Al) = Ok R /\ yields2 R (hjoin M K)) as (R & ER & HR).
    { destruct Al as [|p Al].
      - cbn [map x_mergeh_all] in *. injection EE as <-. apply mergeh_ok; auto. intros. congruence.
      - assert (x_mergeh_all c A (B :: map fst (p :: Al)) = (E <- x_mergeh_all c B (map fst (p :: Al)) ;; let AE := x_un2 Ok A in
          (if negb (s2size AE =? 0) && negb (s2size E =? 0) then check_debug c (Ok (s2rows AE =? s2rows E)) else Ok tt) ;;;
          let m := if negb (s2size AE =? 0) then s2rows AE else s2rows E in n <- ladd (s2cols AE) (s2cols E) ;; x_gen2 c m n (horizontal_op c AE E))) as -> by reflexivity.
        rewrite EE. cbn [bind]. apply (mergeh_step c (x_un2 Ok A) E M K); auto; [now apply un2_id|exact (proj1 HA)|exact (proj1 HE)|intros; congruence]. }
    exists R, (hjoin M K). destruct (hjoin_dims M K m EM RK) as (D1 & D2). do 3 (split; [assumption|]). split; [rewrite D2, CK; reflexivity|]. split; [rewrite D2; lia|].
    intros i Hi. specialize (HK i Hi). unfold mrow at 1. rewrite D2. cbn [concat]. cbn [map concat] in HK. rewrite <- HK. unfold mrow. 
    replace (Z.to_nat (mc M + mc K)) with (Z.to_nat (mc M) + Z.to_nat (mc K))%nat by lia. rewrite zseq_app, map_app. f_equal.
    + apply map_zseq_ext. intros j Hj. cbn [hjoin mel]. replace (j <? mc M) with true by lia. reflexivity.
    + replace (0 + Z.of_nat (Z.to_nat (mc M))) with (0 + mc M) by lia. rewrite map_zseq_shift. apply map_zseq_ext. intros j Hj. cbn [hjoin mel]. replace (j + mc M <? mc M) with false by lia. f_equal. lia.
Qed.
Lemma mergev_all_ok {V} n : 0 < n -> forall (Al : list (src2 V * mx V)) A M, yields2 A M -> mc M = n -> 0 < mr M -> (forall B N, In (B, N) Al -> yields2 B N /\ mc N = n /\ 0 < mr N) ->
  fold_right Z.add 0 (map mr (M :: map snd Al)) * n <= LONG_MAX ->
  exists R N, x_mergev_all c A (map fst Al) = Ok R /\ yields2 R N /\ mc N = n /\ mr N = fold_right Z.add 0 (map mr (M :: map snd Al)) /\ 0 < mr N /\
    forall j, 0 <= j < n -> mcol N j = concat (map (fun K => mcol K j) (M :: map snd Al)).
Proof.
  intros Hn. induction Al as [|(B, N) Al IH]; intros A M HA EM PM HB HL.
  - cbn [map x_mergev_all fold_right concat]. exists A, M. do 5 (split; [first [assumption | reflexivity | lia]|]). intros. now rewrite app_nil_r.
  - cbn [map fst snd fold_right] in *. destruct (HB B N) as (HBN & EN & PN); [now left|].
    assert (0 <= fold_right Z.add 0 (map mr (map snd Al))) as H0.
    { clear -HB. assert (forall x, In x (map snd Al) -> 0 < mr x) as G by (intros x Hx; apply in_map_iff in Hx; destruct Hx as ((B', N') & <- & HI); cbn; apply (HB B' N'); now right). induction (map snd Al) as [|x l IH]; cbn; [lia|]. pose proof (G x (or_introl eq_refl)). specialize (IH (fun y Hy => G y (or_intror Hy))). lia. }
    destruct (IH B N HBN EN PN) as (E & K & EE & HE & RK & CK & PK & HK); [intros; apply HB; now right|nia|].
    assert (plump M) as LM by (unfold plump; lia). assert (plump K) as LK by (unfold plump; lia).
    assert ((mr M + mr K) * Z.max (mc M) (mc K) <= LONG_MAX) as HX by (rewrite EM, RK, Z.max_id, CK; cbn; lia).
    assert (exists R, x_mergev_all c A (B :: map fst Al) = Ok R /\ yields2 R (vjoin M K)) as (R & ER & HR).
    { destruct Al as [|p Al].
      - cbn [map x_mergev_all] in *. injection EE as <-. apply mergev_ok; auto. intros. congruence.
      - assert (x_mergev_all c A (B :: map fst (p :: Al)) = (E <- x_mergev_all c B (map fst (p :: Al)) ;; let AE := x_un2 Ok A in
          (if negb (s2size AE =? 0) && negb (s2size E =? 0) then check_debug c (Ok (s2cols AE =? s2cols E)) else Ok tt) ;;;
          let n := if negb (s2size AE =? 0) then s2cols AE else s2cols E in m <- ladd (s2rows AE) (s2rows E) ;;
          x_gen2 c m n (fun i => if i <? s2size AE then s2lin AE i else k <- lsub i (s2size AE) ;; s2lin E k))) as -> by reflexivity.
        rewrite EE. cbn [bind]. apply (mergev_step c (x_un2 Ok A) E M K); auto; [now apply un2_id|exact (proj1 (proj2 HA))|exact (proj1 (proj2 HE))|intros; congruence]. }
    exists R, (vjoin M K). assert (mr (vjoin M K) = mr M + mr K /\ mc (vjoin M K) = n) as (D1 & D2) by (unfold vjoin; cbn; split; lia). do 3 (split; [assumption|]). split; [rewrite D1, CK; reflexivity|]. split; [rewrite D1; lia|].
    intros j Hj. specialize (HK j Hj). unfold mcol at 1. rewrite D1. cbn [concat]. cbn [map concat] in HK. rewrite <- HK. unfold mcol.
    replace (Z.to_nat (mr M + mr K)) with (Z.to_nat (mr M) + Z.to_nat (mr K))%nat by lia. rewrite zseq_app, map_app. f_equal.
    + apply map_zseq_ext. intros i Hi. cbn [vjoin mel]. replace (i <? mr M) with true by lia. reflexivity.
    + replace (0 + Z.of_nat (Z.to_nat (mr M))) with (0 + mr M) by lia. rewrite map_zseq_shift. apply map_zseq_ext. intros i Hi. cbn [vjoin mel]. replace (i + mr M <? mr M) with false by lia. f_equal. lia.
Qed.

(** ** Transposition *)
Lemma transpose_twice {V} (A : src2 V) M : yields2 A M -> exists T R, x_transpose c A = Ok T /\ x_transpose c T = Ok R /\
  yields2 T (mkmx (mc M) (mr M) (fun i j => mel M j i)) /\ yields2 R M.
Proof.
  intros HA. destruct (transpose_ok c A M HA) as (T & ET & HT). destruct (transpose_ok c T _ HT) as (R & ER & HR). exists T, R. repeat split; try assumption; apply HR || apply HT.
Qed.

(** ** Generated arrays *)
Lemma irange_ok n : 0 <= n <= LONG_MAX -> exists R, x_irange c n = Ok R /\ yields R (map Ok (zseq 0 (Z.to_nat n))).
Proof.
  intros Hn. unfold x_irange, x_seq. replace (-1 <? n) with true by lia. rewrite check_debug_true. cbn [bind]. eexists. split; [reflexivity|]. split; [cbn [ssize]; rewrite zlen_map, zlen_zseq; lia|].
  rewrite zlen_map, zlen_zseq. split; [lia|]. intros i Hi. cbn [sun bind]. rewrite elt_gen by lia. rewrite lmul_ok by (unfold LONG_MIN; lia). cbn [bind]. rewrite ladd_ok by (unfold LONG_MIN; lia). f_equal. lia.
Qed.
Lemma irange_bad n : n < 0 -> checked c = true -> x_irange c n = Fail (report c).
Proof. intros. unfold x_irange, x_seq. replace (-1 <? n) with false by lia. now rewrite check_debug_false. Qed.
Lemma irange_m1_ok n : 1 <= n <= LONG_MAX -> exists R, x_irange_m1 c n = Ok R /\ yields R (map Ok (zseq 0 (Z.to_nat (n - 1)))).
Proof. intros Hn. unfold x_irange_m1. rewrite lsub_ok by (unfold LONG_MIN; lia). cbn [bind]. apply irange_ok. lia. Qed.
Lemma irange_m1_bad : checked c = true -> x_irange_m1 c 0 = Fail (report c).
Proof. intros HC. unfold x_irange_m1. rewrite lsub_ok by (unfold LONG_MIN, LONG_MAX; lia). cbn [bind]. apply irange_bad; [lia|assumption]. Qed.
Lemma irange2_ok m n : 0 <= m <= LONG_MAX -> 0 <= n <= LONG_MAX -> m * n <= LONG_MAX ->
  exists R, x_irange2 c m n = Ok R /\ yields2 R (mkmx m n (fun i j => Ok (i * n + j))).
Proof.
  intros Hm Hn HB. unfold x_irange2. destruct (index2_ok c m n (fun i j => p <- lmul i n ;; ladd p j) Hm Hn HB) as (R & -> & HR). exists R. split; [reflexivity|]. eapply yields2_ext; [exact HR|reflexivity|reflexivity|].
  cbn [mr mc mel]. intros i j Hi Hj. pose proof (addr_max m n i j Hi Hj HB). rewrite lmul_ok by (unfold LONG_MIN; lia). cbn [bind]. now rewrite ladd_ok by (unfold LONG_MIN; lia).
Qed.
Lemma e_unit_ok {V} (one zero : V) u n : 0 <= u < n -> n <= LONG_MAX ->
  exists R, x_e_unit c one zero u n = Ok R /\ yields R (map (fun i => Ok (if i =? u then one else zero)) (zseq 0 (Z.to_nat n))).
Proof. intros Hu Hn. unfold x_e_unit. replace (-1 <? u) with true by lia. replace (u <? n) with true by lia. rewrite !check_debug_true. cbn [bind]. apply gen_ok. lia. Qed.
Lemma e_unit_bad {V} (one zero : V) u n : ~ 0 <= u < n -> checked c = true -> x_e_unit c one zero u n = Fail (report c).
Proof.
  intros Hu HC. unfold x_e_unit. destruct (-1 <? u) eqn:E; [|now rewrite check_debug_false]. rewrite check_debug_true. cbn [bind]. replace (u <? n) with false by lia. now rewrite check_debug_false.
Qed.
Lemma identity_ok {V} (one zero : V) n : 0 <= n <= LONG_MAX -> n * n <= LONG_MAX ->
  exists R, x_identity c one zero n = Ok R /\ yields2 R (mkmx n n (fun i j => Ok (if i =? j then one else zero))).
Proof. intros Hn HB. unfold x_identity. replace (-1 <? n) with true by lia. rewrite check_debug_true. cbn [bind]. now apply index2_ok. Qed.
Lemma identity_bad {V} (one zero : V) n : n < 0 -> checked c = true -> x_identity c one zero n = Fail (report c).
Proof. intros Hn HC. unfold x_identity. replace (-1 <? n) with false by lia. now rewrite check_debug_false. Qed.
Lemma const1_bad {V} (x : V) n : n < 0 -> checked c = true -> x_const1 c n x = Fail (report c).
Proof. intros Hn HC. unfold x_const1. replace (-1 <? n) with false by lia. now rewrite check_debug_false. Qed.

(** Sequences of integers. *)
Lemma seq_int_signed t n a d : signed t = true -> 0 <= n <= LONG_MAX ->
  exists R, x_seq_int c t n a d = Ok R /\ ssize R = n /\
    forall i, 0 <= i < n -> fits (signed t) (bits t) i ->
      (fits (signed t) (bits t) (d * i) -> fits (signed t) (bits t) (a + i * d) -> sun R i = Ok (a + i * d)) /\
      (~ (fits (signed t) (bits t) (d * i) /\ fits (signed t) (bits t) (a + i * d)) -> sun R i = UB).
Proof.
  intros HS Hn. unfold x_seq_int, x_seq. replace (-1 <? n) with true by lia. rewrite check_debug_true. cbn [bind]. eexists. split; [reflexivity|]. cbn [ssize sun bind]. split; [reflexivity|].
  intros i Hi HF. rewrite icast_id by assumption. unfold iadd, imul. replace (a + i * d) with (a + d * i) by lia. split.
  - intros F1 F2. rewrite arith_signed_ok by assumption. cbn [bind]. now rewrite arith_signed_ok.
  - intros HN. destruct (fits_dec (signed t) (bits t) (d * i)) as [F1|F1].
    + rewrite arith_signed_ok by assumption. cbn [bind]. apply arith_signed_ub; [assumption|]. intros F2. now apply HN.
    + now rewrite arith_signed_ub.
Qed.
Lemma seq_int_unsigned t n a d : signed t = false -> 0 <= n <= LONG_MAX ->
  exists R, x_seq_int c t n a d = Ok R /\ ssize R = n /\ forall i, 0 <= i < n -> sun R i = Ok ((a + i * d) mod 2 ^ bits t).
Proof.
  intros HS Hn. unfold x_seq_int, x_seq. replace (-1 <? n) with true by lia. rewrite check_debug_true. cbn [bind]. eexists. split; [reflexivity|]. cbn [ssize sun bind]. split; [reflexivity|].
  intros i Hi. unfold iadd, imul. rewrite arith_unsigned by assumption. cbn [bind]. rewrite arith_unsigned by assumption. f_equal. unfold icast. destruct (wrap_cong t i) as (k & ->).
  assert (2 ^ bits t <> 0) as HZ by (destruct t; cbn; lia).
  rewrite Z.add_mod_idemp_r by assumption. replace (a + d * (i + k * 2 ^ bits t)) with (a + i * d + (d * k) * 2 ^ bits t) by ring. now apply Z.mod_add.
Qed.
Lemma seq_bad {V} (add mul : V -> V -> outcome V) cast n a d : n < 0 -> checked c = true -> x_seq c add mul cast n a d = Fail (report c).
Proof. intros. unfold x_seq. replace (-1 <? n) with false by lia. now rewrite check_debug_false. Qed.
End MERGE.

(** ** Equality *)
Section EQ.
Context {U V : Type} (eqb : U -> V -> bool).
Definition neqo (u : U) (v : V) : outcome bool := Ok (negb (eqb u v)).
Lemma eq_loop_ok (f : Z -> outcome U) (g : Z -> outcome V) l : forall k i, zlen l = zlen k -> (forall j u, znth l j = Some u -> f (i + j) = Ok u) -> (forall j v, znth k j = Some v -> g (i + j) = Ok v) ->
  exists b, eq_loop (length l) i neqo f g = Ok b /\ (b = true <-> forall j u v, znth l j = Some u -> znth k j = Some v -> eqb u v = true).
Proof.
  induction l as [|x l IH]; intros [|y k] i HL HF HG; try (unfold zlen in HL; cbn in HL; lia).
  - exists true. split; [reflexivity|]. split; [|reflexivity]. intros _ j u v Hu. rewrite znth_nil in Hu. discriminate.
  - cbn [length eq_loop]. assert (f i = Ok x) as -> by (specialize (HF 0 x (znth_cons_0 _ _)); now rewrite Z.add_0_r in HF). assert (g i = Ok y) as -> by (specialize (HG 0 y (znth_cons_0 _ _)); now rewrite Z.add_0_r in HG). cbn [bind neqo].
    destruct (eqb x y) eqn:E; cbn [negb].
    + destruct (IH k (i + 1)) as (b & EB & HB).
      * rewrite !zlen_cons in HL. lia.
      * intros j u Hj. pose proof (znth_lt _ _ _ Hj). rewrite <- (HF (j + 1) u); [f_equal; lia|]. rewrite znth_cons_pos by lia. now replace (j + 1 - 1) with j by lia.
      * intros j u Hj. pose proof (znth_lt _ _ _ Hj). rewrite <- (HG (j + 1) u); [f_equal; lia|]. rewrite znth_cons_pos by lia. now replace (j + 1 - 1) with j by lia.
      * exists b. split; [assumption|]. rewrite HB. split; intros HA j u v Hu Hv.
        -- pose proof (znth_lt _ _ _ Hu). destruct (Z.eq_dec j 0) as [->|].
           ++ rewrite znth_cons_0 in Hu. rewrite znth_cons_0 in Hv. congruence.
           ++ rewrite znth_cons_pos in Hu by lia. rewrite znth_cons_pos in Hv by lia. eauto.
        -- pose proof (znth_lt _ _ _ Hu). apply (HA (j + 1)); rewrite znth_cons_pos by lia; now replace (j + 1 - 1) with j by lia.
    + exists false. split; [reflexivity|]. split; [discriminate|]. intros HA. rewrite (HA 0 x y) in E; [discriminate|apply znth_cons_0|apply znth_cons_0].
Qed.
Lemma eq1_ok (A : src1 U) (B : src1 V) l k : yields A (map Ok l) -> yields B (map Ok k) ->
  exists b, x_eq1 neqo A B = Ok b /\ x_neq1 neqo A B = Ok (negb b) /\ (b = true <-> zlen l = zlen k /\ forall i u v, znth l i = Some u -> znth k i = Some v -> eqb u v = true).
Proof.
  intros (EA & _ & HA) (EB & _ & HB). rewrite zlen_map in EA. rewrite zlen_map in HA. rewrite zlen_map in EB. rewrite zlen_map in HB. unfold x_neq1, x_eq1. rewrite EA, EB. destruct (zlen l =? zlen k) eqn:E.
  - replace (Z.to_nat (zlen l)) with (length l) by (unfold zlen; lia). destruct (eq_loop_ok (sun A) (sun B) l k 0) as (b & -> & Hb).
    + lia.
    + intros j u Hj. pose proof (znth_lt _ _ _ Hj). rewrite Z.add_0_l, HA by lia. unfold elt. now rewrite znth_map, Hj.
    + intros j u Hj. pose proof (znth_lt _ _ _ Hj). rewrite Z.add_0_l, HB by lia. unfold elt. now rewrite znth_map, Hj.
    + exists b. repeat split; [lia|apply Hb; assumption|]. intros (_ & G). now apply Hb.
  - exists false. repeat split; [discriminate|discriminate|]. intros (G & _). lia.
Qed.
Lemma eq2_ok (A : src2 U) (B : src2 V) m n m' n' f g : yields2 A (mkmx m n (fun i j => Ok (f i j))) -> yields2 B (mkmx m' n' (fun i j => Ok (g i j))) ->
  exists b, x_eq2 neqo A B = Ok b /\ x_neq2 neqo A B = Ok (negb b) /\ (b = true <-> m = m' /\ n = n' /\ forall i j, 0 <= i < m -> 0 <= j < n -> eqb (f i j) (g i j) = true).
Proof.
  intros HA HB. pose proof HA as (E1 & E2 & B1 & B2 & E3 & B3 & _). pose proof HB as (F1 & F2 & _ & _ & F3 & _). cbn [mr mc] in *. unfold x_neq2, x_eq2. rewrite E1, E2, F1, F2. unfold same_size2. destruct ((m =? m') && (n =? n')) eqn:E.
  - apply andb_prop in E as (Em & En). assert (m' = m) as -> by lia. assert (n' = n) as -> by lia. rewrite E3.
    set (l := map (fun p => f (p / n) (p mod n)) (zseq 0 (Z.to_nat (m * n)))). set (k := map (fun p => g (p / n) (p mod n)) (zseq 0 (Z.to_nat (m * n)))).
    assert (zlen l = m * n) as Hl by (unfold l; rewrite zlen_map, zlen_zseq; nia). assert (zlen k = m * n) as Hk by (unfold k; rewrite zlen_map, zlen_zseq; nia).
    replace (Z.to_nat (m * n)) with (length l) by (unfold zlen in Hl; lia). destruct (eq_loop_ok (s2lin A) (s2lin B) l k 0) as (b & -> & Hb).
    + congruence.
    + intros j u Hj. pose proof (znth_lt _ _ _ Hj). rewrite Z.add_0_l, (yields2_lin A _ j HA) by (cbn; lia). unfold l in Hj. rewrite znth_map_zseq in Hj by lia. injection Hj as <-. unfold mlin. cbn [mel mc]. reflexivity.
    + intros j u Hj. pose proof (znth_lt _ _ _ Hj). rewrite Z.add_0_l, (yields2_lin B _ j HB) by (cbn; lia). unfold k in Hj. rewrite znth_map_zseq in Hj by lia. injection Hj as <-. unfold mlin. cbn [mel mc]. reflexivity.
    + exists b. split; [reflexivity|]. split; [reflexivity|]. rewrite Hb. split.
      * intros G. repeat split; try reflexivity. intros i j Hi Hj. destruct (addr_max m n i j Hi Hj B3) as (_ & ?). assert (i * n + j < m * n) by nia. apply (G (i * n + j)).
        -- unfold l. rewrite znth_map_zseq by lia. rewrite Z.add_0_l. rewrite Z.div_add_l, Z.div_small, Z.add_0_r by lia. replace ((i * n + j) mod n) with j by (rewrite Z.add_comm, Z.mod_add, Z.mod_small; lia). reflexivity.
        -- unfold k. rewrite znth_map_zseq by lia. rewrite Z.add_0_l. rewrite Z.div_add_l, Z.div_small, Z.add_0_r by lia. replace ((i * n + j) mod n) with j by (rewrite Z.add_comm, Z.mod_add, Z.mod_small; lia). reflexivity.
      * intros (_ & _ & G) p u v Hu Hv. pose proof (znth_lt _ _ _ Hu). unfold l in Hu. unfold k in Hv. rewrite znth_map_zseq in Hu by lia. rewrite znth_map_zseq in Hv by lia. injection Hu as <-. injection Hv as <-.
        assert (0 < n) by nia. apply G; [|apply Z.mod_pos_bound; lia]. split; [apply Z.div_pos; lia|]. apply Z.div_lt_upper_bound; lia.
  - exists false. repeat split; try discriminate. intros (-> & -> & _). rewrite !Z.eqb_refl in E. discriminate.
Qed.
End EQ.

(** ** Corollaries in the form of the properties *)
Lemma eq1_refl {V} (eqb : V -> V -> bool) A l : yields A (map Ok l) ->
  ((forall x, In x l -> eqb x x = true) -> x_eq1 (neqo eqb) A A = Ok true) /\ (forall x, In x l -> eqb x x = false -> x_eq1 (neqo eqb) A A = Ok false /\ x_neq1 (neqo eqb) A A = Ok true).
Proof.
  intros HA. destruct (eq1_ok eqb A A l l HA HA) as (b & E & N & HB). rewrite E, N. split.
  - intros HR. f_equal. apply HB. split; [reflexivity|]. intros i u v Hu Hv. rewrite Hu in Hv. injection Hv as <-. apply HR. now apply znth_in in Hu.
  - intros x HI HX. destruct (in_znth _ _ HI) as (i & Hi). assert (b = false) as ->; [|now split]. destruct b; [|reflexivity]. destruct (proj1 HB eq_refl) as (_ & G). rewrite (G i x x Hi Hi) in HX. discriminate.
Qed.
Lemma eq1_sym {U V} (eqb : U -> V -> bool) (eqb' : V -> U -> bool) A B l k : (forall u v, eqb u v = eqb' v u) -> yields A (map Ok l) -> yields B (map Ok k) -> x_eq1 (neqo eqb) A B = x_eq1 (neqo eqb') B A.
Proof.
  intros HS HA HB. destruct (eq1_ok eqb A B l k HA HB) as (b & E & _ & Hb). destruct (eq1_ok eqb' B A k l HB HA) as (b' & E' & _ & Hb'). rewrite E, E'. f_equal. apply Bool.eq_iff_eq_true. rewrite Hb, Hb'.
  split; intros (EL & G); (split; [congruence|]); intros i u v Hu Hv; [rewrite <- HS|rewrite HS]; eapply G; eauto.
Qed.
Lemma eq1_trans {V} (eqb : V -> V -> bool) A B C l k r : (forall x y z, eqb x y = true -> eqb y z = true -> eqb x z = true) -> yields A (map Ok l) -> yields B (map Ok k) -> yields C (map Ok r) ->
  x_eq1 (neqo eqb) A B = Ok true -> x_eq1 (neqo eqb) B C = Ok true -> x_eq1 (neqo eqb) A C = Ok true.
Proof.
  intros HT HA HB HC E1 E2. destruct (eq1_ok eqb A B l k HA HB) as (b1 & F1 & _ & H1). destruct (eq1_ok eqb B C k r HB HC) as (b2 & F2 & _ & H2). destruct (eq1_ok eqb A C l r HA HC) as (b3 & F3 & _ & H3).
  rewrite E1 in F1. injection F1 as <-. rewrite E2 in F2. injection F2 as <-. destruct (proj1 H1 eq_refl) as (L1 & G1). destruct (proj1 H2 eq_refl) as (L2 & G2). rewrite F3. f_equal. apply H3. split; [congruence|]. intros i u v Hu Hv.
  pose proof (znth_lt _ _ _ Hu). destruct (znth_some k i ltac:(lia)) as (y & Hy). eauto.
Qed.
Lemma eq1_leibniz {V} (eqb : V -> V -> bool) A B l k : (forall x y, eqb x y = true <-> x = y) -> yields A (map Ok l) -> yields B (map Ok k) -> (x_eq1 (neqo eqb) A B = Ok true <-> l = k).
Proof.
  intros HE HA HB. destruct (eq1_ok eqb A B l k HA HB) as (b & E & _ & Hb). rewrite E. split.
  - intros [= ->]. destruct (proj1 Hb eq_refl) as (L & G). apply list_ext_zlen; [assumption|]. intros i Hi. destruct (znth_some l i ltac:(lia)) as (x & Hx). destruct (znth_some k i ltac:(lia)) as (y & Hy). rewrite Hx, Hy. f_equal. apply HE. eauto.
  - intros ->. f_equal. apply Hb. split; [reflexivity|]. intros i u v Hu Hv. apply HE. congruence.
Qed.
Lemma mergeh_empty (c : cfg) {V} (A B : src2 V) M N : yields2 A M -> yields2 B N -> plump M -> mr N = 0 -> mc N = 0 ->
  (exists R, x_mergeh c A B = Ok R /\ yields2 R M) /\ (exists R, x_mergeh c B A = Ok R /\ yields2 R M) /\
  (exists R, x_mergev c A B = Ok R /\ yields2 R M) /\ (exists R, x_mergev c B A = Ok R /\ yields2 R M).
Proof.
  intros HA HB HP R0 C0. pose proof (yields2_sized _ _ HA) as (S1 & S2 & S3). assert (plump N) as HQ by (unfold plump; lia).
  assert (~ nonempty N) as HE by (unfold nonempty; lia).
  repeat split.
  - destruct (mergeh_ok c A B M N) as (R & E & HR); auto; [rewrite R0, C0; lia|intros; contradiction|]. exists R. split; [assumption|]. eapply yields2_ext; [exact HR|cbn; lia|cbn; lia|]. cbn. intros i j Hi Hj. now replace (j <? mc M) with true by lia.
  - destruct (mergeh_ok c B A N M) as (R & E & HR); auto; [rewrite R0, C0; lia|intros; contradiction|]. exists R. split; [assumption|]. eapply yields2_ext; [exact HR|cbn; lia|cbn; lia|]. cbn. intros i j Hi Hj. rewrite C0. replace (j <? 0) with false by lia. f_equal. lia.
  - destruct (mergev_ok c A B M N) as (R & E & HR); auto; [rewrite R0, C0; lia|intros; contradiction|]. exists R. split; [assumption|]. eapply yields2_ext; [exact HR|cbn; lia|cbn; lia|]. cbn. intros i j Hi Hj. now replace (i <? mr M) with true by lia.
  - destruct (mergev_ok c B A N M) as (R & E & HR); auto; [rewrite R0, C0; lia|intros; contradiction|]. exists R. split; [assumption|]. eapply yields2_ext; [exact HR|cbn; lia|cbn; lia|]. cbn. intros i j Hi Hj. rewrite R0. replace (i <? 0) with false by lia. f_equal. lia.
Qed.
Lemma tree1 (c : cfg) V (e : ex1 V) : fits1 e -> (agree1 e -> exists A, build1 c e = Ok A /\ yields A (den1 e)) /\ (~ agree1 e -> checked c = true -> build1 c e = Fail (report c)).
Proof. intros H. destruct (proj1 (build_ok c) V e H) as (_ & G). exact G. Qed.
Lemma tree2 (c : cfg) V (e : ex2 V) : fits2 e -> (agree2 e -> exists A, build2 c e = Ok A /\ yields2 A (den2 e)) /\ (~ agree2 e -> checked c = true -> build2 c e = Fail (report c)).
Proof. intros H. destruct (proj2 (build_ok c) V e H) as (_ & G). exact G. Qed.
(** Evaluating a whole tree into an array. *)
Lemma tree_eval (c : cfg) V (zero : V) (e : ex1 V) : fits1 e -> agree1 e -> zlen (den1 e) <= amax c ->
  let r := match seqo (den1 e) with Ok vs => Ok (mkarr vs (zlen vs)) | Fail f => Fail f | UB => UB end in
  (A <- build1 c e ;; x_eval1 c zero A) = r /\ (A <- build1 c e ;; arr_of_src zero c A) = r.
Proof.
  intros HF HA HL. destruct (proj1 (tree1 c V e HF) HA) as (A & -> & HY). cbn [bind]. rewrite (eval_src zero c A _ HY HL), (of_src zero c A _ HY HL).
  destruct (seqo (den1 e)) eqn:E; cbn [bind]; auto. rewrite (seqo_len _ _ E). auto.
Qed.
Lemma tree_eval2 (c : cfg) V (zero : V) (e : ex2 V) : fits2 e -> agree2 e -> plump (den2 e) -> mr (den2 e) * mc (den2 e) <= amax c ->
  let r := match seqo (mlist (den2 e)) with Ok vs => Ok (mkarr2 (mr (den2 e)) (mc (den2 e)) (mkarr vs (zlen vs))) | Fail f => Fail f | UB => UB end in
  (A <- build2 c e ;; x_eval2 c zero A) = r /\ (A <- build2 c e ;; arr2_of_src zero c A) = r.
Proof.
  intros HF HA HP HL. destruct (proj1 (tree2 c V e HF) HA) as (A & -> & HY). cbn [bind]. rewrite (eval_src2 zero c A _ HY HP HL), (of_src2 zero c A _ HY HP HL).
  destruct (yields2_sized _ _ HY) as (S1 & S2 & S3).
  destruct (seqo (mlist (den2 e))) eqn:E; cbn [bind]; auto. rewrite (seqo_len _ _ E), zlen_mlist by lia. auto.
Qed.
(** Assigning an expression whose k-th element fails: the elements before it are already stored. *)
Lemma assign_partial (c : cfg) V (A : src1 V) a old vs f r : yields A (map Ok vs ++ Fail f :: r) -> rep a old -> zlen old = zlen (map Ok vs ++ Fail f :: r) ->
  arr_assign c A a = MFail f (mkarr (vs ++ skipn (length vs) old) (zlen old)).
Proof.
  intros HA HR HL. rewrite (assign_src c A _ a old HA HR HL), overwrite_spec by (unfold zlen in HL; lia). cbn [mbind]. now rewrite HL.
Qed.
Lemma assign_total (c : cfg) V (A : src1 V) a old vs : yields A (map Ok vs) -> rep a old -> zlen old = zlen vs -> arr_assign c A a = MOk (mkarr vs (zlen vs)).
Proof.
  intros HA HR HL. rewrite (assign_src c A _ a old HA HR) by (now rewrite zlen_map). rewrite (overwrite_ok _ old vs); [|unfold zlen in HL; rewrite map_length; lia|apply seqo_map]. cbn [mbind]. now rewrite zlen_map.
Qed.
