(** Expression trees of any depth mean what they say, and every mismatch inside them is reported when the tree is built. *)
From Verif Require Import Base.Outcome Base.ZList Model.IntModel Model.ScalarOps Model.Index Model.Slice Model.Array1D Model.Array2D Model.View2D Model.Expr.
From Verif Require Import Spec.ArraySpec Spec.SliceSpec Spec.MatrixSpec Spec.Matrix2Spec Spec.View2DSpec Spec.ExprSpec.
From Verif Require Import Proofs.MatrixProofs Proofs.View2DProofs Proofs.View2DOps Proofs.View2DThms Proofs.ExprProofs Proofs.ExprThms.

Scheme ex1_mut := Induction for ex1 Sort Prop
with ex2_mut := Induction for ex2 Sort Prop.
Combined Scheme ex_ind from ex1_mut, ex2_mut.

Lemma vop_ok_dec d w : vop_typed d w = true -> vop_ok d w \/ ~ vop_ok d w.
Proof.
  destruct d as [ps|P], w; cbn [vop_ok vop_typed]; intros HT; try discriminate; try (left; exact I); try apply acceptable_dec; try lia.
  destruct (acceptable_dec (zlen P) s1); [|right; tauto]. destruct (acceptable_dec (ncols P) s2); [left; auto|right; tauto].
Qed.
Lemma typed1 ps w : vop_typed (D1 []) w = true -> vop_typed (D1 ps) w = true.
Proof. destruct w; auto. Qed.
Lemma typed2 m n w : vop_typed (D2 []) w = true -> vop_typed (whole2 m n) w = true.
Proof. destruct w; auto. Qed.

Lemma ok_intro {X} (P : X -> Prop) x : P x -> exists y, Ok x = Ok y /\ P y.
Proof. eauto. Qed.

Section T.
Context (c : cfg).
Definition good1 {V} (e : ex1 V) : Prop := fits1 e ->
  (agree1 e \/ ~ agree1 e) /\
  (agree1 e -> exists A, build1 c e = Ok A /\ yields A (den1 e)) /\
  (~ agree1 e -> checked c = true -> build1 c e = Fail (report c)).
Definition good2 {V} (e : ex2 V) : Prop := fits2 e ->
  (agree2 e \/ ~ agree2 e) /\
  (agree2 e -> exists A, build2 c e = Ok A /\ yields2 A (den2 e)) /\
  (~ agree2 e -> checked c = true -> build2 c e = Fail (report c)).

Ltac one IH HF A YA :=
  let HA := fresh "HA" in let Hok := fresh "Hok" in let Hbad := fresh "Hbad" in
  destruct (IH HF) as ([HA|HA] & Hok & Hbad);
  [destruct (Hok HA) as (A & -> & YA); clear Hok Hbad; cbn [bind]
  |split; [right; tauto|split; [tauto|let HC := fresh in intros _ HC; rewrite (Hbad HA HC); reflexivity]]].
Tactic Notation "fine" uconstr(L) := split; [left; tauto|split; [intros _; first [exact L|refine (ok_intro _ _ _); exact L]|tauto]].
Ltac wrong L := split; [right; tauto|split; [tauto|intros _ HC; exact (L HC)]].

Lemma build_ok : (forall V (e : ex1 V), good1 e) /\ (forall V (e : ex2 V), good2 e).
Proof.
  apply (ex_ind (fun V e => good1 e) (fun V e => good2 e)); unfold good1, good2;
    cbn [fits1 fits2 agree1 agree2 den1 den2 build1 build2].
  - intros V A HF. split; [auto|]. split; [|tauto]. intros _. exists A. split; [reflexivity|]. now apply yields_self.
  - intros V W f e IH HF. one IH HF A YA. fine (un_ok f A _ YA).
  - intros U V W f e1 IH1 e2 IH2 [HF1 HF2]. one IH1 HF1 A YA. one IH2 HF2 B YB. destruct (Z.eq_dec (zlen (den1 e1)) (zlen (den1 e2))) as [E|E].
    + fine (bin_ok c f A B _ _ YA YB E).
    + wrong (bin_bad c f A B _ _ YA YB E).
  - intros U V W f e IH x HF. one IH HF A YA. fine (scal_r_ok c f A _ x YA).
  - intros U V W f x e IH HF. one IH HF A YA. fine (scal_l_ok c f A _ x YA).
  - intros V n g HF. destruct (Z.le_gt_cases 0 n) as [E|E].
    + assert (0 <= n <= LONG_MAX) as HB by (unfold is_long in HF; lia). fine (gen_ok c g n HB).
    + split; [right; lia|]. split; [lia|]. intros _ HC. now apply gen_bad.
  - intros V e1 IH1 e2 IH2 (HF1 & HF2 & HL). one IH1 HF1 A YA. one IH2 HF2 B YB. fine (merge_ok c A B _ _ YA YB HL).
  - intros V e IH x (HF & HL). one IH HF A YA. fine (merge_back_ok c A _ x YA HL).
  - intros V x e IH (HF & HL). one IH HF A YA. fine (merge_front_ok c A _ x YA HL).
  - intros V e IH pos count (HF & Lp & Lc & HO). one IH HF A YA.
    assert ((0 < count /\ 0 <= pos /\ pos + count <= zlen (den1 e)) \/ ~ (0 < count /\ 0 <= pos /\ pos + count <= zlen (den1 e))) as [E|E] by lia.
    + destruct E as (E1 & E2 & E3). fine (exclude_ok c A _ pos count YA E1 E2 E3).
    + wrong (exclude_bad c A _ pos count YA Lp Lc HO E).
  - intros V e IH k HF. one IH HF A YA. destruct (Z.lt_decidable 0 (zlen (den1 e))) as [E|E].
    + fine (exclude_last_ok c A _ k YA E).
    + wrong (exclude_last_bad c A _ k YA E).
  - intros V W op opl e IH (HF & HP & HO). one IH HF A YA. fine (row_reduce_ok c op opl A _ YA HP HO).
  - intros V W op opl e IH (HF & HP & HO). one IH HF A YA. fine (col_reduce_ok c op opl A _ YA HP HO).
  - intros U V W z add mul e IH1 x IH2 (HF1 & HP & HF2). one IH1 HF1 A YA. one IH2 HF2 B YB. destruct (Z.eq_dec (mc (den2 e)) (zlen (den1 x))) as [E|E].
    + fine (matvec_ok c z add mul A B _ _ YA HP YB E).
    + wrong (matvec_bad c z add mul A B _ _ YA YB E).
  - intros V e IH w (HF & HT & H1 & HV). one IH HF A YA. destruct (base1_ok c A _ YA) as [HD HR]. apply (typed1 (all_positions (zlen (den1 e)))) in HT.
    fold (whole1 (zlen (den1 e))) in HT. destruct (vop_ok_dec _ w HT) as [E|E].
    + fine (view_one c _ _ w _ _ HD HR HT H1 HV E).
    + split; [right; tauto|split; [tauto|]]. intros _ HC. now rewrite (apply_bad c _ _ w HD HT HV HC E).
  - intros V e IH w (HF & HP & HT & H1 & HV). one IH HF A YA. destruct (base2_ok c A _ YA HP) as [HD HR]. apply (typed2 (mr (den2 e)) (mc (den2 e))) in HT.
    destruct (vop_ok_dec _ w HT) as [E|E].
    + fine (view_one c _ _ w _ _ HD HR HT H1 HV E).
    + split; [right; tauto|split; [tauto|]]. intros _ HC. now rewrite (apply_bad c _ _ w HD HT HV HC E).
  - intros V A HF. split; [auto|]. split; [|tauto]. intros _. exists A. split; [reflexivity|]. exact HF.
  - intros V W f e IH HF. one IH HF A YA. fine (un2_ok f A _ YA).
  - intros U V W f e1 IH1 e2 IH2 [HF1 HF2]. one IH1 HF1 A YA. one IH2 HF2 B YB.
    assert ((mr (den2 e1) = mr (den2 e2) /\ mc (den2 e1) = mc (den2 e2)) \/ ~ (mr (den2 e1) = mr (den2 e2) /\ mc (den2 e1) = mc (den2 e2))) as [E|E] by lia.
    + destruct E as [E1 E2]. fine (bin2_ok c f A B _ _ YA YB E1 E2).
    + wrong (bin2_bad c f A B _ _ YA YB E).
  - intros U V W f e IH x HF. one IH HF A YA. assert (plump (den2 e) \/ ~ plump (den2 e)) as [E|E] by (unfold plump; lia).
    + fine (scal2_r_ok c f A _ x YA E).
    + wrong (scal2_bad c f A _ x YA E).
  - intros U V W f x e IH HF. one IH HF A YA. assert (plump (den2 e) \/ ~ plump (den2 e)) as [E|E] by (unfold plump; lia).
    + fine (scal2_l_ok c f A _ x YA E).
    + wrong (scal2_l_bad c f A _ x YA E).
  - intros V m n op (Lm & Ln & Lp). assert ((0 <= m /\ 0 <= n) \/ ~ (0 <= m /\ 0 <= n)) as [E|E] by lia.
    + destruct E as [E1 E2]. split; [auto|]. split; [|tauto]. intros _. unfold is_long in *. apply index2_ok; lia.
    + wrong (index2_bad c m n op E).
  - intros V e IH HF. one IH HF A YA. fine (transpose_ok c A _ YA).
  - intros V e1 IH1 e2 IH2 (HF1 & HF2 & P1 & P2 & HL). one IH1 HF1 A YA. one IH2 HF2 B YB.
    assert ((nonempty (den2 e1) -> nonempty (den2 e2) -> mr (den2 e1) = mr (den2 e2)) \/ (nonempty (den2 e1) /\ nonempty (den2 e2) /\ mr (den2 e1) <> mr (den2 e2))) as [E|(E1 & E2 & E3)] by (unfold nonempty; lia).
    + fine (mergeh_ok c A B _ _ YA YB P1 P2 HL E).
    + wrong (mergeh_bad c A B _ _ YA YB E1 E2 E3).
  - intros V e1 IH1 e2 IH2 (HF1 & HF2 & P1 & P2 & HL). one IH1 HF1 A YA. one IH2 HF2 B YB.
    assert ((nonempty (den2 e1) -> nonempty (den2 e2) -> mc (den2 e1) = mc (den2 e2)) \/ (nonempty (den2 e1) /\ nonempty (den2 e2) /\ mc (den2 e1) <> mc (den2 e2))) as [E|(E1 & E2 & E3)] by (unfold nonempty; lia).
    + fine (mergev_ok c A B _ _ YA YB P1 P2 HL E).
    + wrong (mergev_bad c A B _ _ YA YB E1 E2 E3).
  - intros V r e IH (HF & HL). one IH HF A YA. fine (broadcast_ok c r A _ YA HL).
  - intros U V W mul e1 IH1 e2 IH2 (HF1 & HF2 & HL). one IH1 HF1 A YA. one IH2 HF2 B YB. fine (tensor_ok c mul A B _ _ YA YB HL).
  - intros V e IH w (HF & HT & H1 & HV). one IH HF A YA. destruct (base1_ok c A _ YA) as [HD HR]. apply (typed1 (all_positions (zlen (den1 e)))) in HT.
    fold (whole1 (zlen (den1 e))) in HT. destruct (vop_ok_dec _ w HT) as [E|E].
    + fine (view_two c _ _ w _ _ HD HR HT H1 HV E).
    + split; [right; tauto|split; [tauto|]]. intros _ HC. now rewrite (apply_bad c _ _ w HD HT HV HC E).
  - intros V e IH w (HF & HP & HT & H1 & HV). one IH HF A YA. destruct (base2_ok c A _ YA HP) as [HD HR]. apply (typed2 (mr (den2 e)) (mc (den2 e))) in HT.
    destruct (vop_ok_dec _ w HT) as [E|E].
    + fine (view_two c _ _ w _ _ HD HR HT H1 HV E).
    + split; [right; tauto|split; [tauto|]]. intros _ HC. now rewrite (apply_bad c _ _ w HD HT HV HC E).
Qed.
End T.
