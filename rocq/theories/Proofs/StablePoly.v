(** Stable polynomials and lp norms. *)
From Coq Require Import Ring_theory Ring Reals Lra.
From Verif Require Import Base.Outcome Base.ZList Model.IntModel Model.Index Model.Slice Model.Array1D Model.Array2D Model.View2D Model.Expr Model.Reduce Model.StableOps.
From Verif Require Import Spec.ArraySpec Spec.SliceSpec Spec.ExprSpec Spec.ReduceSpec Spec.StableSpec Spec.NormSpec Spec.LpSpec.
From Verif Require Import Proofs.Array1DProofs Proofs.SliceProofs Proofs.ExprProofs Proofs.ExprMore Proofs.ReduceProofs Proofs.ReduceThms Proofs.StableLoops Proofs.ExactProofs Proofs.PowProofs Proofs.NormThms Proofs.IntProofs Spec.IntSpec.
Ltac Zify.zify_post_hook ::= Z.div_mod_to_equations.
Local Open Scope Z_scope.

Section ANY.
Context {V : Type} (N : num V) (c : cfg).
Implicit Types (A X CP RS : src1 V).
Lemma elt_ok {W} (l : list W) i v : znth l i = Some v -> elt (map Ok l) i = Ok v.
Proof. intros H. unfold elt. now rewrite znth_map, H. Qed.
Lemma zip_pairs {W} (f : V * V -> W) xs ps prs : pow_pairs N c xs ps prs ->
  zip (fun x p => ' rs <- pow_prods N c x p ;; Ok (f rs)) (map Ok xs) (map Ok ps) = map Ok (map f prs).
Proof.
  revert ps prs. induction xs as [|x xs IH]; intros [|p ps] [|q prs] (H1 & H2 & H3); cbn in H1, H2; try discriminate; [reflexivity|].
  cbn [map zip]. destruct (H3 0 x p) as (q' & Eq & Ep); [now rewrite znth_cons_0|now rewrite znth_cons_0|]. rewrite znth_cons_0 in Eq. injection Eq as <-.
  f_equal; [cbn [both bind]; now rewrite Ep|]. apply IH. split; [congruence|]. split; [congruence|]. intros i y r Hy Hr. pose proof (znth_lt _ _ _ Hy) as HB.
  destruct (H3 (i + 1) y r) as (q' & E1 & E2).
  - rewrite znth_cons_pos by lia. now replace (i + 1 - 1) with i by lia.
  - rewrite znth_cons_pos by lia. now replace (i + 1 - 1) with i by lia.
  - exists q'. split; [|assumption]. rewrite znth_cons_pos in E1 by lia. now replace (i + 1 - 1) with i in E1 by lia.
Qed.
Lemma zlen_length {W} (l : list W) : zlen l = Z.of_nat (length l). Proof. reflexivity. Qed.
Lemma non_neg_ok P ps : yields P (map Ok ps) -> ps <> [] -> Forall (fun p => 0 <= p) ps -> r_all (fun p => Ok (-1 <? p)) P false = Ok true.
Proof.
  intros HP HN HF. destruct (all_pure (fun p => -1 <? p) P ps false HP HN) as (r & -> & Hr). f_equal. apply Hr. intros p Hp. rewrite Forall_forall in HF. specialize (HF p Hp). lia.
Qed.
Lemma non_neg_bad P ps : yields P (map Ok ps) -> ~ Forall (fun p => 0 <= p) ps -> r_all (fun p => Ok (-1 <? p)) P false = Ok false.
Proof.
  intros HP HF. destruct (all_pure (fun p => -1 <? p) P ps false HP) as (r & -> & Hr); [intros ->; apply HF; constructor|]. f_equal. destruct r; [|reflexivity].
  exfalso. apply HF. apply Forall_forall. intros p Hp. pose proof (proj1 Hr eq_refl p Hp). lia.
Qed.

(** stable_dot_prod depends on its operands only through their elements. *)
Lemma stable_dot_same A A' B B' l k d : yields A (map Ok l) -> yields A' (map Ok l) -> yields B (map Ok k) -> yields B' (map Ok k) -> zlen l = zlen k -> 
  stable_dot_prod N c A B d = stable_dot_prod N c A' B' d.
Proof.
  intros HA HA' HB HB' HL. unfold stable_dot_prod. pose proof HA as (E1 & _). pose proof HA' as (E2 & _). pose proof HB as (E3 & _). pose proof HB' as (E4 & _). rewrite zlen_map in E1, E2, E3, E4.
  rewrite E1, E2, E3, E4, HL, Z.eqb_refl. destruct l as [|a l].
  - now rewrite !(stable_dot_empty N c).
  - destruct k as [|b k]; [rewrite zlen_cons, zlen_nil in HL; pose proof (zlen_nonneg l); lia|]. rewrite !zlen_cons in HL.
    now rewrite (stable_dot_loop N c A B a b l k d HA HB), (stable_dot_loop N c A' B' a b l k d HA' HB') by lia.
Qed.

Lemma stable_gpoly_value A X (P : src1 Z) CP RS cs xs ps prs d : yields A (map Ok cs) -> yields X (map Ok xs) -> yields P (map Ok ps) ->
  zlen cs = zlen xs -> cs <> [] -> Forall (fun p => 0 <= p) ps -> pow_pairs N c xs ps prs -> 2 * zlen cs <= LONG_MAX ->
  yields CP (map Ok (cs ++ cs)) -> yields RS (map Ok (map fst prs ++ map snd prs)) ->
  stable_gpolynomial N c A X P d = stable_dot_prod N c CP RS (nzero N).
Proof.
  intros HA HX HP HL HN HF HQ HM HCP HRS. pose proof HQ as (L1 & L2 & _). pose proof HA as (EA & _). pose proof HX as (EX & _). pose proof HP as (EP & _). rewrite zlen_map in EA, EX. rewrite zlen_map in EP.
  assert (zlen xs = zlen ps) as HL2 by (unfold zlen; lia). assert (zlen prs = zlen xs) as HL3 by (unfold zlen; lia).
  unfold stable_gpolynomial. rewrite EA, EX, EP. replace ((zlen cs =? zlen xs) && (zlen xs =? zlen ps)) with true by lia. rewrite check_debug_true. cbn [bind].
  assert (0 < zlen cs) as HC by (destruct cs; [congruence|]; rewrite zlen_cons; pose proof (zlen_nonneg cs); lia). replace (zlen cs =? 0) with false by lia.
  rewrite (non_neg_ok P ps HP) by (try assumption; intros ->; cbn in *; lia). rewrite check_debug_true. cbn [bind].
  destruct (bin_ok c (fun x p => ' rs <- pow_prods N c x p ;; Ok (fst rs)) X P _ _ HX HP) as (R & -> & HR); [now rewrite !zlen_map|]. rewrite (zip_pairs fst _ _ _ HQ) in HR. cbn [bind].
  destruct (bin_ok c (fun x p => ' rs <- pow_prods N c x p ;; Ok (snd rs)) X P _ _ HX HP) as (S & -> & HS); [now rewrite !zlen_map|]. rewrite (zip_pairs snd _ _ _ HQ) in HS. cbn [bind].
  destruct (merge_ok c A A _ _ HA HA) as (C2 & -> & HC2); [rewrite !zlen_map; lia|]. rewrite <- map_app in HC2. cbn [bind].
  destruct (merge_ok c R S _ _ HR HS) as (R2 & -> & HR2); [rewrite !zlen_map; lia|]. rewrite <- map_app in HR2. cbn [bind].
  apply (stable_dot_same _ _ _ _ (cs ++ cs) (map fst prs ++ map snd prs)); try assumption. rewrite !zlen_app, !zlen_map. lia.
Qed.
Lemma stable_gpoly_mismatch A X (P : src1 Z) l k p d : yields A l -> yields X k -> yields P p -> zlen l <> zlen k \/ zlen k <> zlen p -> checked c = true ->
  stable_gpolynomial N c A X P d = Fail (report c).
Proof.
  intros (EA & _) (EX & _) (EP & _) H HC. unfold stable_gpolynomial. rewrite EA, EX, EP. replace ((zlen l =? zlen k) && (zlen k =? zlen p)) with false by lia. now rewrite check_debug_false.
Qed.
Lemma stable_gpoly_negative A X (P : src1 Z) l k ps d : yields A l -> yields X k -> yields P (map Ok ps) -> zlen l = zlen k -> zlen k = zlen ps -> ~ Forall (fun p => 0 <= p) ps -> checked c = true ->
  stable_gpolynomial N c A X P d = Fail (report c).
Proof.
  intros (EA & _) (EX & _) HP H1 H2 HF HC. pose proof HP as (EP & _). rewrite zlen_map in EP. unfold stable_gpolynomial. rewrite EA, EX, EP. replace ((zlen l =? zlen k) && (zlen k =? zlen ps)) with true by lia. rewrite check_debug_true. cbn [bind].
  assert (0 < zlen ps) as HL by (destruct ps; [exfalso; apply HF; constructor|]; rewrite zlen_cons; pose proof (zlen_nonneg ps); lia). replace (zlen l =? 0) with false by lia.
  rewrite (non_neg_bad P ps HP HF). now rewrite check_debug_false.
Qed.
Lemma stable_gpoly_empty A X (P : src1 Z) d : yields A [] -> yields X [] -> yields P [] -> stable_gpolynomial N c A X P d = Ok d.
Proof. intros (EA & _) (EX & _) (EP & _). rewrite zlen_nil in *. unfold stable_gpolynomial. rewrite EA, EX, EP. cbn [Z.eqb andb]. now rewrite check_debug_true. Qed.

Lemma const_list {W U} (x : W) (l : list U) : repeat (Ok x) (Z.to_nat (zlen l)) = map Ok (map (fun _ => x) l).
Proof. unfold zlen. rewrite Nat2Z.id. induction l; cbn; congruence. Qed.
Lemma stable_poly_powers_eq A (P : src1 Z) cs ps x d : yields A (map Ok cs) -> yields P (map Ok ps) -> zlen cs = zlen ps -> cs <> [] -> Forall (fun p => 0 <= p) ps ->
  exists X, yields X (map Ok (map (fun _ => x) cs)) /\ stable_polynomial_powers N c A x P d = stable_gpolynomial N c A X P (nzero N).
Proof.
  intros HA HP HL HN HF. pose proof HA as (EA & LA & _). pose proof HP as (EP & _). rewrite zlen_map in EA, LA. rewrite zlen_map in EP. unfold stable_polynomial_powers. rewrite EA, EP, HL, Z.eqb_refl, check_debug_true. cbn [bind].
  assert (0 < zlen cs) as HC by (destruct cs; [congruence|]; rewrite zlen_cons; pose proof (zlen_nonneg cs); lia). replace (zlen ps =? 0) with false by lia.
  rewrite (non_neg_ok P ps HP) by (try assumption; intros ->; cbn in *; lia). rewrite check_debug_true. cbn [bind].
  destruct (const1_ok c x (zlen ps) ltac:(lia)) as (X & -> & HX). cbn [bind]. exists X. split; [|reflexivity]. rewrite <- HL in HX. now rewrite const_list in HX.
Qed.
Lemma stable_poly_powers_mismatch A (P : src1 Z) l p x d : yields A l -> yields P p -> zlen l <> zlen p -> checked c = true -> stable_polynomial_powers N c A x P d = Fail (report c).
Proof. intros (EA & _) (EP & _) H HC. unfold stable_polynomial_powers. rewrite EA, EP. replace (zlen l =? zlen p) with false by lia. now rewrite check_debug_false. Qed.
Lemma stable_poly_powers_negative A (P : src1 Z) l ps x d : yields A l -> yields P (map Ok ps) -> zlen l = zlen ps -> ~ Forall (fun p => 0 <= p) ps -> checked c = true -> stable_polynomial_powers N c A x P d = Fail (report c).
Proof.
  intros (EA & _) HP HL HF HC. pose proof HP as (EP & _). rewrite zlen_map in EP. unfold stable_polynomial_powers. rewrite EA, EP, HL, Z.eqb_refl, check_debug_true. cbn [bind].
  assert (0 < zlen ps) as HS by (destruct ps; [exfalso; apply HF; constructor|]; rewrite zlen_cons; pose proof (zlen_nonneg ps); lia). replace (zlen ps =? 0) with false by lia.
  rewrite (non_neg_bad P ps HP HF). now rewrite check_debug_false.
Qed.
Lemma stable_poly_powers_empty A (P : src1 Z) x d : yields A [] -> yields P [] -> stable_polynomial_powers N c A x P d = Ok d.
Proof. intros (EA & _) (EP & _). rewrite zlen_nil in *. unfold stable_polynomial_powers. rewrite EA, EP. cbn [Z.eqb]. now rewrite check_debug_true. Qed.

(** The int powers of stable_polynomial. *)
Lemma int_powers n : 0 <= n <= LONG_MAX -> exists P, x_seq_int c I32 n 0 1 = Ok P /\ yields P (map Ok (map (icast I32) (zseq 0 (Z.to_nat n)))).
Proof.
  intros Hn. unfold x_seq_int, x_seq. replace (-1 <? n) with true by lia. rewrite check_debug_true. cbn [bind]. eexists. split; [reflexivity|].
  split; [cbn [ssize]; rewrite !zlen_map, zlen_zseq; lia|]. rewrite !zlen_map, zlen_zseq. split; [lia|]. intros i Hi. cbn [sun bind]. unfold elt. rewrite !znth_map, znth_zseq by lia. cbn [option_map Z.add].
  pose proof (wrap_fits I32 i) as HF. unfold icast. set (w := wrap I32 i) in *. clearbody w. unfold imul, iadd. replace (1 * w) with w by lia. rewrite arith_signed_ok by (reflexivity || assumption). cbn [bind]. replace (0 + w) with w by lia. now rewrite arith_signed_ok.
Qed.
End ANY.

(** A list as a source. *)
Definition lsrc {V} (l : list V) : src1 V := mksrc1 (zlen l) (elt (map Ok l)).
Lemma lsrc_yields {V} (l : list V) : zlen l <= LONG_MAX -> yields (lsrc l) (map Ok l).
Proof. intros H. unfold yields. rewrite zlen_map. cbn. auto. Qed.
Lemma znth_cons_next {V} (x : V) l i : 0 <= i -> znth (x :: l) (i + 1) = znth l i.
Proof. intros H. rewrite znth_cons_pos by lia. now replace (i + 1 - 1) with i by lia. Qed.

Section EX.
Context {V : Type} (N : num V) (c : cfg).
Hypothesis HX : exact_num N.
Let RT := ex_ring N HX.
Add Ring NR2 : RT.
Notation "x + y" := (nadd N x y).
Notation "x * y" := (nmul N x y).
Notation O0 := (nzero N).
Notation sum := (total (nadd N) (nzero N)).
Notation terms := (gpoly_terms (none_ N) (nmul N)).

Lemma pairs_exist xs : forall ps, length xs = length ps -> Forall (pow_fits c) ps ->
  exists prs, pow_pairs N c xs ps prs /\ forall cs, length cs = length xs -> pair_terms (nadd N) (nmul N) cs prs = terms cs xs ps.
Proof.
  induction xs as [|x xs IH]; intros [|p ps] HL HF; cbn in HL; try discriminate.
  - exists []. split; [split; [reflexivity|split; [reflexivity|intros i x p H; rewrite znth_nil in H; discriminate]]|]. intros [|a cs] H; [reflexivity|discriminate].
  - inversion HF as [|? ? [HP HM] HF']; subst. destruct (IH ps ltac:(congruence) HF') as (prs & (E1 & E2 & E3) & HT). destruct (pow_exact N c x p HX HP HM) as (r & s & EP & ES).
    exists ((r, s) :: prs). split.
    + split; [cbn; congruence|]. split; [cbn; congruence|]. intros i y q Hy Hq. pose proof (znth_lt _ _ _ Hy) as HB. destruct (Z.eq_dec i 0) as [->|Hi].
      * rewrite znth_cons_0 in Hy. rewrite znth_cons_0 in Hq. rewrite znth_cons_0. injection Hy as <-. injection Hq as <-. eauto.
      * rewrite znth_cons_pos in Hy by lia. rewrite znth_cons_pos in Hq by lia. rewrite znth_cons_pos by lia. now apply E3.
    + intros [|a cs] H; [discriminate|]. cbn [pair_terms gpoly_terms fst snd]. rewrite ES. f_equal. apply HT. cbn in H. congruence.
Qed.
Lemma products_pairs cs : forall prs, length cs = length prs ->
  sum (products (nmul N) (cs ++ cs) (map fst prs ++ map snd prs)) = sum (pair_terms (nadd N) (nmul N) cs prs).
Proof.
  assert (forall (l k l' k' : list V), length l = length k -> products (nmul N) (l ++ l') (k ++ k') = products (nmul N) l k ++ products (nmul N) l' k') as HP.
  { induction l as [|x l IH]; intros [|y k] l' k' H; cbn in *; try discriminate; [reflexivity|]. f_equal. apply IH. congruence. }
  intros prs HL. rewrite HP by now rewrite map_length. rewrite (sum_app N HX). clear HP. revert prs HL. induction cs as [|a cs IH]; intros [|q prs] HL; cbn in HL; try discriminate; [unfold total; cbn; ring|].
  specialize (IH prs ltac:(congruence)). unfold total in *. cbn. rewrite <- IH. ring.
Qed.
Lemma stable_gpoly_exact A X P cs xs ps d : yields A (map Ok cs) -> yields X (map Ok xs) -> yields P (map Ok ps) ->
  zlen cs = zlen xs -> zlen xs = zlen ps -> cs <> [] -> Forall (pow_fits c) ps -> (2 * zlen cs <= LONG_MAX)%Z ->
  stable_gpolynomial N c A X P d = Ok (sum (terms cs xs ps)).
Proof.
  intros HA HX' HP H1 H2 HN HF HM. destruct (pairs_exist xs ps ltac:(unfold zlen in H2; lia) HF) as (prs & HQ & HT). pose proof HQ as (L1 & L2 & _).
  assert (zlen (cs ++ cs) <= LONG_MAX)%Z as B1 by (rewrite zlen_app; lia). assert (zlen (map fst prs ++ map snd prs) = zlen (cs ++ cs)) as B2 by (rewrite !zlen_app, !zlen_map; unfold zlen in *; lia).
  rewrite (stable_gpoly_value N c A X P (lsrc (cs ++ cs)) (lsrc (map fst prs ++ map snd prs)) cs xs ps prs d); try assumption; try (apply lsrc_yields; lia).
  - rewrite (stable_dot_prod_exact N c HX _ _ (cs ++ cs) (map fst prs ++ map snd prs)); try (apply lsrc_yields; lia); [|congruence|destruct cs; [congruence|discriminate]].
    rewrite products_pairs by (unfold zlen in *; lia). rewrite HT by (unfold zlen in *; lia). reflexivity.
  - eapply Forall_impl; [|exact HF]. intros p [? _]. lia.
Qed.
Lemma fits_nonneg ps : Forall (pow_fits c) ps -> Forall (fun p => 0 <= p)%Z ps.
Proof. intros HF. eapply Forall_impl; [|exact HF]. intros p [? _]. lia. Qed.
Lemma stable_poly_powers_exact A P cs ps x d : yields A (map Ok cs) -> yields P (map Ok ps) -> zlen cs = zlen ps -> cs <> [] -> Forall (pow_fits c) ps -> (2 * zlen cs <= LONG_MAX)%Z ->
  stable_polynomial_powers N c A x P d = Ok (sum (terms cs (map (fun _ => x) cs) ps)).
Proof.
  intros HA HP HL HN HF HM. destruct (stable_poly_powers_eq N c A P cs ps x d HA HP HL HN (fits_nonneg _ HF)) as (X & HX' & ->). apply stable_gpoly_exact; try assumption; now rewrite zlen_map.
Qed.
Lemma icast_small n : (Z.of_nat n <= 2 ^ 31)%Z -> map (icast I32) (zseq 0 n) = zseq 0 n.
Proof.
  intros H. rewrite <- map_id. apply map_ext_in. intros i Hi. apply in_zseq in Hi. apply icast_id. unfold fits. cbn in *. lia.
Qed.
Lemma pow_fits_le n p : pow_fits c n -> (0 <= p <= n)%Z -> pow_fits c p.
Proof. intros [H1 H2] H. split; lia. Qed.
Lemma stable_poly_exact A cs x d : yields A (map Ok cs) -> cs <> [] -> (zlen cs <= 2 ^ 31)%Z -> pow_fits c (zlen cs - 1) ->
  stable_polynomial N c A x d = Ok (sum (poly_terms (none_ N) (nmul N) x 0 cs)).
Proof.
  intros HA HN HL HF. pose proof HA as (EA & LA & _). rewrite zlen_map in EA, LA. unfold stable_polynomial. rewrite EA.
  assert (0 < zlen cs)%Z as HC by (destruct cs; [congruence|]; rewrite zlen_cons; pose proof (zlen_nonneg cs); lia). replace (zlen cs =? 0)%Z with false by lia.
  destruct (const1_ok c x (zlen cs) ltac:(lia)) as (X & -> & HX'). cbn [bind]. destruct (int_powers c (zlen cs) ltac:(lia)) as (P & -> & HP). cbn [bind].
  rewrite icast_small in HP by lia. rewrite (const_list x cs) in HX'.
  rewrite (stable_gpoly_exact A X P cs _ _ (nzero N) HA HX' HP); try assumption.
  - f_equal. f_equal. replace (Z.to_nat (zlen cs)) with (length cs) by (unfold zlen; lia). exact (powers_iota (none_ N) (nmul N) (nmul N) x cs 0%nat).
  - now rewrite zlen_map.
  - rewrite zlen_map, zlen_zseq. lia.
  - apply Forall_forall. intros p Hp. apply in_zseq in Hp. apply (pow_fits_le (zlen cs - 1)%Z); [assumption|lia].
  - unfold LONG_MAX. lia.
Qed.
End EX.
Lemma stable_poly_empty {V} (N : num V) c A x d : yields A [] -> stable_polynomial N c A x d = Ok d.
Proof. intros (E & _). rewrite zlen_nil in E. unfold stable_polynomial. now rewrite E. Qed.
Lemma stable_poly_large {V} (N : num V) c A cs x d : yields A (map Ok cs) -> 2 ^ 31 < zlen cs -> checked c = true -> stable_polynomial N c A x d = Fail (report c).
Proof.
  intros HA HL HC. pose proof HA as (EA & LA & _). rewrite zlen_map in EA, LA. unfold stable_polynomial. rewrite EA. replace (zlen cs =? 0) with false by lia.
  destruct (const1_ok c x (zlen cs) ltac:(lia)) as (X & -> & HX'). cbn [bind]. destruct (int_powers c (zlen cs) ltac:(lia)) as (P & -> & HP). cbn [bind].
  eapply stable_gpoly_negative; try eassumption; rewrite ?zlen_map, ?zlen_zseq, ?zlen_repeat by lia; try lia.
  intros HF. rewrite Forall_forall in HF. assert (In (icast I32 (2 ^ 31)) (map (icast I32) (zseq 0 (Z.to_nat (zlen cs))))) as HI. { apply in_map, in_zseq. lia. }
  specialize (HF _ HI). vm_compute in HF. congruence.
Qed.
Lemma stable_poly_refuted {V} (N : num V) (y : V) : exists c (A : src1 V) cs x d, checked c = true /\ yields A (map Ok cs) /\ cs <> [] /\ pow_fits c (zlen cs - 1) /\ (2 * zlen cs <= amax c)%Z /\ (amax c <= LONG_MAX)%Z /\
  stable_polynomial N c A x d = Fail (report c).
Proof.
  set (c := mkcfg true true false (2 ^ 62)). destruct (const1_ok c y (2 ^ 31 + 1)) as (A & _ & HA); [unfold LONG_MAX; lia|].
  set (cs := map (fun _ : Z => y) (zseq 0 (Z.to_nat (2 ^ 31 + 1)))). assert (zlen cs = 2 ^ 31 + 1) as HL by (unfold cs; rewrite zlen_map, zlen_zseq, Z2Nat.id by lia; reflexivity).
  assert (yields A (map Ok cs)) as HA'. { unfold cs. rewrite <- const_list, zlen_zseq, Z2Nat.id by lia. exact HA. } clearbody cs.
  exists c, A, cs, y, y. split; [reflexivity|]. split; [exact HA'|]. split; [intros ->; cbn in HL; lia|]. rewrite HL. split; [split; [unfold LONG_MAX; lia|left; cbn [amax c]; lia]|]. split; [cbn [amax c]; unfold LONG_MAX; lia|]. split; [cbn [amax c]; unfold LONG_MAX; lia|].
  apply (stable_poly_large N c A cs); [exact HA'|lia|reflexivity].
Qed.
