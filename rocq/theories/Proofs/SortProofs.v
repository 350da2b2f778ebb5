(** Sorting through views. *)
From Coq Require Import Sorting.Permutation Sorting.Sorted.
From Verif Require Import Base.Outcome Base.ZList Model.IntModel Model.ScalarOps Model.Index Model.Slice Model.Array1D Model.Array2D Model.View2D Model.SortModel.
From Verif Require Import Spec.ArraySpec Spec.SliceSpec Spec.MatrixSpec Spec.Matrix2Spec Spec.View2DSpec Spec.SortSpec.
From Verif Require Import Proofs.ScalarProofs Proofs.Array1DProofs Proofs.SliceProofs Proofs.ViewProofs Proofs.SliceThms Proofs.MatrixProofs Proofs.Array2DProofs Proofs.Array2DSim Proofs.View2DProofs Proofs.View2DOps Proofs.View2DThms.
Ltac Zify.zify_post_hook ::= Z.div_mod_to_equations.

Section P.
Context {V : Type}.
Implicit Types (l b vs : list V) (less : V -> V -> bool).

Lemma swo_spec less l : swo_on less l = true <-> strict_weak less l.
Proof.
  unfold swo_on, strict_weak. rewrite forallb_forall. split.
  - intros H. split; [|split].
    + intros x Hx. apply H in Hx. apply andb_prop in Hx as [Hx _]. now destruct (less x x).
    + intros x y z Hx Hy Hz E1 E2. apply H in Hx. apply andb_prop in Hx as [_ Hx]. rewrite forallb_forall in Hx. apply Hx in Hy. rewrite forallb_forall in Hy. apply Hy in Hz.
      rewrite E1, E2 in Hz. cbn in Hz. now destruct (less x z).
    + intros x y z Hx Hy Hz [E1 E2] [E3 E4]. apply H in Hx. apply andb_prop in Hx as [_ Hx]. rewrite forallb_forall in Hx. apply Hx in Hy. rewrite forallb_forall in Hy. apply Hy in Hz.
      rewrite E1, E2, E3, E4 in Hz. cbn in Hz. now destruct (less x z), (less z x).
  - intros (H1 & H2 & H3) x Hx. rewrite (H1 x Hx). cbn. apply forallb_forall. intros y Hy. apply forallb_forall. intros z Hz.
    specialize (H2 x y z Hx Hy Hz). specialize (H3 x y z Hx Hy Hz). destruct (less x y), (less y x), (less y z), (less z y), (less x z), (less z x); cbn; auto; destruct H3; auto; try discriminate; discriminate H2; auto.
Qed.
Lemma distinct_spec ps : distinct ps = true <-> NoDup ps.
Proof.
  induction ps as [|p ps IH]; cbn; [split; auto; constructor|]. rewrite andb_true_iff, IH, NoDup_cons_iff, negb_true_iff.
  enough (existsb (Z.eqb p) ps = false <-> ~ In p ps) as -> by reflexivity. rewrite <- not_true_iff_false, existsb_exists. split.
  - intros H HI. apply H. exists p. split; [assumption|apply Z.eqb_refl].
  - intros H (q & Hq & E). apply Z.eqb_eq in E as <-. auto.
Qed.
Lemma read_ok b ps : Forall (fun p => 0 <= p < zlen b) ps -> read_at b ps = Ok (pick b ps).
Proof.
  induction ps as [|p ps IH]; intros HF; [reflexivity|]. apply Forall_cons_iff in HF as [Hp HF]. cbn [read_at]. destruct (znth_some b p Hp) as [x Hx].
  rewrite (oget_ok _ _ _ Hx), IH by assumption. cbn. now rewrite Hx.
Qed.
Lemma write_ok ps : forall b vs, Forall (fun p => 0 <= p < zlen b) ps -> write_at b ps vs = Ok (scatter b (combine ps vs)).
Proof.
  induction ps as [|p ps IH]; intros b vs HF; [reflexivity|]. destruct vs as [|x vs]; [reflexivity|]. apply Forall_cons_iff in HF as [Hp HF]. cbn [write_at combine scatter fold_left].
  rewrite oset_ok by assumption. cbn [bind fst snd]. rewrite IH; [reflexivity|]. now rewrite zlen_zupd.
Qed.

Section View.
Context (c : cfg) (N : Z) (o : obj) (b : list V).
Hypothesis HV : is_view c N o.
Hypothesis HB : zlen b = N.

Lemma positions_ok : exists ps, o_size o = Ok (zlen ps) /\ range_positions c o (Z.to_nat (zlen ps)) 0 = Ok ps /\ Forall (fun p => 0 <= p < N) ps /\
  (forall i p, znth ps i = Some p -> o_lin c o i = Ok p).
Proof.
  destruct (view_known _ _ _ HV) as [d KO]. destruct (linear_of c o d (proj1 KO)) as (H1 & H2 & H3). fold (entries d) in *. exists (entries d). split; [assumption|].
  pose proof KO as (_ & Hp & _). split; [|split; [apply Forall_forall; auto|assumption]]. clear - H3. generalize dependent (entries d). intros ps H3.
  enough (forall suf pre, ps = pre ++ suf -> range_positions c o (length suf) (zlen pre) = Ok suf) as G by (specialize (G ps [] eq_refl); unfold zlen at 1; rewrite Nat2Z.id; exact G).
  induction suf as [|p suf IH]; intros pre E; [reflexivity|]. cbn [range_positions length]. rewrite (H3 (zlen pre) p) by (rewrite E, znth_app_r by lia; now rewrite Z.sub_diag, znth_cons_0). cbn [bind].
  specialize (IH (pre ++ [p])). rewrite zlen_app in IH. change (zlen [p]) with 1 in IH. rewrite IH; [reflexivity|]. rewrite E, <- app_assoc. reflexivity.
Qed.
Lemma holds_pick ps (b' : list V) : zlen b' = N -> o_size o = Ok (zlen ps) -> Forall (fun p => 0 <= p < N) ps -> (forall i p, znth ps i = Some p -> o_lin c o i = Ok p) -> holds c o b' (pick b' ps).
Proof.
  intros HB' E HF HL. unfold holds. assert (Forall (fun p => 0 <= p < zlen b') ps) as HF' by now rewrite HB'. rewrite zlen_pick by assumption. split; [assumption|].
  intros i Hi. destruct (znth_some ps i Hi) as [p Hp]. unfold o_get. rewrite (HL _ _ Hp). cbn [bind]. assert (0 <= p < zlen b') as Rp by (rewrite Forall_forall in HF'; apply HF'; now apply znth_in in Hp).
  destruct (znth_some b' p Rp) as [x Hx]. rewrite (oget_ok _ _ _ Hx). symmetry. apply oget_ok. rewrite znth_pick by assumption. now rewrite Hp.
Qed.
Lemma holds_fun l l' : holds c o b l -> holds c o b l' -> l = l'.
Proof.
  intros [E1 H1] [E2 H2]. assert (zlen l = zlen l') as EL by congruence. apply list_ext_zlen; [assumption|]. intros i Hi.
  destruct (znth_some l i Hi) as [x Hx]. destruct (znth_some l' i) as [y Hy]; [lia|]. specialize (H1 i Hi). rewrite H2 in H1 by lia. rewrite (oget_ok _ _ _ Hx), (oget_ok _ _ _ Hy) in H1. congruence.
Qed.

Theorem range_thm (f : list V -> outcome (list V)) old new : holds c o b old -> separate c o -> f old = Ok new -> zlen new = zlen old ->
  exists b', on_range c o b f = Ok b' /\ zlen b' = N /\ holds c o b' new /\
    forall q, (forall i, 0 <= i < zlen old -> o_lin c o i <> Ok q) -> znth b' q = znth b q.
Proof.
  intros HO HS HF HL. destruct positions_ok as (ps & E1 & E2 & FP & L). assert (Forall (fun p => 0 <= p < zlen b) ps) as FB by now rewrite HB.
  assert (old = pick b ps) as EO by (eapply holds_fun; eauto; now apply holds_pick). assert (zlen old = zlen ps) as EL by (rewrite EO; now apply zlen_pick).
  assert (NoDup ps) as ND.
  { apply NoDup_nth_error. intros i j Hi Ej. assert (exists p, nth_error ps i = Some p) as [p Hp] by (destruct (nth_error ps i) eqn:X; [eauto|apply nth_error_None in X; lia]).
    assert (znth ps (Z.of_nat i) = Some p) as Z1 by (unfold znth; replace (Z.of_nat i <? 0) with false by lia; now rewrite Nat2Z.id).
    assert (znth ps (Z.of_nat j) = Some p) as Z2 by (unfold znth; replace (Z.of_nat j <? 0) with false by lia; rewrite Nat2Z.id; congruence).
    enough (Z.of_nat i = Z.of_nat j) by lia. apply (HS (zlen ps) _ _ p); auto; [now apply znth_lt in Z1|now apply znth_lt in Z2]. }
  unfold on_range. rewrite E1. cbn [bind]. rewrite E2. cbn [bind]. rewrite (proj2 (distinct_spec ps) ND), read_ok by assumption. cbn [bind]. rewrite <- EO, HF. cbn [bind]. rewrite write_ok by assumption.
  eexists. split; [reflexivity|]. rewrite zlen_scatter. split; [assumption|]. split.
  - assert (zlen (scatter b (combine ps new)) = N) as HB' by now rewrite zlen_scatter. split; [rewrite E1; f_equal; lia|]. intros i Hi. destruct (znth_some ps i) as [p Hp]; [lia|]. unfold o_get. rewrite (L _ _ Hp). cbn [bind].
    destruct (znth_some new i Hi) as [x Hx]. rewrite (oget_ok new i x Hx). apply oget_ok. eapply scatter_combine_nth; eauto. lia.
  - intros q Hq. apply scatter_other. intros p x Hin. apply in_combine_l in Hin. split; [|rewrite Forall_forall in FB; auto]. apply in_znth in Hin as [i Hi]. intros ->. apply (Hq i); [apply znth_lt in Hi; lia|auto].
Qed.
Theorem range_alias_thm (f : list V -> outcome (list V)) i j p n : o_size o = Ok n -> 0 <= i < j -> j < n -> o_lin c o i = Ok p -> o_lin c o j = Ok p -> on_range c o b f = UB.
Proof.
  intros E Hi Hj Li Lj. destruct positions_ok as (ps & E1 & E2 & FP & L). rewrite E1 in E. injection E as <-. unfold on_range. rewrite E1. cbn [bind]. rewrite E2. cbn [bind].
  destruct (distinct ps) eqn:D; [|reflexivity]. exfalso. apply distinct_spec in D. destruct (znth_some ps i) as [p1 H1]; [lia|]. destruct (znth_some ps j) as [p2 H2]; [lia|].
  assert (p1 = p) as -> by (apply L in H1; congruence). assert (p2 = p) as -> by (apply L in H2; congruence). rewrite NoDup_nth_error in D. unfold znth in *. replace (i <? 0) with false in * by lia. replace (j <? 0) with false in * by lia.
  specialize (D (Z.to_nat i) (Z.to_nat j)). assert (Z.to_nat i = Z.to_nat j); [|lia]. apply D; [unfold zlen in *; lia|congruence].
Qed.
End View.
Lemma perm_zlen l l' : Permutation l l' -> zlen l = zlen l'.
Proof. intros H. unfold zlen. now rewrite (Permutation_length H). Qed.

Theorem sort_thm c N o b less impl old : is_view c N o -> zlen b = N -> holds c o b old -> separate c o -> sorts impl -> strict_weak less old ->
  exists b' new, sort_by impl less c o b = Ok b' /\ zlen b' = N /\ holds c o b' new /\ Permutation old new /\ ordered less new /\
    forall q, (forall i, 0 <= i < zlen old -> o_lin c o i <> Ok q) -> znth b' q = znth b q.
Proof.
  intros HV HB HO HS HI HW. destruct (HI less old HW) as [HP HD]. destruct (range_thm c N o b HV HB (std_sort impl less) old (impl less old) HO HS) as (b' & E & L & H & F).
  - unfold std_sort. now rewrite (proj2 (swo_spec _ _) HW).
  - symmetry. now apply perm_zlen.
  - exists b', (impl less old). auto 10.
Qed.
Theorem sort_order_thm c N o b less impl old : is_view c N o -> zlen b = N -> holds c o b old -> ~ strict_weak less old -> sort_by impl less c o b = UB.
Proof.
  intros HV HB HO HW. destruct (positions_ok c N o HV) as (ps & E1 & E2 & FP & L). assert (Forall (fun p => 0 <= p < zlen b) ps) as FB by now rewrite HB.
  assert (old = pick b ps) as EO by (eapply holds_fun; eauto; eapply holds_pick; eauto). unfold sort_by, on_range. rewrite E1. cbn [bind]. rewrite E2. cbn [bind]. destruct (distinct ps); [|reflexivity].
  rewrite read_ok by assumption. cbn [bind]. rewrite <- EO. unfold std_sort. destruct (swo_on less old) eqn:E; [|reflexivity]. apply swo_spec in E. contradiction.
Qed.
Theorem shuffle_thm c N o b impl old : is_view c N o -> zlen b = N -> holds c o b old -> separate c o -> shuffles impl ->
  exists b' new, shuffle impl c o b = Ok b' /\ zlen b' = N /\ holds c o b' new /\ Permutation old new /\
    forall q, (forall i, 0 <= i < zlen old -> o_lin c o i <> Ok q) -> znth b' q = znth b q.
Proof.
  intros HV HB HO HS HI. destruct (range_thm c N o b HV HB (fun vs => Ok (impl vs)) old (impl old) HO HS eq_refl) as (b' & E & L & H & F).
  - symmetry. apply perm_zlen, HI.
  - exists b', (impl old). auto 10.
Qed.

(** Total orders: the sorted arrangement is unique. *)
Lemma ordered_tail less x l : ordered less (x :: l) -> ordered less l /\ forall y, In y l -> less y x = false.
Proof.
  intros H. split.
  - intros i j a d Hij Hi Hj. apply (H (i + 1) (j + 1)); [lia| |]; rewrite znth_cons_pos by lia; [replace (i + 1 - 1) with i by lia|replace (j + 1 - 1) with j by lia]; assumption.
  - intros y Hy. apply in_znth in Hy as [j Hj]. pose proof (znth_lt _ _ _ Hj). apply (H 0 (j + 1)); [lia|now rewrite znth_cons_0|]. rewrite znth_cons_pos by lia. now replace (j + 1 - 1) with j by lia.
Qed.
Theorem ordered_unique ltb l : forall l', total_order ltb -> Permutation l l' -> ordered ltb l -> ordered ltb l' -> l = l'.
Proof.
  induction l as [|x l IH]; intros l' HT HP H1 H2; [now apply Permutation_nil in HP|]. destruct l' as [|y l']; [now apply Permutation_sym, Permutation_nil in HP|].
  apply ordered_tail in H1 as [H1 M1]. apply ordered_tail in H2 as [H2 M2].
  assert (x = y) as <-.
  { destruct HT as (HI & HTr & HTo). apply HTo.
    - assert (In x (y :: l')) as [<-|Hx] by (eapply Permutation_in; [exact HP|now left]); [apply HI|auto].
    - assert (In y (x :: l)) as [<-|Hy] by (eapply Permutation_in; [apply Permutation_sym; exact HP|now left]); [apply HI|auto]. }
  f_equal. apply IH; auto. now apply Permutation_cons_inv in HP.
Qed.
Lemma ordered_rev ltb l : ordered ltb l -> ordered (fun x y => ltb y x) (rev l).
Proof.
  intros H i j x y Hij Hi Hj. pose proof (znth_lt _ _ _ Hi) as Ri. pose proof (znth_lt _ _ _ Hj) as Rj. assert (zlen (rev l) = zlen l) as LR by (unfold zlen; now rewrite rev_length). rewrite LR in *.
  apply (H (zlen l - 1 - j) (zlen l - 1 - i)); [lia| |].
  - rewrite znth_rev in Hj by lia. exact Hj.
  - rewrite znth_rev in Hi by lia. exact Hi.
Qed.
Lemma total_flip (ltb : V -> V -> bool) : total_order ltb -> total_order (fun x y => ltb y x).
Proof. intros (H1 & H2 & H3). split; [auto|]. split; [intros x y z A B; now apply (H2 z y x)|]. intros x y A B. now apply H3. Qed.
Lemma total_weak (ltb : V -> V -> bool) l : total_order ltb -> strict_weak ltb l.
Proof.
  intros (H1 & H2 & H3). split; [auto|]. split; [intros; eapply H2; eauto|]. intros x y z _ _ _ [A B] [C D]. assert (x = y) as -> by auto. assert (y = z) as -> by auto. auto.
Qed.
Theorem sort_total_thm c N o b (ltb : V -> V -> bool) old (impl : (V -> V -> bool) -> list V -> list V) : is_view c N o -> zlen b = N -> holds c o b old -> separate c o -> total_order ltb -> sorts impl ->
  exists new binc bdec, Permutation old new /\ ordered ltb new /\ holds c o binc new /\ holds c o bdec (rev new) /\
    forall impl' : (V -> V -> bool) -> list V -> list V, sorts impl' -> sort_increasing impl' ltb c o b = Ok binc /\ sort_decreasing impl' ltb c o b = Ok bdec.
Proof.
  intros HV HB HO HS HT HI. pose proof (total_flip _ HT) as HT'. destruct (HI ltb old (total_weak _ _ HT)) as [P1 O1]. destruct (HI (fun x y => ltb y x) old (total_weak _ _ HT')) as [P2 O2].
  assert (impl (fun x y => ltb y x) old = rev (impl ltb old)) as ER.
  { apply (ordered_unique (fun x y => ltb y x)); auto; [|now apply ordered_rev]. eapply Permutation_trans; [apply Permutation_sym; exact P2|]. eapply Permutation_trans; [exact P1|]. apply Permutation_rev. }
  assert (forall impl', sorts impl' -> impl' ltb old = impl ltb old /\ impl' (fun x y => ltb y x) old = impl (fun x y => ltb y x) old) as HU.
  { intros impl' HI'. destruct (HI' ltb old (total_weak _ _ HT)) as [Q1 R1]. destruct (HI' (fun x y => ltb y x) old (total_weak _ _ HT')) as [Q2 R2].
    split; [apply (ordered_unique ltb); auto; eapply Permutation_trans; [apply Permutation_sym; exact Q1|exact P1]|apply (ordered_unique (fun x y => ltb y x)); auto; eapply Permutation_trans; [apply Permutation_sym; exact Q2|exact P2]]. }
  assert (forall less, total_order less -> std_sort impl less old = Ok (impl less old)) as HE by (intros less HL; unfold std_sort; now rewrite (proj2 (swo_spec _ _) (total_weak _ _ HL))).
  destruct (range_thm c N o b HV HB (std_sort impl ltb) old (impl ltb old) HO HS (HE _ HT)) as (b1 & E1 & _ & H1 & _); [symmetry; now apply perm_zlen|].
  destruct (range_thm c N o b HV HB (std_sort impl (fun x y => ltb y x)) old _ HO HS (HE _ HT')) as (b2 & E2 & _ & H2 & _); [symmetry; now apply perm_zlen|].
  exists (impl ltb old), b1, b2. split; [assumption|]. split; [assumption|]. split; [assumption|]. split; [now rewrite <- ER|].
  intros impl' HI'. destruct (HU impl' HI') as [U1 U2].
  assert (forall f g, f old = g old -> on_range c o b f = on_range c o b g) as HX.
  { intros f g Hfg. destruct (positions_ok c N o HV) as (ps & F1 & F2 & FP & L). assert (Forall (fun p => 0 <= p < zlen b) ps) as FB by now rewrite HB.
    assert (old = pick b ps) as EO by (eapply holds_fun; eauto; eapply holds_pick; eauto). unfold on_range. rewrite F1. cbn [bind]. rewrite F2. cbn [bind]. destruct (distinct ps); [|reflexivity]. rewrite read_ok by assumption. cbn [bind]. now rewrite <- EO, Hfg. }
  unfold sort_increasing, sort_decreasing, sort_by. split; [rewrite <- E1|rewrite <- E2]; apply HX; unfold std_sort.
  - change (fun x y : V => ltb x y) with ltb. now rewrite U1.
  - now rewrite U2.
Qed.
Theorem sort_sorted_thm c N o b (ltb : V -> V -> bool) old (impl : (V -> V -> bool) -> list V -> list V) : is_view c N o -> zlen b = N -> holds c o b old -> separate c o -> total_order ltb -> sorts impl -> ordered ltb old ->
  exists b', sort_increasing impl ltb c o b = Ok b' /\ holds c o b' old.
Proof.
  intros HV HB HO HS HT HI HD. destruct (sort_total_thm c N o b ltb old impl) as (new & b1 & b2 & HP & HR & H1 & _ & HF); auto.
  exists b1. split; [now apply HF|]. now rewrite (ordered_unique ltb old new).
Qed.
Theorem ends_thm (ltb : V -> V -> bool) old new m : Permutation old new -> ordered ltb new -> total_order ltb -> In m old ->
  (forall x, In x old -> ltb x m = false) -> znth new 0 = Some m.
Proof.
  intros HP HO HT Hm HM. destruct new as [|x new]; [apply Permutation_sym, Permutation_nil in HP; subst; destruct Hm|]. rewrite znth_cons_0. f_equal. apply ordered_tail in HO as [_ HO].
  destruct HT as (H1 & _ & H3). apply H3; [apply HM; eapply Permutation_in; [apply Permutation_sym; exact HP|now left]|].
  assert (In m (x :: new)) as [<-|Hi] by (eapply Permutation_in; eauto); auto.
Qed.

(** An algorithm meeting the contract of std::sort exists. *)
Fixpoint ins less (x : V) l : list V := match l with [] => [x] | y :: l' => if less y x then y :: ins less x l' else x :: y :: l' end.
Definition isort less l : list V := fold_right (ins less) [] l.
Lemma ins_perm less x l : Permutation (x :: l) (ins less x l).
Proof. induction l as [|y l IH]; cbn; [auto|]. destruct (less y x); [|auto]. rewrite perm_swap. now apply perm_skip. Qed.
Lemma isort_perm less l : Permutation l (isort less l).
Proof. induction l as [|x l IH]; cbn; [auto|]. rewrite <- ins_perm. now apply perm_skip. Qed.
Lemma not_less_trans less L x y z : strict_weak less L -> In x L -> In y L -> In z L -> less y x = false -> less z y = false -> less z x = false.
Proof.
  intros (H1 & H2 & H3) Hx Hy Hz A B. destruct (less z x) eqn:E; [|reflexivity]. destruct (less y z) eqn:C; [rewrite (H2 y z x) in A; auto; discriminate|].
  destruct (less x y) eqn:D; [rewrite (H2 z x y) in B; auto; discriminate|]. destruct (H3 x y z) as [_ F]; auto. congruence.
Qed.
Lemma less_not_less less L x y : strict_weak less L -> In x L -> In y L -> less x y = true -> less y x = false.
Proof. intros (H1 & H2 & _) Hx Hy A. destruct (less y x) eqn:E; [|reflexivity]. specialize (H1 x Hx). rewrite (H2 x y x) in H1; auto. Qed.
Lemma ss_ordered less l : StronglySorted (fun x y => less y x = false) l -> ordered less l.
Proof.
  intros H. induction H as [|x l H IH F]; intros i j a d Hij Hi Hj; [now rewrite znth_nil in Hi|]. rewrite znth_cons_pos in Hj by lia.
  destruct (Z.eq_dec i 0) as [->|]; [rewrite znth_cons_0 in Hi; injection Hi as <-; rewrite Forall_forall in F; apply F; now apply znth_in in Hj|].
  rewrite znth_cons_pos in Hi by lia. eapply IH; [|exact Hi|exact Hj]. lia.
Qed.
Lemma ins_sorted less L x l : strict_weak less L -> In x L -> incl l L -> StronglySorted (fun x y => less y x = false) l -> StronglySorted (fun x y => less y x = false) (ins less x l).
Proof.
  intros HW Hx HL HS. induction HS as [|y l HS IH F]; cbn; [repeat constructor|]. assert (In y L) as Hy by (apply HL; now left). assert (incl l L) as HL' by (intros z Hz; apply HL; now right). destruct (less y x) eqn:E.
  - constructor; [auto|]. apply Forall_forall. intros z Hz. apply (Permutation_in z (Permutation_sym (ins_perm less x l))) in Hz as [<-|Hz]; [eapply less_not_less; eauto|]. rewrite Forall_forall in F. auto.
  - constructor; [now constructor|]. constructor; [assumption|]. apply Forall_forall. intros z Hz. rewrite Forall_forall in F. apply (not_less_trans less L x y z); auto.
Qed.
Theorem isort_sorts : sorts isort.
Proof.
  intros less L HW. split; [apply isort_perm|]. apply ss_ordered. enough (forall l, incl l L -> StronglySorted (fun x y => less y x = false) (isort less l)) as G by (apply G, incl_refl).
  induction l as [|x l IH]; intros HL; cbn; [constructor|]. apply (ins_sorted less L); auto; [apply HL; now left| |].
  - intros z Hz. apply HL. right. eapply Permutation_in; [apply Permutation_sym, isort_perm|exact Hz].
  - apply IH. intros z Hz. apply HL. now right.
Qed.
End P.
