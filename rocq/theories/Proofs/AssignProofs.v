(** Assignments and compound assignments through views. *)
From Verif Require Import Base.Outcome Base.ZList Model.Index Model.Slice Model.Array1D Model.Array2D Model.View2D Model.Expr Model.ViewAssign.
From Verif Require Import Spec.ArraySpec Spec.SliceSpec Spec.MatrixSpec Spec.Matrix2Spec Spec.View2DSpec Spec.ExprSpec Spec.ReduceSpec Spec.AssignSpec.
From Verif Require Import Proofs.View2DProofs Proofs.View2DOps Proofs.View2DThms Proofs.ExprProofs Proofs.ExprEval.
Ltac Zify.zify_post_hook ::= Z.div_mod_to_equations.

Lemma places_of {c N} o : is_view c N o -> exists ps, at_places c N o ps.
Proof.
  intros HV. destruct (view_known _ _ o HV) as [d K]. destruct (view_size _ _ o HV) as (n & E & HN). exists (entries d).
  assert (linear c (F:=Ok) o (entries d)) as (L1 & L2 & L3). { destruct K as (HD & _). exact (linear_of c o d HD). }
  repeat split; try assumption. apply Forall_forall. intros p Hp. destruct (in_znth _ _ Hp) as (i & Hi). pose proof (znth_lt _ _ _ Hi).
  destruct (lin_known _ _ o d i (zlen (entries d)) K L2) as (p' & E1 & R & _); [lia|]. congruence.
Qed.
Lemma foldo_app {V S} (f : S -> V -> outcome S) l k : forall s, foldo f s (l ++ k) = (t <- foldo f s l ;; foldo f t k).
Proof.
  induction l as [|x l IH]; intros s; [reflexivity|]. cbn [foldo app]. destruct x as [x| |]; cbn [bind]; try reflexivity. destruct (f s x); cbn [bind]; try reflexivity. apply IH.
Qed.
Lemma hits_app {X} q (l k : list (Z * X)) : hits q (l ++ k) = hits q l ++ hits q k.
Proof. unfold hits. now rewrite filter_app, map_app. Qed.
Lemma firstn_snoc {A} (l : list A) i x : znth l i = Some x -> firstn (Z.to_nat (i + 1)) l = firstn (Z.to_nat i) l ++ [x].
Proof.
  intros Hx. pose proof (znth_lt _ _ _ Hx) as Hi. replace (Z.to_nat (i + 1)) with (S (Z.to_nat i)) by lia. unfold znth in Hx. replace (i <? 0) with false in Hx by lia. clear Hi. revert l Hx. generalize (Z.to_nat i). intros k. induction k as [|k IH]; intros [|y l]; cbn; try discriminate; [congruence|]. intros H. now rewrite <- IH.
Qed.

Section LOOP.
Context {V X : Type} (f : V -> X -> outcome V).
Implicit Types (b : list V) (l : list (Z * outcome X)).

Lemma after_nil b : after f b [] b.
Proof. split; [reflexivity|]. intros q v H. exists v. auto. Qed.
Lemma after_snoc b l b1 p ox v y : after f b l b1 -> znth b1 p = Some v -> (x <- ox ;; f v x) = Ok y -> after f b (l ++ [(p, ox)]) (zupd b1 p y).
Proof.
  intros (HL & HA) Hp Hy. pose proof (znth_lt _ _ _ Hp). split; [now rewrite zlen_zupd|]. intros q u Hq. destruct (HA q u Hq) as (w & E1 & E2). rewrite hits_app, foldo_app, E1. cbn [bind]. unfold hits. cbn [filter fst]. rewrite znth_zupd by lia. destruct (Z.eqb_spec p q) as [->|].
  - rewrite Hp in E2. injection E2 as ->. cbn [map snd foldo]. rewrite Z.eqb_refl. destruct ox as [x| |]; cbn [bind] in *; try discriminate. rewrite Hy. cbn [bind]. eauto.
  - cbn [map foldo]. replace (q =? p) with false by lia. eauto.
Qed.
Lemma loop_runs b l body : Forall (fun e => 0 <= fst e < zlen b) l ->
  (forall i p ox v b', znth l i = Some (p, ox) -> after f b (firstn (Z.to_nat i) l) b' -> znth b' p = Some v ->
     body i b' = commit b' (y <- (x <- ox ;; f v x) ;; oset b' p y)) ->
  runs f b l (mfor 0 (zlen l) body b).
Proof.
  intros HF HB. unfold mfor. rewrite Z.sub_0_r.
  enough (forall k i b', 0 <= i -> i + Z.of_nat k = zlen l -> after f b (firstn (Z.to_nat i) l) b' -> runs f b l (mfor_loop k i body b')) as G by (apply G; [lia|pose proof (zlen_nonneg l); lia|apply after_nil]).
  induction k as [|k IH]; intros i b' Hi HK HA.
  - left. exists b'. split; [reflexivity|]. rewrite firstn_all2 in HA by (unfold zlen in HK; lia). assumption.
  - cbn [mfor_loop]. destruct (znth_some l i ltac:(lia)) as ((p & ox) & Hl). assert (0 <= p < zlen b) as Hp. { rewrite Forall_forall in HF. apply (HF (p, ox)). eapply znth_in. exact Hl. }
    pose proof HA as (HL & _). destruct (znth_some b' p ltac:(lia)) as (v & Hv). rewrite (HB i p ox v b' Hl HA Hv). destruct (x <- ox ;; f v x) as [y|e|] eqn:E; cbn [bind].
    + rewrite oset_ok by lia. cbn [commit mseq mbind]. apply IH; [lia|lia|]. rewrite (firstn_snoc l i (p, ox) Hl). eapply after_snoc; eassumption.
    + cbn [commit mseq mbind]. right. exists i, p, ox, v, b'. split; [assumption|]. split; [assumption|]. split; [assumption|]. left. exists e. split; [assumption|reflexivity].
    + cbn [commit mseq mbind]. right. exists i, p, ox, v, b'. split; [assumption|]. split; [assumption|]. split; [assumption|]. right. split; [assumption|reflexivity].
Qed.
End LOOP.

Lemma combine_znth {A B} (l : list A) (k : list B) i e : znth (combine l k) i = Some e -> znth l i = Some (fst e) /\ znth k i = Some (snd e).
Proof.
  unfold znth. destruct (i <? 0); [discriminate|]. generalize (Z.to_nat i). intros n. revert l k. induction n as [|n IH]; intros [|x l] [|y k]; cbn; try discriminate.
  - intros [= <-]. auto.
  - apply IH.
Qed.
Lemma combine_len {A B} (l : list A) (k : list B) : zlen l = zlen k -> zlen (combine l k) = zlen l.
Proof. unfold zlen. rewrite combine_length. lia. Qed.
Lemma combine_forall {A B} (P : A -> Prop) (l : list A) (k : list B) : Forall P l -> Forall (fun e => P (fst e)) (combine l k).
Proof. intros H. revert k. induction H; intros [|y k]; cbn; constructor; auto. Qed.

Section VIEWS.
Context {V : Type} (c : cfg) (N : Z).
Implicit Types (b : list V) (o : obj) (ps : list Z).

Lemma elt_of {X} (l : list (outcome X)) i ox : znth l i = Some ox -> elt l i = ox.
Proof. intros H. unfold elt. now rewrite H. Qed.

(** Loops over a target; the operand read at step i is element i of xs, whatever the loop has done so far. *)
Lemma update_runs (f : V -> V -> outcome V) o ps xs (rd : list V -> Z -> outcome V) b : at_places c N o ps -> zlen b = N -> zlen xs = zlen ps ->
  (forall i ox b', znth xs i = Some ox -> after f b (firstn (Z.to_nat i) (combine ps xs)) b' -> rd b' i = ox) ->
  runs f b (combine ps xs) (update_loop c o (zlen ps) (fun b i v => x <- rd b i ;; f v x) b).
Proof.
  intros (_ & _ & HF & HP) HB HX HR. unfold update_loop. rewrite <- (combine_len ps xs) by lia. apply loop_runs.
  - subst N. now apply (combine_forall (fun p => 0 <= p < zlen b)).
  - intros i p ox v b' Hl HA Hv. destruct (combine_znth _ _ _ _ Hl) as (E1 & E2). cbn [fst snd] in *. rewrite (HP i p E1). cbn [bind]. rewrite (oget_ok b' p v Hv). cbn [bind]. rewrite (HR i ox b' E2 HA). reflexivity.
Qed.
Lemma store_runs o ps xs rd b : at_places c N o ps -> zlen b = N -> zlen xs = zlen ps ->
  (forall i ox b', znth xs i = Some ox -> after replace b (firstn (Z.to_nat i) (combine ps xs)) b' -> rd b' i = ox) ->
  runs replace b (combine ps xs) (store_loop c o (zlen ps) rd b).
Proof.
  intros (_ & _ & HF & HP) HB HX HR. unfold store_loop. rewrite <- (combine_len ps xs) by lia. apply loop_runs.
  - subst N. now apply (combine_forall (fun p => 0 <= p < zlen b)).
  - intros i p ox v b' Hl HA Hv. destruct (combine_znth _ _ _ _ Hl) as (E1 & E2). cbn [fst snd] in *. rewrite (HR i ox b' E2 HA). destruct ox as [x| |]; cbn [bind]; try reflexivity. rewrite (HP i p E1). reflexivity.
Qed.

(** ** Compound assignment *)
Lemma op_scalar_ok f o ps x b : at_places c N o ps -> zlen b = N ->
  runs f b (map (fun p => (p, Ok x)) ps) (v_op_scalar c f o x b).
Proof.
  intros HO HB. pose proof HO as (ES & _). unfold v_op_scalar. rewrite ES. replace (map (fun p => (p, Ok x)) ps) with (combine ps (map (fun _ => Ok x) ps)) by (clear; induction ps; cbn; congruence).
  apply (update_runs f o ps (map (fun _ => Ok x) ps) (fun _ _ => Ok x)); try assumption; [now rewrite zlen_map|]. intros i ox b' Hi _. rewrite znth_map in Hi. destruct (znth ps i); [|discriminate]. cbn in Hi. congruence.
Qed.
Lemma op_array_ok f o ps A xs b : at_places c N o ps -> zlen b = N -> yields A xs -> zlen xs = zlen ps ->
  runs f b (combine ps xs) (v_op_array c f o (ssize A) (fun _ => sun A) b).
Proof.
  intros HO HB (EA & _ & HU) HX. pose proof HO as (ES & _). unfold v_op_array. rewrite ES, EA, HX, Z.eqb_refl, check_debug_true. cbn [guarded].
  apply (update_runs f o ps xs (fun _ => sun A)); try assumption. intros i ox b' Hi _. pose proof (znth_lt _ _ _ Hi). rewrite HU by lia. now apply elt_of.
Qed.
Lemma op_array_mismatch f o ps k rd b : at_places c N o ps -> k <> zlen ps -> checked c = true ->
  v_op_array c f o k rd b = MFail (report c) b.
Proof.
  intros (ES & _) HK HC. unfold v_op_array. rewrite ES. replace (zlen ps =? k) with false by lia. now rewrite check_debug_false.
Qed.
Lemma op_array2_ok f o ps A M b : at_places c N o ps -> zlen b = N -> yields2 A M -> is_two o = true -> is_view c N o -> mr M = o_rows o -> mc M = o_cols o ->
  runs f b (combine ps (mlist M)) (v_op_array2 c f o (s2rows A) (s2cols A) (fun _ => s2lin A) b).
Proof.
  intros HO HB HA HT HV H1 H2. pose proof HO as (ES & _). destruct (view_dims _ _ o HV HT) as (R1 & R2 & _ & ES' & _). rewrite ES in ES'. injection ES' as EL. pose proof HA as (E1 & E2 & _). unfold v_op_array2. rewrite ES, E1, E2, H1, H2. unfold same_size2. rewrite !Z.eqb_refl. cbn [andb]. rewrite check_debug_true. cbn [guarded].
  assert (zlen (mlist M) = zlen ps) as HX by (rewrite zlen_mlist; rewrite ?H1, ?H2; lia).
  apply (update_runs f o ps (mlist M) (fun _ => s2lin A)); try assumption. intros i ox b' Hi _. pose proof (znth_lt _ _ _ Hi). rewrite (yields2_lin A M i HA) by (rewrite H1, H2; lia).
  unfold mlist in Hi. rewrite znth_map_zseq in Hi by (rewrite H1, H2; lia). rewrite Z.add_0_l in Hi. congruence.
Qed.
Lemma op_array2_mismatch f o ps m k rd b : at_places c N o ps -> (m, k) <> (o_rows o, o_cols o) -> checked c = true ->
  v_op_array2 c f o m k rd b = MFail (report c) b.
Proof.
  intros (ES & _) HK HC. unfold v_op_array2. rewrite ES. unfold same_size2. replace ((o_rows o =? m) && (o_cols o =? k)) with false; [now rewrite check_debug_false|]. symmetry. apply andb_false_iff. destruct (Z.eq_dec m (o_rows o)); [right|left; lia]. apply Z.eqb_neq. congruence.
Qed.
(** ** Assignment *)
Lemma fill_runs o ps x b : at_places c N o ps -> zlen b = N -> runs replace b (map (fun p => (p, Ok x)) ps) (v_fill c o x b).
Proof.
  intros HO HB. pose proof HO as (ES & _). unfold v_fill. rewrite ES. replace (map (fun p => (p, Ok x)) ps) with (combine ps (map (fun _ => Ok x) ps)) by (clear; induction ps; cbn; congruence).
  apply (store_runs o ps (map (fun _ => Ok x) ps) (fun _ _ => Ok x)); try assumption; [now rewrite zlen_map|]. intros i ox b' Hi _. rewrite znth_map in Hi. destruct (znth ps i); [|discriminate]. cbn in Hi. congruence.
Qed.
Lemma assign_runs o ps A xs b : at_places c N o ps -> zlen b = N -> yields A xs -> zlen xs = zlen ps ->
  runs replace b (combine ps xs) (v_assign c o (ssize A) (fun _ => sun A) b).
Proof.
  intros HO HB (EA & _ & HU) HX. pose proof HO as (ES & _). unfold v_assign. rewrite ES, EA, HX, Z.eqb_refl, check_debug_true. cbn [guarded].
  apply (store_runs o ps xs (fun _ => sun A)); try assumption. intros i ox b' Hi _. pose proof (znth_lt _ _ _ Hi). rewrite HU by lia. now apply elt_of.
Qed.
Lemma assign_bad o ps k rd b : at_places c N o ps -> k <> zlen ps -> checked c = true ->
  v_assign c o k rd b = MFail (report c) b /\ v_assign_rvalue c o k rd b = MFail (if exc c then Terminate else report c) b.
Proof.
  intros (ES & _) HK HC. unfold v_assign_rvalue, v_assign. rewrite ES. replace (zlen ps =? k) with false by lia. rewrite check_debug_false by assumption. cbn [guarded]. split; [reflexivity|]. unfold report. now destruct (exc c).
Qed.
Lemma assign2_bad o m k rd b : (m, k) <> (o_rows o, o_cols o) -> checked c = true ->
  v_assign2 c o m k rd b = MFail (report c) b /\ v_assign2_rvalue c o m k rd b = MFail (if exc c then Terminate else report c) b.
Proof.
  intros HK HC. unfold v_assign2_rvalue, v_assign2. unfold same_size2. replace ((o_rows o =? m) && (o_cols o =? k)) with false; [rewrite check_debug_false by assumption|].
  2:{ symmetry. apply andb_false_iff. destruct (Z.eq_dec m (o_rows o)); [right|left; lia]. apply Z.eqb_neq. congruence. }
  cbn [guarded]. split; [reflexivity|]. unfold report. now destruct (exc c).
Qed.
Lemma rvalue_same o k rd b : (forall e b', v_assign c o k rd b <> MFail e b') -> v_assign_rvalue c o k rd b = v_assign c o k rd b.
Proof. intros H. unfold v_assign_rvalue. destruct (v_assign c o k rd b) as [|e b'|]; try reflexivity. now destruct (H e b'). Qed.
Lemma assign2_runs o ps A M b : is_view c N o -> is_two o = true -> at_places c N o ps -> zlen b = N -> yields2 A M -> mr M = o_rows o -> mc M = o_cols o ->
  runs replace b (combine ps (mlist M)) (v_assign2 c o (s2rows A) (s2cols A) (fun _ => s2un A) b).
Proof.
  intros HV HT HO HB HA H1 H2. pose proof HO as (ES & _ & _ & HP). destruct (view_dims _ _ o HV HT) as (R1 & R2 & _ & ES' & _). rewrite ES in ES'. injection ES' as EL. pose proof HA as (E1 & E2 & _ & _ & _ & _ & HU & _). unfold v_assign2. rewrite E1, E2, H1, H2. unfold same_size2. rewrite !Z.eqb_refl. cbn [andb]. rewrite check_debug_true. cbn [guarded].
  assert (zlen (mlist M) = zlen ps) as HX by (rewrite zlen_mlist; rewrite ?H1, ?H2; lia).
  unfold store_loop2. rewrite (mfor_nest _ _ _ (fun k b0 => commit b0 (y <- s2lin A k ;; p <- o_lin c o k ;; oset b0 p y))); try lia.
  - rewrite <- EL. apply (store_runs o ps (mlist M) (fun _ => s2lin A)); try assumption. intros i ox b' Hi _. pose proof (znth_lt _ _ _ Hi). rewrite (yields2_lin A M i HA) by (rewrite H1, H2; lia).
    unfold mlist in Hi. rewrite znth_map_zseq in Hi by (rewrite H1, H2; lia). rewrite Z.add_0_l in Hi. congruence.
  - intros i j s Hi Hj. rewrite HU by lia. pose proof HA as (_ & _ & _ & _ & _ & _ & _ & HLin). rewrite <- H2. rewrite HLin by lia. rewrite H2. destruct (linear_view_thm c N o i j HV HT Hi Hj) as (p & _ & -> & ->). reflexivity.
Qed.
End VIEWS.
