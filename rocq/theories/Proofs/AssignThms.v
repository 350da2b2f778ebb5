(** Consequences for distinct elements, overlapping operands and selections. *)
From Verif Require Import Base.Outcome Base.ZList Model.Index Model.Slice Model.Array1D Model.Array2D Model.View2D Model.Expr Model.ViewAssign Model.Reduce.
From Verif Require Import Spec.ArraySpec Spec.SliceSpec Spec.MatrixSpec Spec.Matrix2Spec Spec.View2DSpec Spec.ExprSpec Spec.ReduceSpec Spec.AssignSpec.
From Verif Require Import Proofs.SliceProofs Proofs.View2DProofs Proofs.View2DOps Proofs.View2DThms Proofs.ExprProofs Proofs.ExprMore Proofs.ExprEval Proofs.AssignProofs.
Ltac Zify.zify_post_hook ::= Z.div_mod_to_equations.

Lemma hits_none {X} q (l : list (Z * X)) : ~ In q (map fst l) -> hits q l = [].
Proof.
  unfold hits. induction l as [|(p, x) l IH]; [reflexivity|]. cbn. intros H. destruct (Z.eqb_spec p q); [tauto|]. apply IH. tauto.
Qed.
Lemma hits_one {X} (l : list (Z * X)) i p x : NoDup (map fst l) -> znth l i = Some (p, x) -> hits p l = [x].
Proof.
  intros HN Hi. pose proof (znth_lt _ _ _ Hi) as HL. unfold znth in Hi. replace (i <? 0) with false in Hi by lia. clear HL. revert l HN Hi. generalize (Z.to_nat i). intros k. induction k as [|k IH]; intros [|(q, y) l] HN Hi; cbn in *; try discriminate; inversion HN; subst.
  - injection Hi as -> ->. unfold hits. cbn. rewrite Z.eqb_refl. cbn. f_equal. fold (hits p l). now apply hits_none.
  - unfold hits. cbn. destruct (Z.eqb_spec q p) as [->|]; [|now apply IH]. exfalso. apply H1. change p with (fst (p, x)). apply in_map. eapply nth_error_In. exact Hi.
Qed.
Lemma nodup_at {A} (l : list A) i j x : NoDup l -> znth l i = Some x -> znth l j = Some x -> i = j.
Proof.
  intros HN Hi Hj. pose proof (znth_lt _ _ _ Hi). pose proof (znth_lt _ _ _ Hj). unfold znth in *. replace (i <? 0) with false in Hi by lia. replace (j <? 0) with false in Hj by lia. rewrite NoDup_nth_error in HN. enough (Z.to_nat i = Z.to_nat j) by lia. apply HN; [|congruence]. unfold zlen in *. lia.
Qed.
Lemma not_before {X} (l : list (Z * X)) k p x : NoDup (map fst l) -> znth l k = Some (p, x) -> ~ In p (map fst (firstn (Z.to_nat k) l)).
Proof.
  intros HN Hk HI. pose proof (znth_lt _ _ _ Hk). destruct (in_znth _ _ HI) as (j & Hj). rewrite znth_map in Hj. destruct (znth (firstn (Z.to_nat k) l) j) as [e|] eqn:E; [|discriminate]. pose proof (znth_lt _ _ _ E). rewrite znth_firstn in E by lia. destruct (Z.ltb_spec j k); [|discriminate].
  enough (j = k) by lia. eapply (nodup_at (map fst l)); [assumption| |]; rewrite znth_map; [rewrite E; exact Hj|rewrite Hk; reflexivity].
Qed.
Lemma map_fst_combine {A B} (l : list A) (k : list B) : zlen l = zlen k -> map fst (combine l k) = l.
Proof. unfold zlen. revert k. induction l as [|x l IH]; intros [|y k] H; cbn in *; try lia; [reflexivity|]. f_equal. apply IH. lia. Qed.

Section DISTINCT.
Context {V X : Type} (f : V -> X -> outcome V).
Implicit Types (b : list V) (l : list (Z * outcome X)).

Lemma after_at b l b' i p ox v : NoDup (map fst l) -> after f b l b' -> znth l i = Some (p, ox) -> znth b p = Some v -> exists y, (x <- ox ;; f v x) = Ok y /\ znth b' p = Some y.
Proof.
  intros HN (HL & HA) Hi Hv. destruct (HA p v Hv) as (w & E1 & E2). rewrite (hits_one l i p ox HN Hi) in E1. cbn [foldo] in E1. exists w. split; [|assumption]. destruct ox as [x| |]; cbn [bind] in *; try discriminate. destruct (f v x); cbn [bind] in *; congruence.
Qed.
Lemma after_else b l b' q : after f b l b' -> ~ In q (map fst l) -> znth b' q = znth b q.
Proof.
  intros (HL & HA) Hq. destruct (znth b q) as [v|] eqn:E.
  - destruct (HA q v E) as (w & E1 & E2). rewrite hits_none in E1 by assumption. cbn in E1. congruence.
  - destruct (znth b' q) eqn:E'; [|reflexivity]. pose proof (znth_lt _ _ _ E'). destruct (znth_some b q ltac:(lia)). congruence.
Qed.
Lemma nodup_firstn {A} (l : list A) n : NoDup l -> NoDup (firstn n l).
Proof. intros H. revert n. induction H as [|x l HI HN IH]; intros [|n]; cbn; constructor; auto. intros HX. apply HI. rewrite <- (firstn_skipn n l). apply in_or_app. now left. Qed.
Lemma firstn_map_fst {Y} (l : list (Z * Y)) n : map fst (firstn n l) = firstn n (map fst l).
Proof. revert n. induction l; intros [|n]; cbn; congruence. Qed.
Lemma after_prefix b l k b' i p ox v : NoDup (map fst l) -> after f b (firstn (Z.to_nat k) l) b' -> i < k -> znth l i = Some (p, ox) -> znth b p = Some v -> exists y, (x <- ox ;; f v x) = Ok y /\ znth b' p = Some y.
Proof.
  intros HN HA Hi Hl Hv. pose proof (znth_lt _ _ _ Hl). apply (after_at b (firstn (Z.to_nat k) l) b' i p ox v); [rewrite firstn_map_fst; now apply nodup_firstn|assumption| |assumption]. rewrite znth_firstn by lia. replace (i <? k) with true by lia. eassumption.
Qed.
(** All operations succeed, on distinct places. *)
Lemma runs_distinct b l r : NoDup (map fst l) -> Forall (fun e => 0 <= fst e < zlen b) l -> runs f b l r ->
  (forall i p ox v, znth l i = Some (p, ox) -> znth b p = Some v -> exists y, (x <- ox ;; f v x) = Ok y) ->
  exists b', r = MOk b' /\ zlen b' = zlen b /\
    (forall i p ox v, znth l i = Some (p, ox) -> znth b p = Some v -> exists y, (x <- ox ;; f v x) = Ok y /\ znth b' p = Some y) /\
    (forall q, ~ In q (map fst l) -> znth b' q = znth b q).
Proof.
  intros HN HF HR HY. destruct HR as [(b' & -> & HA)|(k & p & ox & v & b' & Hk & HA & Hv & HE)].
  - exists b'. split; [reflexivity|]. split; [apply HA|]. split; [intros; eapply after_at; eauto|intros; eapply after_else; eauto].
  - exfalso. rewrite (after_else _ _ _ p HA (not_before _ _ _ _ HN Hk)) in Hv. destruct (HY k p ox v Hk Hv) as (y & Ey). destruct HE as [(e & E & _)|(E & _)]; congruence.
Qed.
(** The k-th operation is the first to fail. *)
Lemma runs_distinct_fail b l r k p ox v e : NoDup (map fst l) -> Forall (fun e => 0 <= fst e < zlen b) l -> runs f b l r ->
  (forall i p ox v, i < k -> znth l i = Some (p, ox) -> znth b p = Some v -> exists y, (x <- ox ;; f v x) = Ok y) ->
  znth l k = Some (p, ox) -> znth b p = Some v -> (x <- ox ;; f v x) = Fail e ->
  exists b', r = MFail e b' /\ zlen b' = zlen b /\
    (forall i p ox v, i < k -> znth l i = Some (p, ox) -> znth b p = Some v -> exists y, (x <- ox ;; f v x) = Ok y /\ znth b' p = Some y) /\
    (forall q, ~ In q (map fst (firstn (Z.to_nat k) l)) -> znth b' q = znth b q).
Proof.
  intros HN HF HR HY Hk Hv HE. destruct HR as [(b' & -> & HA)|(k' & p' & ox' & v' & b' & Hk' & HA & Hv' & HE')].
  - exfalso. destruct (after_at _ _ _ k p ox v HN HA Hk Hv) as (y & E & _). congruence.
  - pose proof Hv' as Hv0. rewrite (after_else _ _ _ p' HA (not_before _ _ _ _ HN Hk')) in Hv0.
    assert (k' = k) as ->.
    { destruct (Z_lt_le_dec k' k) as [|]; [destruct (HY k' p' ox' v' ltac:(assumption) Hk' Hv0) as (y & Ey); destruct HE' as [(e' & E & _)|(E & _)]; congruence|].
      destruct (Z.eq_dec k' k); [assumption|]. destruct (after_prefix _ _ _ _ k p ox v HN HA ltac:(lia) Hk Hv) as (y & E & _). congruence. }
    rewrite Hk in Hk'. injection Hk' as <- <-. rewrite Hv in Hv0. injection Hv0 as <-. destruct HE' as [(e' & E & ->)|(E & _)]; [|congruence]. rewrite HE in E. injection E as <-.
    exists b'. split; [reflexivity|]. split; [apply HA|]. split; [intros; eapply after_prefix; eauto|intros; eapply after_else; eauto].
Qed.
End DISTINCT.

Section VIEWS.
Context {V : Type} (c : cfg) (N : Z).
Implicit Types (b : list V) (o : obj) (ps qs : list Z).

(** Operands that are views of the same storage. *)
Lemma op_alias f o o2 ps qs vs b : at_places c N o ps -> at_places c N o2 qs -> zlen b = N -> zlen ps = zlen qs -> values_at b qs vs -> reads_ahead ps qs ->
  runs f b (combine ps (map Ok vs)) (v_op_array c f o (zlen qs) (fun b i => o_get c o2 b i) b).
Proof.
  intros HO (ES2 & _ & HF2 & HP2) HB HL (HV1 & HV2) HR. pose proof HO as (ES & _). unfold v_op_array. rewrite ES, HL, Z.eqb_refl, check_debug_true. cbn [guarded]. rewrite <- HL.
  apply (update_runs c N f o ps (map Ok vs) (fun b i => o_get c o2 b i)); try assumption; [rewrite zlen_map; lia|].
  intros i ox b' Hi HA. rewrite znth_map in Hi. destruct (znth vs i) as [v|] eqn:Ev; [|discriminate]. cbn in Hi. injection Hi as <-. pose proof (znth_lt _ _ _ Ev). destruct (znth_some qs i ltac:(lia)) as (q & Hq).
  unfold o_get. rewrite (HP2 i q Hq). cbn [bind]. apply oget_ok. rewrite (after_else f _ _ _ q HA); [now rewrite <- (HV2 i q Hq)|].
  rewrite firstn_map_fst, map_fst_combine by (rewrite zlen_map; lia). intros HI. destruct (in_znth _ _ HI) as (j & Hj). pose proof (znth_lt _ _ _ Hj). rewrite znth_firstn in Hj by lia. destruct (Z.ltb_spec j i); [|discriminate]. exact (HR i j q q ltac:(lia) Hj Hq eq_refl).
Qed.
Lemma assign_alias o o2 ps qs vs b : at_places c N o ps -> at_places c N o2 qs -> zlen b = N -> zlen ps = zlen qs -> values_at b qs vs -> reads_ahead ps qs ->
  runs replace b (combine ps (map Ok vs)) (v_assign c o (zlen qs) (fun b i => o_get c o2 b i) b).
Proof.
  intros HO (ES2 & _ & HF2 & HP2) HB HL (HV1 & HV2) HR. pose proof HO as (ES & _). unfold v_assign. rewrite ES, HL, Z.eqb_refl, check_debug_true. cbn [guarded]. rewrite <- HL.
  apply (store_runs c N o ps (map Ok vs) (fun b i => o_get c o2 b i)); try assumption; [rewrite zlen_map; lia|].
  intros i ox b' Hi HA. rewrite znth_map in Hi. destruct (znth vs i) as [v|] eqn:Ev; [|discriminate]. cbn in Hi. injection Hi as <-. pose proof (znth_lt _ _ _ Ev). destruct (znth_some qs i ltac:(lia)) as (q & Hq).
  unfold o_get. rewrite (HP2 i q Hq). cbn [bind]. apply oget_ok. rewrite (after_else replace _ _ _ q HA); [now rewrite <- (HV2 i q Hq)|].
  rewrite firstn_map_fst, map_fst_combine by (rewrite zlen_map; lia). intros HI. destruct (in_znth _ _ HI) as (j & Hj). pose proof (znth_lt _ _ _ Hj). rewrite znth_firstn in Hj by lia. destruct (Z.ltb_spec j i); [|discriminate]. exact (HR i j q q ltac:(lia) Hj Hq eq_refl).
Qed.
Lemma reads_own ps : NoDup ps -> reads_ahead ps ps.
Proof. intros HN i j p q Hji Hp Hq ->. pose proof (nodup_at ps i j q HN Hq Hp). lia. Qed.

(** Filling a view changes exactly its elements. *)
Lemma fill_ok o ps x b : at_places c N o ps -> zlen b = N -> exists b', v_fill c o x b = MOk b' /\ zlen b' = N /\
  (forall p, In p ps -> znth b' p = Some x) /\ (forall q, ~ In q ps -> znth b' q = znth b q).
Proof.
  intros HO HB. assert (forall ps', map fst (map (fun p => (p, @Ok V x)) ps') = ps') as HM by (intros ps'; induction ps'; cbn; congruence). destruct (fill_runs c N o ps x b HO HB) as [(b' & E & HA)|(k & p & ox & v & b' & Hk & _ & _ & HE)].
  - exists b'. split; [assumption|]. pose proof HA as (HL & HA'). split; [lia|]. split.
    + intros p Hp. pose proof HO as (_ & _ & HF & _). rewrite Forall_forall in HF. specialize (HF p Hp). destruct (znth_some b p ltac:(lia)) as (v & Hv). destruct (HA' p v Hv) as (w & E1 & E2). rewrite E2. f_equal.
      assert (hits p (map (fun p => (p, @Ok V x)) ps) <> []) as HNE. { unfold hits. clear -Hp. induction ps as [|q ps IH]; [destruct Hp|]. cbn. destruct (Z.eqb_spec q p); [discriminate|]. apply IH. destruct Hp; [congruence|assumption]. }
      assert (forall ox, In ox (hits p (map (fun p => (p, @Ok V x)) ps)) -> ox = Ok x) as HAll. { intros ox Hox. unfold hits in Hox. apply in_map_iff in Hox as ((q & y) & <- & Hy). apply filter_In in Hy as (Hy & _). apply in_map_iff in Hy as (q' & E' & _). cbn. congruence. }
      clear -E1 HNE HAll. destruct (hits p (map (fun p => (p, @Ok V x)) ps)) as [|o1 l]; [congruence|]. clear HNE. revert v o1 HAll E1. induction l as [|o2 l IH]; intros v o1 HAll E1; rewrite (HAll o1 (or_introl eq_refl)) in E1; cbn in E1; [congruence|].
      apply (IH x o2); [intros; apply HAll; now right|]. exact E1.
    + intros q Hq. apply (after_else replace _ _ _ q HA). now rewrite HM.
  - exfalso. rewrite znth_map in Hk. destruct (znth ps k); [|discriminate]. cbn in Hk. injection Hk as _ <-. cbn [bind] in HE. unfold replace in HE. destruct HE as [(e & E & _)|(E & _)]; discriminate.
Qed.

(** in_cond_range. *)
Lemma select_ok (f : V -> bool) o ps b : (forall i p, znth ps i = Some p -> o_lin c o i = Ok p) -> Forall (fun p => 0 <= p < zlen b) ps -> forall k i, 0 <= i -> i + Z.of_nat k = zlen ps ->
  select_loop k i (fun x => Ok (f x)) (o_get c o b) = Ok (filter (fun i => match znth ps i with Some p => holds_at f b p | None => false end) (zseq i k)).
Proof.
  intros HP HF. induction k as [|k IH]; intros i Hi HK; [reflexivity|]. cbn [select_loop zseq]. destruct (znth_some ps i ltac:(lia)) as (p & Hp). unfold o_get at 1. rewrite (HP i p Hp). cbn [bind].
  rewrite Forall_forall in HF. destruct (znth_some b p (HF p (znth_in _ _ _ Hp))) as (v & Hv). rewrite (oget_ok b p v Hv). cbn [bind]. rewrite IH by lia. cbn [bind filter]. rewrite Hp. replace (holds_at f b p) with (f v) by (unfold holds_at; now rewrite Hv). now destruct (f v).
Qed.
Lemma pick_filter (g : Z -> bool) ps : pick ps (filter (fun i => match znth ps i with Some p => g p | None => false end) (all_positions (zlen ps))) = filter g ps.
Proof.
  unfold all_positions. unfold pick. enough (forall k i, 0 <= i -> i + Z.of_nat k = zlen ps -> flat_map (fun p => match znth ps p with Some v => [v] | None => [] end) (filter (fun i => match znth ps i with Some p => g p | None => false end) (zseq i k)) = filter g (skipn (Z.to_nat i) ps)) as G by (apply (G _ 0); pose proof (zlen_nonneg ps); lia).
  induction k as [|k IH]; intros i Hi HK; [cbn; rewrite skipn_all2 by (unfold zlen in HK; lia); reflexivity|]. destruct (znth_some ps i ltac:(lia)) as (p & Hp). cbn [zseq filter]. rewrite Hp.
  assert (skipn (Z.to_nat i) ps = p :: skipn (Z.to_nat (i + 1)) ps) as ->. { replace (Z.to_nat (i + 1)) with (S (Z.to_nat i)) by lia. unfold znth in Hp. replace (i <? 0) with false in Hp by lia. clear -Hp. revert ps Hp. generalize (Z.to_nat i). intros n. induction n as [|n IH]; intros [|x l]; cbn; try discriminate; [congruence|]. apply IH. }
  cbn [filter]. destruct (g p); [cbn [flat_map]; rewrite Hp; cbn [app]; f_equal|]; apply IH; lia.
Qed.
Lemma in_cond_ok (f : V -> bool) o ps b : is_view c N o -> is_two o = false -> at_places c N o ps -> zlen b = N ->
  exists v, r_in_cond c (fun x => Ok (f x)) o b = Ok v /\ is_view c N v /\ is_two v = false /\ at_places c N v (filter (holds_at f b) ps).
Proof.
  intros HV HT (ES & HL & HF & HP) HB. unfold r_in_cond. rewrite ES. cbn [bind]. pose proof (zlen_nonneg ps). destruct (irange_ok c (zlen ps) ltac:(lia)) as (I & -> & EI & _). cbn [bind]. rewrite zlen_map, zlen_zseq in EI. rewrite EI.
  rewrite (select_ok f o ps b HP) by (subst N; auto; lia). cbn [bind]. set (is := filter _ _).
  destruct (view_known _ _ o HV) as [d K]. destruct d as [ps'|P]; [|destruct K as ((HT' & _) & _); congruence].
  assert (ps' = ps) as ->. { destruct K as ((_ & _ & ES' & HP') & _). rewrite ES in ES'. injection ES' as EL. apply list_ext_zlen; [lia|]. intros i Hi. destruct (znth_some ps' i Hi) as (p & Hp). destruct (znth_some ps i ltac:(lia)) as (p' & Hp'). pose proof (HP i p' Hp'). pose proof (HP' i p Hp). congruence. }
  assert (Forall (fun p => 0 <= p < zlen ps) is) as HIS. { apply Forall_forall. intros i Hi. unfold is in Hi. apply filter_In in Hi as (Hi & _). apply in_zseq in Hi. lia. }
  assert (zlen is <= zlen ps) as HLS. { assert (forall (g : Z -> bool) l, zlen (filter g l) <= zlen l) as HFL by (intros g l; induction l as [|x l IH]; cbn [filter]; [lia|]; destruct (g x); rewrite !zlen_cons; lia). unfold is. eapply Z.le_trans; [apply HFL|]. rewrite zlen_zseq. lia. }
  destruct (known_apply _ _ o (D1 ps) (VwSlice (Vec is)) K) as (v & d' & E1 & E2 & KV); [reflexivity|cbn; repeat split; auto; lia|cbn; auto|].
  cbn [den_apply positions] in E1. injection E1 as <-. unfold o_apply in E2. rewrite HT in E2. exists v. split; [assumption|].
  assert (pick ps is = filter (holds_at f b) ps) as EP. { rewrite <- pick_filter. unfold is, all_positions. do 3 f_equal. lia. }
  rewrite EP in KV. split; [eapply known_view; exact KV|]. destruct KV as ((KT & KL & KS & KP) & KR & _). split; [assumption|]. split; [assumption|]. split; [assumption|]. split; [|assumption].
  apply Forall_forall. intros p Hp. apply KR. assumption.
Qed.
(** Assigning through the selection changes exactly the elements that satisfied the condition. *)
Lemma in_cond_write (f : V -> bool) o ps b x : is_view c N o -> is_two o = false -> at_places c N o ps -> zlen b = N ->
  exists v b', r_in_cond c (fun x => Ok (f x)) o b = Ok v /\ v_fill c v x b = MOk b' /\ zlen b' = N /\
    forall q, znth b' q = if (if in_dec Z.eq_dec q ps then holds_at f b q else false) then Some x else znth b q.
Proof.
  intros HV HT HO HB. destruct (in_cond_ok f o ps b HV HT HO HB) as (v & E & _ & _ & HP). destruct (fill_ok v _ x b HP HB) as (b' & E1 & HL & H1 & H2). exists v, b'. repeat (split; [assumption|]). intros q.
  destruct (in_dec Z.eq_dec q ps) as [HI|HI]; [destruct (holds_at f b q) eqn:EH|].
  - apply H1. apply filter_In. auto.
  - apply H2. intros HF. apply filter_In in HF. destruct HF. congruence.
  - apply H2. intros HF. apply filter_In in HF. tauto.
Qed.
Lemma in_open_ok ltb leb (low high : V) o ps b : is_view c N o -> is_two o = false -> at_places c N o ps -> zlen b = N ->
  (leb low high = true -> exists v, r_in_open c ltb leb low high o b = Ok v /\ is_view c N v /\ at_places c N v (filter (holds_at (fun x => ltb low x && ltb x high) b) ps)) /\
  (leb low high = false -> checked c = true -> r_in_open c ltb leb low high o b = Fail (report c)).
Proof.
  intros HV HT HO HB. unfold r_in_open. split; [intros ->|intros -> HC; now rewrite check_debug_false]. rewrite check_debug_true. cbn [bind]. destruct (in_cond_ok (fun x => ltb low x && ltb x high) o ps b HV HT HO HB) as (v & E & H1 & _ & H2). eauto.
Qed.
Lemma in_closed_ok leb (low high : V) o ps b : is_view c N o -> is_two o = false -> at_places c N o ps -> zlen b = N ->
  (leb low high = true -> exists v, r_in_closed c leb low high o b = Ok v /\ is_view c N v /\ at_places c N v (filter (holds_at (fun x => leb low x && leb x high) b) ps)) /\
  (leb low high = false -> checked c = true -> r_in_closed c leb low high o b = Fail (report c)).
Proof.
  intros HV HT HO HB. unfold r_in_closed. split; [intros ->|intros -> HC; now rewrite check_debug_false]. rewrite check_debug_true. cbn [bind]. destruct (in_cond_ok (fun x => leb low x && leb x high) o ps b HV HT HO HB) as (v & E & H1 & _ & H2). eauto.
Qed.
(** for_each applies f to every element in order. *)
Lemma for_each_runs (f : V -> outcome V) o ps b : at_places c N o ps -> zlen b = N ->
  runs (fun v _ => f v) b (map (fun p => (p, Ok tt)) ps) (r_for_each c f o b).
Proof.
  intros (ES & _ & HF & HP) HB. unfold r_for_each. rewrite ES. rewrite <- (zlen_map (fun p => (p, Ok tt)) ps). apply loop_runs.
  - apply Forall_forall. intros e He. apply in_map_iff in He as (p & <- & Hp). rewrite Forall_forall in HF. specialize (HF p Hp). cbn [fst]. lia.
  - intros i p ox v b' Hl HA Hv. rewrite znth_map in Hl. destruct (znth ps i) as [p'|] eqn:E; [|discriminate]. cbn in Hl. injection Hl as -> <-. rewrite (HP i p E). cbn [bind]. now rewrite (oget_ok b' p v Hv).
Qed.
End VIEWS.
