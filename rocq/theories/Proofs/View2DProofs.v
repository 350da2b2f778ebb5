(** Views of two-dimensional arrays address the right elements. *)
From Verif Require Import Base.Outcome Base.ZList Model.IntModel Model.ScalarOps Model.Index Model.Slice Model.Array1D Model.Array2D Model.View2D.
From Verif Require Import Spec.ArraySpec Spec.SliceSpec Spec.MatrixSpec Spec.Matrix2Spec Spec.View2DSpec.
From Verif Require Import Proofs.ScalarProofs Proofs.Array1DProofs Proofs.SliceProofs Proofs.ViewProofs Proofs.SliceThms Proofs.MatrixProofs Proofs.Array2DProofs Proofs.Array2DSim.
Ltac Zify.zify_post_hook ::= Z.div_mod_to_equations.

(** Lists *)
Section L.
Context {A B : Type}.
Lemma collect_all (f : A -> option B) (l : list A) : (forall a, In a l -> exists b, f a = Some b) ->
  zlen (collect f l) = zlen l /\ forall i, znth (collect f l) i = match znth l i with Some a => f a | None => None end.
Proof.
  induction l as [|x l IH]; intros H.
  - split; [reflexivity|]. intros i. unfold collect. cbn. now rewrite !znth_nil.
  - destruct (H x (or_introl eq_refl)) as [y Ey]. destruct IH as [IL IN]; [intros a Ha; apply H; now right|].
    assert (collect f (x :: l) = y :: collect f l) as E by (unfold collect; cbn; now rewrite Ey). rewrite E. split.
    + rewrite !zlen_cons. lia.
    + intros i. destruct (Z.lt_trichotomy i 0) as [Hi|[->|Hi]].
      * now rewrite !znth_neg by assumption.
      * now rewrite !znth_cons_0.
      * now rewrite !znth_cons_pos by assumption.
Qed.
Lemma collect_app (f : A -> option B) l1 l2 : collect f (l1 ++ l2) = collect f l1 ++ collect f l2.
Proof. apply flat_map_app. Qed.
Lemma collect_none (f : A -> option B) l : (forall a, In a l -> f a = None) -> collect f l = [].
Proof.
  induction l as [|x l IH]; intros H; [reflexivity|]. unfold collect. cbn. rewrite (H x) by now left. apply IH. intros a Ha. apply H. now right.
Qed.
End L.
Lemma collect_window {B} (f : Z -> option B) m lo hi : 0 <= lo -> lo <= hi -> hi <= m ->
  (forall i, 0 <= i < m -> ~ (lo <= i < hi) -> f i = None) -> (forall i, lo <= i < hi -> exists b, f i = Some b) ->
  zlen (collect f (all_positions m)) = hi - lo /\ forall i, 0 <= i < hi - lo -> znth (collect f (all_positions m)) i = f (lo + i).
Proof.
  intros H1 H2 H3 HN HS. unfold all_positions.
  replace (Z.to_nat m) with (Z.to_nat lo + (Z.to_nat (hi - lo) + Z.to_nat (m - hi)))%nat by lia.
  rewrite !zseq_app, !collect_app. rewrite (collect_none f (zseq 0 _)).
  2:{ intros a Ha. apply in_zseq in Ha. apply HN; lia. }
  rewrite (collect_none f (zseq (_ + _ + _) _)). 2:{ intros a Ha. apply in_zseq in Ha. apply HN; lia. }
  rewrite app_nil_r. cbn [app]. destruct (collect_all f (zseq (0 + Z.of_nat (Z.to_nat lo)) (Z.to_nat (hi - lo)))) as [IL IN].
  { intros a Ha. apply in_zseq in Ha. apply HS. lia. }
  split; [rewrite IL, zlen_zseq; lia|]. intros i Hi. rewrite IN, znth_zseq by lia. f_equal. lia.
Qed.
Lemma zlen_run {A} a k (l : list A) : 0 <= a -> 0 <= k -> a + k <= zlen l -> zlen (run_of a k l) = k.
Proof. intros. unfold run_of. rewrite zlen_firstn; [reflexivity|]. rewrite zlen_skipn; lia. Qed.
Lemma znth_run {A} a k (l : list A) i : 0 <= a -> 0 <= k -> 0 <= i -> znth (run_of a k l) i = if i <? k then znth l (a + i) else None.
Proof. intros. unfold run_of. rewrite znth_firstn by lia. rewrite znth_skipn by lia. destruct (i <? k); [|reflexivity]. f_equal. lia. Qed.
Lemma pick_run {A} (l : list A) a k : 0 <= a -> 0 <= k -> a + k <= zlen l ->
  pick l (map (fun i => a + i * 1) (all_positions k)) = run_of a k l.
Proof.
  intros. apply list_ext_znth. intros i Hi. rewrite znth_pick_affine by (auto; lia). rewrite znth_run by lia.
  destruct (i <? k); [|reflexivity]. f_equal. lia.
Qed.
Lemma pick_all_eq {A} (l : list A) : pick l (all_positions (zlen l)) = l.
Proof. exact (proj1 (placeholder_laws A l)). Qed.

Lemma forall_range_dec n (v : list Z) : Forall (fun p => 0 <= p < n) v \/ ~ Forall (fun p => 0 <= p < n) v.
Proof. rewrite <- forall_valid_index. destruct (valid_slice_vector n v); auto. Qed.
Lemma acceptable_dec n s : acceptable n s \/ ~ acceptable n s.
Proof.
  destruct s as [a b d|f l d| | | | |k|m|m|v|v]; cbn [acceptable]; try (left; exact I); try lia.
  - destruct (Z.ltb_spec a 0); [right; lia|]. destruct (Z.ltb_spec b 0); [right; lia|]. destruct (Z.eqb_spec b 0); [left; repeat split; lia|].
    assert (a < n /\ 0 <= a + d * (b - 1) < n \/ ~ (a < n /\ 0 <= a + d * (b - 1) < n)) as [H1|H1] by lia;
      rewrite <- affine_acceptable in H1 by lia; [left; auto|right; intros (_ & _ & H2); auto].
  - apply forall_range_dec.
  - destruct (forall_range_dec n v); [|tauto]. rewrite <- is_sorted_le_spec. destruct (is_sorted_le v); auto. right. intros [? _]. discriminate.
Qed.
Section P.
Context (c : cfg) {F : Z -> outcome Z}.
Implicit Types (o : obj) (P : list (list Z)) (ps qs : list Z).

Lemma den2_dims o P : o_denotes_by F c o (D2 P) -> 0 <= zlen P <= LONG_MAX /\ 0 <= ncols P <= LONG_MAX.
Proof.
  intros (_ & Hw & HL & _). pose proof (zlen_nonneg P). pose proof (ncols_nonneg P). pose proof (wfm_zero P Hw).
  destruct (dims_long (zlen P) (ncols P)); auto; lia.
Qed.
Lemma addresses_get r qs i q : addresses r qs -> znth qs i = Some q -> rmap r i = Ok q.
Proof using. clear F. intros [_ H] E. rewrite H by now apply znth_lt in E. now apply oget_ok. Qed.

(** A slice of anything read linearly. *)
Definition linear o ps : Prop := zlen ps <= LONG_MAX /\ o_size o = Ok (zlen ps) /\ forall i p, znth ps i = Some p -> o_lin c o i = F p.
Lemma linear_of o d : o_denotes_by F c o d -> linear o (match d with D1 ps => ps | D2 P => concat P end).
Proof.
  destruct d as [ps|P]; intros H.
  - destruct H as (_ & H1 & H2 & H3). split; [assumption|]. split; assumption.
  - destruct H as (_ & Hw & H1 & _ & _ & H2 & _ & H3). unfold linear. rewrite (zlen_concat (ncols P)) by now apply wfm_rect. auto.
Qed.
Lemma os1_den o ps r qs : linear o ps -> addresses r qs -> Forall (fun p => 0 <= p < zlen ps) qs -> zlen qs <= LONG_MAX ->
  o_denotes_by F c (OS1 o r) (D1 (pick ps qs)).
Proof.
  intros (H1 & H2 & H3) HA HF HL. pose proof HA as [HA1 _]. split; [reflexivity|]. rewrite zlen_pick by assumption. split; [assumption|].
  split; [cbn; now rewrite HA1|]. intros i p E. rewrite znth_pick in E by assumption. destruct (znth qs i) as [q|] eqn:Eq; [|discriminate].
  cbn [o_lin]. rewrite (addresses_get r qs i q) by assumption. cbn [bind]. now apply H3.
Qed.
Lemma slice1_ok o ps s : linear o ps -> args_long s -> acceptable (zlen ps) s -> no_overflow (zlen ps) s ->
  zlen (positions (zlen ps) s) <= LONG_MAX ->
  exists o', o_slice1 c o s = Ok o' /\ o_denotes_by F c o' (D1 (pick ps (positions (zlen ps) s))).
Proof.
  intros HL Ha Hc Hn Hz. pose proof HL as (H1 & H2 & H3). pose proof (zlen_nonneg ps).
  destruct (slice_resolve_ok c (zlen ps) s) as (r & E & HA & HV); auto; try lia.
  unfold o_slice1. rewrite H2. cbn [bind]. rewrite E. cbn [bind]. rewrite HV, check_debug_true. cbn [bind].
  exists (OS1 o r). split; [reflexivity|]. apply os1_den; auto. apply positions_in_range; auto.
Qed.
Lemma sliced_bad n s : 0 <= n <= LONG_MAX -> args_long s -> checked c = true -> ~ acceptable n s -> no_overflow n s ->
  slice_resolve c n (n =? 0) s = Fail (report c) \/
  exists r, slice_resolve c n (n =? 0) s = Ok r /\ check_debug c (rvalid n r) = Fail (report c).
Proof using. clear F.
  intros Hn Ha Hk Hb Ho. pose proof (view_slice_bad c (VBase n) s Hn Ha Hk Hb Ho) as H. unfold view_slice in H. cbn [view_size] in H.
  destruct (slice_resolve c n (n =? 0) s) as [r|f|]; cbn [bind] in H; [|left; congruence|discriminate].
  right. exists r. split; [reflexivity|]. destruct (check_debug c (rvalid n r)) as [[]|f|]; cbn [bind] in H; congruence.
Qed.
Lemma slice1_bad o ps s : linear o ps -> args_long s -> checked c = true -> ~ acceptable (zlen ps) s -> no_overflow (zlen ps) s ->
  o_slice1 c o s = Fail (report c).
Proof.
  intros (H1 & H2 & H3) Ha Hk Hb Hn. pose proof (zlen_nonneg ps). unfold o_slice1. rewrite H2. cbn [bind].
  destruct (sliced_bad (zlen ps) s) as [E|(r & E & EV)]; auto; try lia; rewrite E; cbn [bind]; [reflexivity|]. now rewrite EV.
Qed.
Lemma positions_all n : 0 <= n -> zlen (all_positions n) = n.
Proof using. clear F. intros. unfold all_positions. rewrite zlen_zseq. lia. Qed.
Lemma view1_ok o d : o_denotes_by F c o d -> let ps := match d with D1 ps => ps | D2 P => concat P end in
  exists o', o_view1 c o = Ok o' /\ o_denotes_by F c o' (D1 ps).
Proof.
  intros Hd ps. pose proof (linear_of o d Hd) as HL. fold ps in HL. pose proof HL as (H1 & H2 & H3). pose proof (zlen_nonneg ps).
  unfold o_view1. rewrite H2. cbn [bind]. rewrite make_seqn_ok by lia. cbn [bind]. rewrite seqn_valid_ok by lia. rewrite check_debug_true. cbn [bind].
  eexists. split; [reflexivity|]. rewrite <- (pick_all_eq ps) at 2. apply os1_den; auto.
  - rewrite all_positions_affine. apply (addresses_seq (zlen ps)); lia.
  - apply Forall_forall. intros p Hp. unfold all_positions in Hp. apply in_zseq in Hp. lia.
  - rewrite positions_all; lia.
Qed.
(** A slice of view1D(), given the positions as an arithmetic progression. *)
Lemma through_view1 o P s a k d (qs : list Z) : o_denotes_by F c o (D2 P) -> args_long s -> acceptable (zlen (concat P)) s -> no_overflow (zlen (concat P)) s ->
  positions (zlen (concat P)) s = map (fun i => a + i * d) (all_positions k) -> 0 <= k <= LONG_MAX ->
  (forall i, 0 <= i < k -> 0 <= a + i * d < zlen (concat P)) ->
  zlen qs = k -> (forall i, 0 <= i < k -> znth qs i = znth (concat P) (a + i * d)) ->
  exists v o', o_view1 c o = Ok v /\ o_slice1 c v s = Ok o' /\ o_denotes_by F c o' (D1 qs).
Proof.
  intros Hd Ha Hc Hn HP Hk HR HL HQ. destruct (view1_ok o (D2 P) Hd) as (v & Ev & Hv). exists v.
  destruct (slice1_ok v (concat P) s) as (o' & E & Ho); auto.
  - exact (linear_of v (D1 (concat P)) Hv).
  - rewrite HP, zlen_map, positions_all; lia.
  - exists o'. repeat (split; [assumption|]). replace qs with (pick (concat P) (positions (zlen (concat P)) s)); [assumption|].
    rewrite HP. apply list_ext_znth. intros i Hi. rewrite znth_pick_affine by (auto; lia). destruct (Z.ltb_spec i k).
    + now rewrite HQ by lia.
    + symmetry. apply znth_none. lia.
Qed.

(** Two-dimensional slices *)
Lemma default_addr r : addresses (default_like r) [].
Proof using. clear F. destruct r; (split; [reflexivity|]); intros i Hi; change (zlen (@nil Z)) with 0 in Hi; lia. Qed.
Lemma default_size r : rsize (default_like r) = 0. Proof using. clear F. now destruct r. Qed.
Lemma linear_from_at o P : wfm P -> o_cols o = ncols P -> (forall i j p, mget P i j = Some p -> o_at c o i j = F p) ->
  zlen P * ncols P <= LONG_MAX ->
  forall k p, znth (concat P) k = Some p -> exists i j, 0 <= i < zlen P /\ 0 <= j < ncols P /\ k = i * ncols P + j /\ Z.quot k (ncols P) = i /\ Z.rem k (ncols P) = j /\ o_at c o i j = F p.
Proof.
  intros Hw EC HA HL k p E. pose proof (wfm_rect _ Hw) as HR. pose proof E as Hk. apply znth_lt in Hk. rewrite (zlen_concat (ncols P)) in Hk by assumption.
  pose proof (ncols_nonneg P). assert (0 < ncols P) by (destruct (Z.eq_dec (ncols P) 0) as [E0|]; [rewrite E0 in Hk|]; lia). destruct (addr_div (zlen P) (ncols P) k) as (i & j & Hi & Hj & ->); auto.
  exists i, j. repeat (split; [assumption || reflexivity|]). rewrite (concat_get (ncols P)) in E by assumption.
  assert (0 <= i * ncols P) by nia. split; [|split; [|now apply HA]].
  - rewrite Z.quot_div_nonneg by lia. rewrite Z.div_add_l by lia. rewrite Z.div_small by lia. lia.
  - rewrite Z.rem_mod_nonneg by lia. rewrite Z.add_comm, Z.mod_add by lia. now apply Z.mod_small.
Qed.
(** The matrix of positions of a two-dimensional slice, from its elements. *)
Lemma os2_den o r1 r2 Q : wfm Q -> rsize r1 = zlen Q -> rsize r2 = ncols Q -> zlen Q * ncols Q <= LONG_MAX ->
  (forall i j p, mget Q i j = Some p -> exists x y, rmap r1 i = Ok x /\ rmap r2 j = Ok y /\ o_at c o x y = F p) ->
  o_denotes_by F c (OS2 o r1 r2) (D2 Q).
Proof.
  intros Hw E1 E2 HL HA. pose proof (zlen_nonneg Q). pose proof (ncols_nonneg Q). assert (0 <= zlen Q * ncols Q) by nia.
  assert (forall i j p, mget Q i j = Some p -> o_at c (OS2 o r1 r2) i j = F p) as HA'.
  { intros i j p E. destruct (HA i j p E) as (x & y & Ex & Ey & Ep). cbn [o_at]. rewrite Ex. cbn [bind]. rewrite Ey. exact Ep. }
  split; [reflexivity|]. split; [assumption|]. split; [assumption|]. split; [exact E1|]. split; [exact E2|]. split.
  { cbn [o_size]. rewrite E1, E2. apply lmul_ok. unfold LONG_MIN. lia. }
  split; [exact HA'|]. intros k p E. destruct (linear_from_at (OS2 o r1 r2) Q) with (k := k) (p := p) as (i & j & Hi & Hj & Ek & Eq & Er & Ea); auto.
  cbn [o_lin]. unfold index_map_one_to_two. rewrite E2. assert (0 <= i * ncols Q) by nia.
  assert (i * ncols Q + j < zlen Q * ncols Q) by (apply addr_range; lia).
  rewrite ldiv_ok by (rewrite ?Eq; unfold LONG_MIN; nia). rewrite lmod_ok by (rewrite ?Eq; unfold LONG_MIN; nia). cbn [bind fst snd]. rewrite Eq, Er. exact Ea.
Qed.
Lemma pick2_get {A} (M : list (list A)) xs ys i j : wfm M -> Forall (fun p => 0 <= p < zlen M) xs -> Forall (fun p => 0 <= p < ncols M) ys ->
  mget (map (fun r => pick r ys) (pick M xs)) i j =
  match znth xs i, znth ys j with Some x, Some y => mget M x y | _, _ => None end.
Proof using. clear F.
  intros Hw Hx Hy. rewrite mget_map. rewrite znth_pick by assumption. destruct (znth xs i) as [x|] eqn:Ex; [|reflexivity].
  assert (0 <= x < zlen M) as Rx by (rewrite Forall_forall in Hx; apply Hx; now apply znth_in in Ex).
  unfold mget. destruct (znth_some M x Rx) as [r Er]. rewrite Er. pose proof (rect_nth _ _ _ _ (wfm_rect _ Hw) Er) as Lr.
  rewrite znth_pick by now rewrite Lr. now destruct (znth ys j).
Qed.
Lemma pick2_rect {A} (M : list (list A)) xs ys : wfm M -> Forall (fun p => 0 <= p < zlen M) xs -> Forall (fun p => 0 <= p < ncols M) ys ->
  rect (zlen ys) (map (fun r => pick r ys) (pick M xs)) /\ zlen (map (fun r => pick r ys) (pick M xs)) = zlen xs.
Proof using. clear F.
  intros Hw Hx Hy. split; [|rewrite zlen_map; now apply zlen_pick].
  apply Forall_forall. intros q Hq. apply in_map_iff in Hq as (r & <- & Hr). apply in_znth in Hr as (i & Hi). rewrite znth_pick in Hi by assumption.
  destruct (znth xs i); [|discriminate]. pose proof (rect_nth _ _ _ _ (wfm_rect _ Hw) Hi) as Lr. apply zlen_pick. now rewrite Lr.
Qed.
Lemma norm_wfm {A} n (M : list (list A)) : 0 <= n -> rect n M -> wfm (norm M) /\ (M = [] \/ n = 0 -> norm M = []) /\ (M <> [] -> 0 < n -> norm M = M /\ ncols M = n).
Proof using. clear F.
  intros Hn HR. unfold norm. destruct M as [|r M'].
  - cbn. split; [apply wfm_nil|]. split; [reflexivity|]. intros H. now destruct H.
  - assert (ncols (r :: M') = n) as EN by (apply rect_ncols; [assumption|discriminate]). rewrite EN. destruct (Z.eqb_spec n 0) as [->|H0].
    + split; [apply wfm_nil|]. split; [reflexivity|]. intros; lia.
    + split; [apply (wfm_intro n); [assumption|lia]|]. split; [intros [|]; [discriminate|lia]|]. auto.
Qed.
Lemma norm_nil {A} : norm (@nil (list A)) = [].
Proof using. clear F. reflexivity. Qed.
Lemma empty_den o r1 r2 : rsize r1 = 0 -> rsize r2 = 0 -> o_denotes_by F c (OS2 o r1 r2) (D2 []).
Proof.
  intros E1 E2. apply os2_den; auto; [apply wfm_nil|unfold LONG_MAX; cbn; lia|]. intros i j p E. unfold mget in E. now rewrite znth_nil in E.
Qed.
Lemma make2_ok o P r1 r2 xs ys : o_denotes_by F c o (D2 P) -> addresses r1 xs -> addresses r2 ys ->
  rvalid (zlen P) r1 = Ok true -> rvalid (ncols P) r2 = Ok true ->
  Forall (fun p => 0 <= p < zlen P) xs -> Forall (fun p => 0 <= p < ncols P) ys -> zlen xs * zlen ys <= LONG_MAX ->
  exists o', o_make2 c o r1 r2 = Ok o' /\ o_denotes_by F c o' (D2 (norm (map (fun r => pick r ys) (pick P xs)))).
Proof.
  intros Hd A1 A2 V1 V2 F1 F2 HL. pose proof Hd as (_ & Hw & _ & ER & EC & _ & HA & _). pose proof A1 as [S1 _]. pose proof A2 as [S2 _].
  unfold o_make2. rewrite ER, EC, V1, V2, !check_debug_true. cbn [bind]. eexists. split; [reflexivity|]. rewrite S1, S2.
  set (Q := map (fun r => pick r ys) (pick P xs)). destruct (pick2_rect P xs ys Hw F1 F2) as [HR LQ]. fold Q in HR, LQ.
  pose proof (zlen_nonneg xs). pose proof (zlen_nonneg ys).
  destruct (norm_wfm (zlen ys) Q) as (W1 & W2 & W3); auto.
  destruct (Z.eqb_spec (zlen xs) 0) as [Z1|Z1].
  - rewrite W2 by (left; apply zlen_zero; lia). apply empty_den; [lia|apply default_size].
  - destruct (Z.eqb_spec (zlen ys) 0) as [Z2|Z2].
    + rewrite W2 by now right. apply empty_den; [apply default_size|lia].
    + assert (Q <> []) as HQ by (apply nonempty_len; lia). destruct (W3 HQ) as [-> EN]; [lia|].
      apply os2_den; auto; try lia.
      * apply (wfm_intro (zlen ys)); [assumption|lia].
      * intros i j p E. unfold Q in E. rewrite pick2_get in E by assumption. destruct (znth xs i) as [x|] eqn:Ex; [|discriminate].
        destruct (znth ys j) as [y|] eqn:Ey; [|discriminate]. exists x, y. split; [now apply (addresses_get r1 xs)|]. split; [now apply (addresses_get r2 ys)|].
        now apply HA.
Qed.
Lemma slice_ctor_ok n s : acceptable n s -> slice_ctor c s = Ok tt.
Proof using. clear F.
  destruct s; cbn [acceptable slice_ctor]; intros H; auto.
  - replace (-1 <? start) with true by lia. replace (-1 <? size) with true by lia. now rewrite !check_debug_true.
  - replace (-1 <? first) with true by lia. replace (-1 <? last) with true by lia.
    assert (seq_cond first last stride = true) as -> by (unfold seq_cond; lia). now rewrite !check_debug_true.
  - replace (0 <? stride) with true by lia. now rewrite check_debug_true.
  - replace (-1 <? n0) with true by lia. now rewrite check_debug_true.
  - replace (-1 <? n0) with true by lia. now rewrite check_debug_true.
Qed.
Lemma slice_ctor_cases s : checked c = true -> slice_ctor c s = Ok tt \/ slice_ctor c s = Fail (report c).
Proof using. clear F.
  intros Hk. assert (forall b, check_debug c (Ok b) = Ok tt \/ check_debug c (Ok b) = Fail (report c)) as H.
  { intros [|]; [left; apply check_debug_true|right; now apply check_debug_false]. }
  destruct s; cbn [slice_ctor]; auto.
  - destruct (H (-1 <? start)) as [->| ->]; cbn [bind]; auto.
  - destruct (H (-1 <? first)) as [->| ->]; cbn [bind]; auto. destruct (H (-1 <? last)) as [->| ->]; cbn [bind]; auto.
Qed.
Lemma empty_iff P : wfm P -> (zlen P * ncols P =? 0) = (zlen P =? 0) /\ (zlen P * ncols P =? 0) = (ncols P =? 0).
Proof using. clear F.
  intros Hw. pose proof (wfm_zero P Hw) as H. destruct (Z.eq_dec (zlen P) 0) as [E|E].
  - assert (ncols P = 0) as E2 by tauto. now rewrite E, E2.
  - assert (ncols P <> 0) as E2 by tauto. assert (zlen P * ncols P <> 0) by (apply Z.neq_mul_0; auto). lia.
Qed.
Lemma resolve2_ok o P s1 s2 : o_denotes_by F c o (D2 P) ->
  args_long s1 -> acceptable (zlen P) s1 -> no_overflow (zlen P) s1 -> args_long s2 -> acceptable (ncols P) s2 -> no_overflow (ncols P) s2 ->
  exists r1 r2, o_resolve2 c o s1 s2 = Ok (r1, r2) /\ addresses r1 (positions (zlen P) s1) /\ rvalid (zlen P) r1 = Ok true /\
    addresses r2 (positions (ncols P) s2) /\ rvalid (ncols P) r2 = Ok true.
Proof.
  intros Hd A1 C1 N1 A2 C2 N2. pose proof (den2_dims o P Hd) as [D1 D2]. pose proof Hd as (_ & Hw & _ & ER & EC & ES & _).
  destruct (slice_resolve_ok c (zlen P) s1) as (r1 & E1 & AD1 & V1); auto. destruct (slice_resolve_ok c (ncols P) s2) as (r2 & E2 & AD2 & V2); auto.
  exists r1, r2. split; [|auto]. unfold o_resolve2. rewrite ES. cbn [bind]. rewrite ER, EC. destruct (empty_iff P Hw) as [Z1 Z2].
  rewrite Z1 at 1. rewrite E1. cbn [bind]. rewrite Z2, E2. reflexivity.
Qed.
Lemma slice2_ok o P s1 s2 : o_denotes_by F c o (D2 P) ->
  args_long s1 -> acceptable (zlen P) s1 -> no_overflow (zlen P) s1 -> args_long s2 -> acceptable (ncols P) s2 -> no_overflow (ncols P) s2 ->
  zlen (positions (zlen P) s1) * zlen (positions (ncols P) s2) <= LONG_MAX ->
  exists o', o_slice2 c o s1 s2 = Ok o' /\ o_denotes_by F c o' (D2 (select2 P s1 s2)).
Proof.
  intros Hd A1 C1 N1 A2 C2 N2 HL. pose proof (den2_dims o P Hd) as [D1 D2].
  destruct (resolve2_ok o P s1 s2) as (r1 & r2 & E & AD1 & V1 & AD2 & V2); auto.
  unfold o_slice2. rewrite (slice_ctor_ok (zlen P)) by assumption. rewrite (slice_ctor_ok (ncols P)) by assumption. cbn [bind]. rewrite E. cbn [bind fst snd].
  apply (make2_ok o P); auto; apply positions_in_range; auto; lia.
Qed.
Lemma slice2_bad o P s1 s2 : o_denotes_by F c o (D2 P) -> checked c = true ->
  args_long s1 -> no_overflow (zlen P) s1 -> args_long s2 -> no_overflow (ncols P) s2 ->
  ~ (acceptable (zlen P) s1 /\ acceptable (ncols P) s2) ->
  o_slice2 c o s1 s2 = Fail (report c).
Proof.
  intros Hd Hk A1 N1 A2 N2 HB. pose proof (acceptable_dec (zlen P) s1) as HD. pose proof (den2_dims o P Hd) as [D1 D2]. pose proof Hd as (_ & Hw & _ & ER & EC & ES & _).
  unfold o_slice2. destruct (slice_ctor_cases s1 Hk) as [->| ->]; [|reflexivity]. cbn [bind]. destruct (slice_ctor_cases s2 Hk) as [->| ->]; [|reflexivity]. cbn [bind].
  unfold o_resolve2. rewrite ES. cbn [bind]. rewrite ER, EC. destruct (empty_iff P Hw) as [Z1 Z2]. rewrite Z1 at 1. rewrite Z2.
  destruct HD as [C1|C1].
  - assert (~ acceptable (ncols P) s2) as C2 by tauto.
    destruct (slice_resolve_ok c (zlen P) s1) as (r1 & E1 & AD1 & V1); auto. rewrite E1. cbn [bind].
    destruct (sliced_bad (ncols P) s2) as [E|(r2 & E & EV)]; auto; rewrite E; cbn [bind]; [reflexivity|].
    unfold o_make2. cbn [fst snd]. rewrite ER, EC, V1, check_debug_true. cbn [bind]. now rewrite EV.
  - destruct (sliced_bad (zlen P) s1) as [E|(r1 & E & EV)]; auto; rewrite E; cbn [bind]; [reflexivity|].
    assert (slice_resolve c (ncols P) (ncols P =? 0) s2 = Fail (report c) \/ exists r2, slice_resolve c (ncols P) (ncols P =? 0) s2 = Ok r2) as [->|[r2 ->]].
    { destruct (acceptable_dec (ncols P) s2) as [C2|C2].
      - right. destruct (slice_resolve_ok c (ncols P) s2) as (r2 & E2 & _); auto. eauto.
      - destruct (sliced_bad (ncols P) s2) as [E2|(r2 & E2 & _)]; eauto. }
    + reflexivity.
    + cbn [bind fst snd]. unfold o_make2. rewrite ER. now rewrite EV.
Qed.
End P.
