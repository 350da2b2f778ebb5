(** Final forms of the two-dimensional array theorems. *)
From Coq Require Import Sorting.Sorted.
From Verif Require Import Base.Outcome Base.ZList Model.IntModel Model.ScalarOps Model.Index Model.Slice Model.Array1D Model.Array2D Model.Store1D Model.Store2D.
From Verif Require Import Spec.ArraySpec Spec.SliceSpec Spec.Store1DSpec Spec.MatrixSpec Spec.Matrix2Spec Spec.Store2DSpec Spec.Shape2Spec.
From Verif Require Import Proofs.ScalarProofs Proofs.Array1DProofs Proofs.SliceProofs Proofs.ViewProofs Proofs.Store1DProofs Proofs.MatrixProofs Proofs.Array2DProofs Proofs.Array2DSim Proofs.Array2DSim2 Proofs.Array2DSim3 Proofs.Store2DProofs.
Ltac Zify.zify_post_hook ::= Z.div_mod_to_equations.

Section T.
Context {V : Type} (zero : V).
Implicit Types (a s : arr2 V) (M N : list (list V)) (c : cfg).

Lemma sound_rep a : sound2 a -> exists M, rep2 a M.
Proof.
  intros (H1 & H2 & H3 & H4 & H5). exists (chunks (drows a) (dcols a) (buf (dat a))).
  destruct a as [m n [b k]]. cbn [drows dcols dat buf an] in *. subst k. rename H5 into EC.
  assert (shape_ok m n = true) as Hs by (apply shape_ok_true; auto).
  apply rep2_intro; auto.
  - apply Forall_forall. intros r Hin. apply in_map_iff in Hin as (i & <- & Hi). apply in_zseq in Hi.
    assert (i * n + n <= m * n) by nia. assert (0 <= i * n) by nia.
    rewrite zlen_firstn; [reflexivity|]. rewrite zlen_skipn by lia. lia.
  - unfold chunks. rewrite zlen_map, zlen_zseq. lia.
  - intros i j Hi Hj. unfold mget, chunks. rewrite znth_map_zseq by lia. assert (0 <= i * n) by nia. rewrite Z.add_0_l.
    rewrite znth_firstn by lia. replace (j <? n) with true by lia. rewrite znth_skipn by lia. unfold get2. f_equal. lia.
Qed.
Lemma rep_sound a M : rep2 a M -> sound2 a.
Proof.
  intros Hr. pose proof (rep2_shape a M Hr) as (H1 & H2 & H3)%shape_ok_true. pose proof (rep2_len a M Hr). pose proof (rep2_an a M Hr).
  pose proof Hr as (_ & E1 & E2 & _). unfold sound2. now rewrite E1, E2.
Qed.
Lemma rep_elem a M i j : rep2 a M -> 0 <= i < zlen M -> 0 <= j < ncols M -> elem a i j = mget M i j.
Proof. intros Hr Hi Hj. pose proof (rep2_get a M Hr i j Hi Hj). pose proof Hr as (_ & _ & E2 & _). unfold elem. now rewrite E2. Qed.
Lemma rep_holds a M m n f : rep2 a M -> zlen M = m -> ncols M = n -> (forall i j, 0 <= i < m -> 0 <= j < n -> mget M i j = f i j) -> holds a m n f.
Proof.
  intros Hr <- <- H. pose proof Hr as (_ & E1 & E2 & _). split; [now apply (rep_sound a M)|]. split; [assumption|]. split; [assumption|].
  intros i j Hi Hj. rewrite (rep_elem a M) by assumption. now apply H.
Qed.
Lemma rep_empty2 a : rep2 a [] -> empty2 a.
Proof. intros (_ & E1 & E2 & [E3 E4]). cbn in *. repeat split; auto. Qed.
Lemma rep_small c a M : rep2 a M -> fits2 c a -> small c M.
Proof. intros (_ & E1 & E2 & _). unfold fits2, small. now rewrite E1, E2. Qed.
Lemma sound_addr a i j : sound2 a -> inside a i j -> 0 <= i * dcols a + j < zlen (buf (dat a)).
Proof. intros (_ & _ & _ & _ & ->) [Hi Hj]. now apply addr_range. Qed.

Ltac got := match goal with H : sound2 ?a, F : fits2 ?c ?a |- _ =>
  destruct (sound_rep a H) as (M & Hr); pose proof (rep_small c a M Hr F) as HM; pose proof Hr as (Hw & ER & EC & _);
  pose proof (rep2_shape a M Hr) as (Z1 & Z2 & Z3)%shape_ok_true end.
Ltac unsim H := unfold osim2 in H; destruct H as (a' & E & Hr' & _).

(** C27 *)
Lemma row_major_thm m n : 0 <= m -> 0 <= n ->
  (forall i j, 0 <= i < m -> 0 <= j < n -> 0 <= i * n + j < m * n) /\
  (forall i j i' j', 0 <= i < m -> 0 <= j < n -> 0 <= i' < m -> 0 <= j' < n -> i * n + j = i' * n + j' -> i = i' /\ j = j') /\
  (forall k, 0 <= k < m * n -> exists i j, 0 <= i < m /\ 0 <= j < n /\ k = i * n + j /\ i = k / n /\ j = k mod n).
Proof.
  intros Hm Hn. split; [intros; now apply addr_range|]. split; [intros i j i' j' _ Hj _ Hj' E; now apply (addr_inj n)|].
  intros k Hk. assert (0 < n) by nia. destruct (addr_div m n k) as (i & j & Hi & Hj & ->); auto. exists i, j. repeat split; auto; try lia.
  - rewrite Z.div_add_l by lia. rewrite Z.div_small by lia. lia.
  - rewrite Z.add_comm, Z.mod_add by lia. now rewrite Z.mod_small by lia.
Qed.
Lemma sub2_elem c a i j : cfg_ok c -> sound2 a -> fits2 c a -> inside a i j ->
  exists v, elem a i j = Some v /\ sub2 c (src_of_arr2 a) (Plain i) (Plain j) = Ok v /\ at2 c (src_of_arr2 a) (Plain i) (Plain j) = Ok v /\
            s2lin (src_of_arr2 a) (i * dcols a + j) = Ok v.
Proof.
  intros Hc Hs Hf [Hi Hj]. got. rewrite ER in Hi. rewrite EC in Hj. 
  destruct (mget_some (ncols M) M i j) as [v Ev]; [now apply wfm_rect|assumption|assumption|].
  exists v. rewrite (rep_elem a M) by assumption. split; [assumption|].
  unfold sub2, at2. cbn [idx_get bind src_of_arr2 s2rows s2cols s2un s2lin]. rewrite ER, EC.
  assert (valid_index2 (zlen M) (ncols M) i j = true) as -> by (unfold valid_index2, valid_row, valid_col; lia).
  rewrite check_debug_true. cbn [bind check_always]. rewrite (un2_ok zero c Hc a M Hr HM) by assumption.
  unfold mval. rewrite Ev. split; [reflexivity|]. split; [reflexivity|].
  apply oget_ok. pose proof (rep2_get a M Hr i j Hi Hj) as G. unfold get2 in G. congruence.
Qed.
Lemma linear_thm c a k : cfg_ok c -> sound2 a -> fits2 c a -> 0 <= k < an (dat a) ->
  inside a (k / dcols a) (k mod dcols a) /\
  exists v, s2lin (src_of_arr2 a) k = Ok v /\ sub2 c (src_of_arr2 a) (Plain (k / dcols a)) (Plain (k mod dcols a)) = Ok v.
Proof.
  intros Hc Hs Hf Hk. pose proof Hs as (H1 & H2 & H3 & H4 & H5). rewrite H4 in Hk.
  destruct (row_major_thm (drows a) (dcols a)) as (_ & _ & H); auto. destruct (H k Hk) as (i & j & Hi & Hj & E & Ei & Ej).
  rewrite <- Ei, <- Ej. split; [now split|]. destruct (sub2_elem c a i j) as (v & _ & E1 & _ & E2); auto; [now split|].
  exists v. now rewrite E.
Qed.
Lemma write2_thm c a i j x : cfg_ok c -> sound2 a -> fits2 c a -> inside a i j ->
  exists a', arr2_write c (Plain i) (Plain j) x a = Ok a' /\ sound2 a' /\ drows a' = drows a /\ dcols a' = dcols a /\
    forall i' j', inside a i' j' -> elem a' i' j' = if (i' =? i) && (j' =? j) then Some x else elem a i' j'.
Proof.
  intros Hc Hs Hf [Hi Hj]. pose proof (sound_addr a i j Hs (conj Hi Hj)) as Ha. pose proof Hs as (H1 & H2 & H3 & H4 & H5).
  unfold fits2, cfg_ok in *. unfold arr2_write. cbn [idx_get bind].
  assert (valid_index2 (drows a) (dcols a) i j = true) as -> by (unfold valid_index2, valid_row, valid_col; lia).
  rewrite check_debug_true. cbn [bind]. rewrite (set2_ok (drows a)) by (auto; lia). cbn [bind].
  eexists. split; [reflexivity|]. unfold sound2, elem. cbn [drows dcols dat buf an]. rewrite zlen_zupd. repeat split; auto; try tauto.
  intros i' j' [Hi' Hj']. pose proof (get2_zupd (drows a) (dcols a) (buf (dat a)) i j x i' j' H5 Hi Hj Hi' Hj') as G. exact G.
Qed.
Lemma outside2_thm c a ix jx : cfg_ok c -> sound2 a -> fits2 c a -> idx_fits (drows a) ix -> idx_fits (dcols a) jx ->
  ~ inside a (denotes (drows a) ix) (denotes (dcols a) jx) ->
  (exc c = true \/ ndbg c = false -> at2 c (src_of_arr2 a) ix jx = Fail (report c)) /\
  (checked c = true -> sub2 c (src_of_arr2 a) ix jx = Fail (report c) /\ forall x, arr2_write c ix jx x a = Fail (report c)).
Proof.
  intros Hc Hs Hf Hx Hy Hn. got. pose proof (dims_long2 c Hc a M Hr HM) as [D1 D2]. unfold inside in Hn. rewrite ER in *. rewrite EC in *.
  unfold at2, sub2, arr2_write. cbn [src_of_arr2 s2rows s2cols s2un]. rewrite ER, EC.
  rewrite !idx_get_ok by assumption. cbn [bind].
  assert (valid_index2 (zlen M) (ncols M) (denotes (zlen M) ix) (denotes (ncols M) jx) = false) as ->.
  { unfold valid_index2, valid_row, valid_col. lia. }
  split.
  - intros He. unfold check_always, report. destruct (exc c); [reflexivity|]. destruct (ndbg c); [destruct He; discriminate|reflexivity].
  - intros Hk. split; [|intros x]; now rewrite check_debug_false.
Qed.

(** C28 *)
Lemma run2_thm c ops : cfg_ok c -> checked c = true -> Forall op2_long ops -> tame zero c [] ops ->
  snd (run (step2 zero c) [] ops) = snd (run (spec_step2 zero c) [] ops) /\
  match fst (run (spec_step2 zero c) [] ops) with
  | Next w ob => exists st, fst (run (step2 zero c) [] ops) = Next st ob /\ Forall2 rep2 st w
  | Crash => fst (run (step2 zero c) [] ops) = Crash
  end.
Proof.
  intros Hc Hk HO HT. destruct (run2_refines zero c Hc [] [] ops Hk (Forall2_nil _) HO HT) as [H1 H2]. split; [assumption|].
  unfold rsimR in H2. destruct (fst (run (spec_step2 zero c) [] ops)); [|assumption].
  destruct H2 as (st & E & H). exists st. split; [assumption|]. clear -H. induction H; constructor; tauto.
Qed.
Lemma run2_any_thm c ops : cfg_ok c -> Forall op2_long ops -> tame zero c [] ops -> valid_run (spec_step2 zero c) [] ops ->
  snd (run (step2 zero c) [] ops) = snd (run (spec_step2 zero c) [] ops) /\
  exists w ob st, fst (run (spec_step2 zero c) [] ops) = Next w ob /\ fst (run (step2 zero c) [] ops) = Next st ob /\ Forall2 rep2 st w.
Proof.
  intros Hc HO HT HV. destruct (run2_refines_any zero c Hc [] [] ops (Forall2_nil _) HO HT HV) as [H1 H2]. split; [assumption|].
  pose proof (valid_not_crash zero c [] ops HV) as NC.
  unfold rsimR in H2. destruct (fst (run (spec_step2 zero c) [] ops)) as [w ob|]; [|contradiction].
  destruct H2 as (st & E & H). exists w, ob, st. split; [reflexivity|]. split; [assumption|].
  clear -H. induction H; constructor; tauto.
Qed.
Lemma tame_syntactic c ops : dbg c = true -> ndbg c = false ->
  Forall (fun o => match o with MoveAssign2 i j => i <> j | _ => True end) ops -> forall w, tame zero c w ops.
Proof.
  intros Hd Hn. induction 1 as [|o ops Ho HF IH]; intros w; cbn [tame]; [exact I|]. split.
  - destruct o; try reflexivity. cbn [odd_move]. destruct (znth w i), (znth w j); auto. replace (i =? j) with false by lia.
    rewrite Hd, Hn. apply andb_false_r.
  - destruct (spec_step2 zero c w o); auto.
Qed.
Lemma shape_history_thm c ops : cfg_ok c -> dbg c = true -> ndbg c = false -> Forall op2_long ops ->
  Forall (fun o => match o with MoveAssign2 i j => i <> j | _ => True end) ops ->
  forall st ob, fst (run (step2 zero c) [] ops) = Next st ob -> Forall sound2 st.
Proof.
  intros Hc Hd Hn HO HM st ob E. assert (checked c = true) as Hk by (unfold checked; rewrite Hd, Hn; now destruct (exc c)).
  destruct (run2_thm c ops Hc Hk HO (tame_syntactic c ops Hd Hn HM [])) as [_ H]. destruct (fst (run (spec_step2 zero c) [] ops)); [|congruence].
  destruct H as (st' & E' & HF). replace st' with st in HF by congruence. clear -HF. induction HF; constructor; [now apply (rep_sound x y)|assumption].
Qed.

(** C29 *)
Lemma new2_thm c m n x : cfg_ok c -> 0 <= m -> 0 <= n -> (m = 0 <-> n = 0) -> m * n <= amax c ->
  (exists a, arr2_new zero c m n = Ok a /\ holds a m n (fun _ _ => Some zero)) /\
  (exists a, arr2_new_fill zero c m n x = Ok a /\ holds a m n (fun _ _ => Some x)).
Proof.
  intros Hc H1 H2 H3 H4. unfold cfg_ok in Hc. assert (0 <= m * n) by nia. assert (shape_ok m n = true) as Hs by (apply shape_ok_true; auto).
  assert (forall y : V, spec_new2 c m n y = Ok (const_mat m n y)) as ES.
  { intros y. unfold spec_new2, in_long, guard, room. rewrite Hs. replace ((LONG_MIN <=? m * n) && (m * n <=? LONG_MAX)) with true by (unfold LONG_MIN; lia).
    cbn [negb]. replace (0 <=? m * n) with true by lia. now replace (amax c <? m * n) with false by lia. }
  assert (forall y : V, zlen (const_mat m n y) = m /\ ncols (const_mat m n y) = n /\ (forall i j, 0 <= i < m -> 0 <= j < n -> mget (const_mat m n y) i j = Some y)) as EM.
  { intros y. assert (zlen (const_mat m n y) = m) as L by (apply zlen_repeat; lia). split; [assumption|]. split.
    - destruct (Z.eqb_spec m 0) as [->|]; [assert (n = 0) by lia; subst; reflexivity|]. apply rect_ncols; [now apply rect_const|]. apply nonempty_len. lia.
    - intros. now apply mget_const. }
  split.
  - pose proof (sim2_new zero c Hc m n) as Hsim. rewrite ES in Hsim. destruct Hsim as (a & E & Hr & _); [right; exact I|].
    exists a. split; [assumption|]. destruct (EM zero) as (? & ? & ?). now apply (rep_holds a (const_mat m n zero)).
  - pose proof (sim2_new_fill zero c Hc m n x) as Hsim. rewrite ES in Hsim. destruct Hsim as (a & E & Hr & _); [right; exact I|].
    exists a. split; [assumption|]. destruct (EM x) as (? & ? & ?). now apply (rep_holds a (const_mat m n x)).
Qed.
Lemma remove_rows_thm c a p k : cfg_ok c -> sound2 a -> fits2 c a -> 0 < k -> 0 <= p -> p + k <= drows a ->
  exists a', arr2_remove_rows zero c p k a = Ok a' /\
    (k = drows a -> empty2 a') /\
    (k < drows a -> holds a' (drows a - k) (dcols a) (fun i j => elem a (if i <? p then i else i + k) j)).
Proof.
  intros Hc Hs Hf Hk Hp Hpk. got. pose proof (dims_long2 c Hc a M Hr HM) as [D1 D2]. rewrite ER, EC in *.
  assert (spec_remove_rows c M p k = Ok (del M p k)) as ES.
  { unfold spec_remove_rows, guard. replace (LONG_MAX <? p + k) with false by lia. rewrite andb_false_r.
    now replace ((0 <? k) && (0 <=? p) && (p + k <=? zlen M)) with true by lia. }
  pose proof (sim2_remove_rows zero c Hc a M Hr HM p k) as Hsim. rewrite ES in Hsim.
  destruct Hsim as (a' & E & Hr' & _); [unfold is_long, LONG_MIN in *; lia|unfold is_long, LONG_MIN in *; lia|right; exact I|].
  exists a'. split; [assumption|]. assert (zlen (del M p k) = zlen M - k) as LD by (apply zlen_del; lia). split; intros Hk'.
  - assert (del M p k = []) as EE by (apply zlen_zero; lia). rewrite EE in Hr'. now apply rep_empty2.
  - apply (rep_holds a' (del M p k)); auto.
    + apply rect_ncols; [apply rect_del; now apply wfm_rect|]. apply nonempty_len. lia.
    + intros i j Hi Hj. rewrite (rep_elem a M) by (auto; destruct (i <? p); lia). unfold mget. rewrite znth_del by lia. now destruct (i <? p).
Qed.
Lemma remove_cols_thm c a p k : cfg_ok c -> sound2 a -> fits2 c a -> 0 < k -> 0 <= p -> p + k <= dcols a ->
  exists a', arr2_remove_cols zero c p k a = Ok a' /\
    (k = dcols a -> empty2 a') /\
    (k < dcols a -> holds a' (drows a) (dcols a - k) (fun i j => elem a i (if j <? p then j else j + k))).
Proof.
  intros Hc Hs Hf Hk Hp Hpk. got. pose proof (dims_long2 c Hc a M Hr HM) as [D1 D2]. rewrite ER, EC in *.
  set (R := map (fun r => del r p k) M).
  assert (spec_remove_cols c M p k = Ok (norm R)) as ES.
  { unfold spec_remove_cols, guard. replace (LONG_MAX <? p + k) with false by lia. rewrite andb_false_r.
    now replace ((0 <? k) && (0 <=? p) && (p + k <=? ncols M)) with true by lia. }
  pose proof (sim2_remove_cols zero c Hc a M Hr HM p k) as Hsim. rewrite ES in Hsim.
  destruct Hsim as (a' & E & Hr' & _); [unfold is_long, LONG_MIN in *; lia|unfold is_long, LONG_MIN in *; lia|right; exact I|].
  exists a'. split; [assumption|].
  assert (rect (ncols M - k) R) as HR. { apply (rect_map (ncols M)); [now apply wfm_rect|]. intros r Lr. rewrite zlen_del by lia. lia. }
  assert (zlen R = zlen M) as LR by apply zlen_map. assert (R <> []) as NR by (apply nonempty_len; lia).
  pose proof (rect_ncols _ _ HR NR) as NC. unfold norm in Hr'. rewrite NC in Hr'. split; intros Hk'.
  - replace (ncols M - k =? 0) with true in Hr' by lia. now apply rep_empty2.
  - replace (ncols M - k =? 0) with false in Hr' by lia. apply (rep_holds a' R); auto.
    intros i j Hi Hj. rewrite (rep_elem a M) by (auto; destruct (j <? p); lia). unfold R. rewrite mget_map. unfold mget.
    destruct (znth_some M i) as [r Er]; [lia|]. rewrite Er. pose proof (rect_nth _ _ _ _ (wfm_rect _ Hw) Er).
    rewrite znth_del by lia. now destruct (j <? p).
Qed.
Lemma rest_spec n v p : 0 <= n -> In p (rest n v) <-> 0 <= p < n /\ ~ In p v.
Proof.
  intros Hn. unfold rest, all_positions. rewrite filter_In, in_zseq. rewrite negb_true_iff, <- not_true_iff_false, existsb_exists.
  split.
  - intros [H1 H2]. split; [lia|]. intros Hin. apply H2. exists p. split; [assumption|lia].
  - intros [H1 H2]. split; [lia|]. intros (q & Hq & E'). assert (p = q) as -> by lia. contradiction.
Qed.
Lemma remove_rows_idx_thm c a v : cfg_ok c -> sound2 a -> fits2 c a -> StronglySorted Z.lt v -> Forall (fun p => 0 <= p < drows a) v ->
  exists a' ps, arr2_remove_rows_idx zero c v a = Ok a' /\ StronglySorted Z.lt ps /\ (forall p, In p ps <-> 0 <= p < drows a /\ ~ In p v) /\
    (ps = [] -> empty2 a') /\
    (ps <> [] -> holds a' (zlen ps) (dcols a) (fun i j => match znth ps i with Some p => elem a p j | None => None end)).
Proof.
  intros Hc Hs Hf Hv Hr0. got. rewrite ER, EC in *. apply increasing_spec in Hv. apply in_range_forall in Hr0.
  assert (spec_remove_rows_idx c M v = Ok (keep M v)) as ES by (unfold spec_remove_rows_idx, guard; now rewrite Hv, Hr0).
  pose proof (sim2_remove_rows_idx zero c Hc a M Hr HM v) as Hsim. rewrite ES in Hsim. destruct Hsim as (a' & E & Hr' & _); [right; exact I|].
  exists a', (rest (zlen M) v). split; [assumption|]. split; [apply sorted_filter, sorted_zseq|]. split; [intros p; now apply rest_spec|].
  pose proof (zlen_keep M v) as LK. split; intros HP.
  - rewrite HP in LK. change (zlen (@nil Z)) with 0 in LK. apply zlen_zero in LK. rewrite LK in Hr'. now apply rep_empty2.
  - apply (rep_holds a' (keep M v)); auto.
    + apply rect_ncols.
      * apply Forall_forall. intros r Hin. apply in_znth in Hin as (i & Hi). rewrite znth_keep in Hi. destruct (znth (rest (zlen M) v) i); [|discriminate].
        eapply rect_nth; [now apply wfm_rect|eassumption].
      * intros EK. rewrite EK in LK. apply HP. apply zlen_zero. rewrite <- LK. reflexivity.
    + intros i j Hi Hj. unfold mget. rewrite znth_keep. destruct (znth_some (rest (zlen M) v) i Hi) as [p Ep]. rewrite Ep.
      assert (0 <= p < zlen M) as Hp by (apply (rest_spec (zlen M) v p); [lia|]; now apply znth_in in Ep).
      now rewrite (rep_elem a M) by assumption.
Qed.
Lemma remove_cols_idx_thm c a v : cfg_ok c -> sound2 a -> fits2 c a -> StronglySorted Z.lt v -> Forall (fun p => 0 <= p < dcols a) v ->
  exists a' ps, arr2_remove_cols_idx zero c v a = Ok a' /\ StronglySorted Z.lt ps /\ (forall p, In p ps <-> 0 <= p < dcols a /\ ~ In p v) /\
    (ps = [] -> empty2 a') /\
    (ps <> [] -> holds a' (drows a) (zlen ps) (fun i j => match znth ps j with Some q => elem a i q | None => None end)).
Proof.
  intros Hc Hs Hf Hv Hr0. got. rewrite ER, EC in *. apply increasing_spec in Hv. apply in_range_forall in Hr0.
  set (R := map (fun r => keep r v) M).
  assert (spec_remove_cols_idx c M v = Ok (norm R)) as ES by (unfold spec_remove_cols_idx, guard; now rewrite Hv, Hr0).
  pose proof (sim2_remove_cols_idx zero c Hc a M Hr HM v) as Hsim. rewrite ES in Hsim. destruct Hsim as (a' & E & Hr' & _); [right; exact I|].
  exists a', (rest (ncols M) v). split; [assumption|]. split; [apply sorted_filter, sorted_zseq|]. split; [intros p; now apply rest_spec|].
  set (ps := rest (ncols M) v) in *.
  assert (rect (zlen ps) R) as HR. { apply (rect_map (ncols M)); [now apply wfm_rect|]. intros r Lr. rewrite zlen_keep, Lr. reflexivity. }
  assert (zlen R = zlen M) as LR by apply zlen_map.
  assert (ncols R = zlen ps \/ M = []) as NC. { destruct M as [|r0 M0]; [now right|left]. apply rect_ncols; [assumption|discriminate]. }
  split; intros HP.
  - assert (norm R = []) as EN.
    { unfold norm. destruct NC as [NC|NC]; [rewrite NC, HP; reflexivity|unfold R; rewrite NC; reflexivity]. }
    rewrite EN in Hr'. now apply rep_empty2.
  - assert (0 < zlen ps) as Hps. { pose proof (zlen_nonneg ps). destruct (Z.eq_dec (zlen ps) 0) as [e|]; [apply zlen_zero in e; contradiction|lia]. }
    assert (ncols M <> 0) as Hne. { destruct (znth_some ps 0) as [p Ep]; [lia|]. apply znth_in in Ep. apply rest_spec in Ep; lia. }
    destruct NC as [NC|NC]; [|subst M; cbn in Hne; lia].
    unfold norm in Hr'. rewrite NC in Hr'. replace (zlen ps =? 0) with false in Hr' by lia. apply (rep_holds a' R); auto.
    intros i j Hi Hj. unfold R. rewrite mget_map. destruct (znth_some M i) as [r Er]; [lia|]. rewrite Er.
    pose proof (rect_nth _ _ _ _ (wfm_rect _ Hw) Er) as Lr. rewrite znth_keep, Lr. fold ps. destruct (znth_some ps j Hj) as [q Eq]. rewrite Eq.
    assert (0 <= q < ncols M) as Hq by (apply (rest_spec (ncols M) v q); [lia|]; now apply znth_in in Eq).
    rewrite (rep_elem a M) by (auto; lia). unfold mget. now rewrite Er.
Qed.
Lemma insert_rows_gen_thm c a fresh A N p : cfg_ok c -> sound2 a -> fits2 c a -> produces2 A N ->
  osim2 c fresh (room2 c (zlen N) (ncols N) (Ok N)) -> 
  (drows a = 0 -> p = 0 -> zlen N * ncols N <= amax c ->
   exists a', arr2_insert_rows_gen zero c fresh p A a = Ok a' /\ holds a' (zlen N) (ncols N) (mget N)) /\
  (0 < drows a -> 0 <= p <= drows a -> ncols N = dcols a -> (drows a + zlen N) * dcols a <= amax c ->
   exists a', arr2_insert_rows_gen zero c fresh p A a = Ok a' /\
    holds a' (drows a + zlen N) (dcols a)
      (fun i j => if i <? p then elem a i j else if i <? p + zlen N then mget N (i - p) j else elem a (i - zlen N) j)).
Proof.
  intros Hc Hs Hf HA Hfr. got. pose proof (amax_long c Hc) as AL. rewrite ER, EC in *.
  pose proof (sim2_insert_rows zero c Hc a M Hr HM fresh p A N HA (fun _ => Hfr)) as Hsim. unfold spec_insert_rows, guard in Hsim.
  pose proof (zlen_nonneg N). pose proof (ncols_nonneg N). assert (wfm N) as HwN by apply HA. split.
  - intros EM -> HS. rewrite EM in Hsim. cbn in Hsim. unfold room2, room, in_long in Hsim. assert (0 <= zlen N * ncols N) by nia.
    replace ((LONG_MIN <=? zlen N * ncols N) && (zlen N * ncols N <=? LONG_MAX)) with true in Hsim by (unfold LONG_MIN; lia).
    replace (amax c <? zlen N * ncols N) with false in Hsim by lia.
    destruct Hsim as (a' & E & Hr' & _); [right; exact I|]. exists a'. split; [assumption|]. now apply (rep_holds a' N).
  - intros Hm Hp EN HS. replace ((0 <=? p) && (p <=? zlen M)) with true in Hsim by lia. replace (zlen M =? 0) with false in Hsim by lia.
    replace (ncols N =? ncols M) with true in Hsim by lia. unfold room2, room, in_long in Hsim. assert (0 <= (zlen M + zlen N) * ncols M) by nia.
    replace ((LONG_MIN <=? (zlen M + zlen N) * ncols M) && ((zlen M + zlen N) * ncols M <=? LONG_MAX)) with true in Hsim by (unfold LONG_MIN; lia).
    replace (amax c <? (zlen M + zlen N) * ncols M) with false in Hsim by lia.
    destruct Hsim as (a' & E & Hr' & _); [right; exact I|]. exists a'. split; [assumption|].
    assert (rect (ncols M) (ins M p N)) as HR by (apply rect_ins; [now apply wfm_rect|rewrite <- EN; now apply wfm_rect]).
    apply (rep_holds a' (ins M p N)); auto.
    + apply zlen_ins. lia.
    + apply rect_ncols; [assumption|]. apply nonempty_len. rewrite zlen_ins by lia. lia.
    + intros i j Hi Hj. unfold mget at 1. rewrite znth_ins by lia. destruct (Z.ltb_spec i p).
      * now rewrite (rep_elem a M) by (auto; lia).
      * destruct (Z.ltb_spec i (p + zlen N)); [reflexivity|]. now rewrite (rep_elem a M) by (auto; lia).
Qed.
Lemma insert_cols_gen_thm c a fresh A N p : cfg_ok c -> sound2 a -> fits2 c a -> produces2 A N ->
  osim2 c fresh (room2 c (zlen N) (ncols N) (Ok N)) -> 
  (drows a = 0 -> p = 0 -> zlen N * ncols N <= amax c ->
   exists a', arr2_insert_cols_gen zero c fresh p A a = Ok a' /\ holds a' (zlen N) (ncols N) (mget N)) /\
  (0 < drows a -> 0 <= p <= dcols a -> zlen N = drows a -> drows a * (dcols a + ncols N) <= amax c ->
   exists a', arr2_insert_cols_gen zero c fresh p A a = Ok a' /\
    holds a' (drows a) (dcols a + ncols N)
      (fun i j => if j <? p then elem a i j else if j <? p + ncols N then mget N i (j - p) else elem a i (j - ncols N))).
Proof.
  intros Hc Hs Hf HA Hfr. got. pose proof (amax_long c Hc) as AL. rewrite ER, EC in *.
  pose proof (sim2_insert_cols zero c Hc a M Hr HM fresh p A N HA (fun _ => Hfr)) as Hsim. unfold spec_insert_cols, guard in Hsim.
  pose proof (zlen_nonneg N). pose proof (ncols_nonneg N). assert (wfm N) as HwN by apply HA. split.
  - intros EM -> HS. rewrite EM in Hsim. replace ((0 <=? 0) && (0 <=? ncols M)) with true in Hsim by lia. change (0 =? 0) with true in Hsim. cbv iota in Hsim.
    unfold room2, room, in_long in Hsim. assert (0 <= zlen N * ncols N) by nia.
    replace ((LONG_MIN <=? zlen N * ncols N) && (zlen N * ncols N <=? LONG_MAX)) with true in Hsim by (unfold LONG_MIN; lia).
    replace (amax c <? zlen N * ncols N) with false in Hsim by lia.
    destruct Hsim as (a' & E & Hr' & _); [right; exact I|]. exists a'. split; [assumption|]. now apply (rep_holds a' N).
  - intros Hm Hp EN HS. replace ((0 <=? p) && (p <=? ncols M)) with true in Hsim by lia. replace (zlen M =? 0) with false in Hsim by lia.
    replace (zlen N =? zlen M) with true in Hsim by lia. unfold room2, room, in_long in Hsim. assert (0 <= zlen M * (ncols M + ncols N)) by nia.
    replace ((LONG_MIN <=? zlen M * (ncols M + ncols N)) && (zlen M * (ncols M + ncols N) <=? LONG_MAX)) with true in Hsim by (unfold LONG_MIN; lia).
    replace (amax c <? zlen M * (ncols M + ncols N)) with false in Hsim by lia.
    destruct Hsim as (a' & E & Hr' & _); [right; exact I|]. exists a'. split; [assumption|].
    set (R := zipw (fun (r s : list V) => ins r p s) M N) in *.
    assert (rect (ncols M + ncols N) R) as HR.
    { apply rect_zipw; [assumption|]. intros i r x E1 E2. pose proof (rect_nth _ _ _ _ (wfm_rect _ Hw) E1). pose proof (rect_nth _ _ _ _ (wfm_rect _ HwN) E2).
      rewrite zlen_ins by lia. lia. }
    assert (zlen R = zlen M) as LR. { unfold R, zipw. rewrite zlen_map. apply zlen_combine. lia. }
    apply (rep_holds a' R); auto.
    + apply rect_ncols; [assumption|]. apply nonempty_len. lia.
    + intros i j Hi Hj. destruct (znth_some M i Hi) as [r Er]. destruct (znth_some N i) as [q Eq]; [lia|].
      pose proof (rect_nth _ _ _ _ (wfm_rect _ Hw) Er) as Lr. pose proof (rect_nth _ _ _ _ (wfm_rect _ HwN) Eq) as Lq.
      unfold mget at 1. unfold R. rewrite (znth_zipw M (fun (r s : list V) => ins r p s) N i r q Er Eq). rewrite znth_ins by lia. rewrite Lq.
      destruct (Z.ltb_spec j p).
      * rewrite (rep_elem a M) by (auto; lia). unfold mget. now rewrite Er.
      * destruct (Z.ltb_spec j (p + ncols N)); [unfold mget; now rewrite Eq|]. rewrite (rep_elem a M) by (auto; lia). unfold mget. now rewrite Er.
Qed.
(** From an expression / from an array. *)
Lemma insert_rows_thm c a A N p : cfg_ok c -> sound2 a -> fits2 c a -> produces2 A N ->
  (drows a = 0 -> p = 0 -> zlen N * ncols N <= amax c ->
   exists a', arr2_insert_rows zero c p A a = Ok a' /\ holds a' (zlen N) (ncols N) (mget N)) /\
  (0 < drows a -> 0 <= p <= drows a -> ncols N = dcols a -> (drows a + zlen N) * dcols a <= amax c ->
   exists a', arr2_insert_rows zero c p A a = Ok a' /\
    holds a' (drows a + zlen N) (dcols a)
      (fun i j => if i <? p then elem a i j else if i <? p + zlen N then mget N (i - p) j else elem a (i - zlen N) j)).
Proof. intros. apply insert_rows_gen_thm; auto. now apply sim2_src. Qed.
Lemma insert_cols_thm c a A N p : cfg_ok c -> sound2 a -> fits2 c a -> produces2 A N ->
  (drows a = 0 -> p = 0 -> zlen N * ncols N <= amax c ->
   exists a', arr2_insert_cols zero c p A a = Ok a' /\ holds a' (zlen N) (ncols N) (mget N)) /\
  (0 < drows a -> 0 <= p <= dcols a -> zlen N = drows a -> drows a * (dcols a + ncols N) <= amax c ->
   exists a', arr2_insert_cols zero c p A a = Ok a' /\
    holds a' (drows a) (dcols a + ncols N)
      (fun i j => if j <? p then elem a i j else if j <? p + ncols N then mget N i (j - p) else elem a i (j - ncols N))).
Proof. intros. apply insert_cols_gen_thm; auto. now apply sim2_src. Qed.
Lemma holds_ext a m n (f g : Z -> Z -> option V) : (forall i j, 0 <= i < m -> 0 <= j < n -> f i j = g i j) -> holds a m n f -> holds a m n g.
Proof. intros HE (H1 & H2 & H3 & H4). repeat split; auto; try apply H1. intros. rewrite <- HE by assumption. auto. Qed.
Lemma insert_rows_arr_thm c a s p : cfg_ok c -> sound2 a -> fits2 c a -> sound2 s -> fits2 c s ->
  (drows a = 0 -> p = 0 -> exists a', arr2_insert_rows_arr zero c p s a = Ok a' /\ holds a' (drows s) (dcols s) (elem s)) /\
  (0 < drows a -> 0 <= p <= drows a -> dcols s = dcols a -> (drows a + drows s) * dcols a <= amax c ->
   exists a', arr2_insert_rows_arr zero c p s a = Ok a' /\
    holds a' (drows a + drows s) (dcols a)
      (fun i j => if i <? p then elem a i j else if i <? p + drows s then elem s (i - p) j else elem a (i - drows s) j)).
Proof.
  intros Hc Hs Hf Hss Hfs. destruct (sound_rep s Hss) as (N & HN). pose proof (rep_small c s N HN Hfs) as HSN. pose proof HN as (_ & E1 & E2 & _).
  destruct (insert_rows_gen_thm c a (arr2_resize_and_assign_arr zero c s) (src_of_arr2 s) N p) as [H1 H2]; auto.
  { now apply (produces2_arr zero c). } { now apply arr_fresh. } rewrite E1, E2. split.
  - intros. destruct H1 as (a' & E & H'); auto. exists a'. split; [exact E|]. eapply holds_ext; [|exact H']. intros. symmetry. now apply rep_elem.
  - intros. destruct H2 as (a' & E & H'); auto. exists a'. split; [exact E|]. eapply holds_ext; [|exact H']. intros i j Hi Hj. cbv beta.
    destruct (Z.ltb_spec i p); [reflexivity|]. destruct (Z.ltb_spec i (p + zlen N)); [|reflexivity]. rewrite (rep_elem s N) by (auto; lia). reflexivity.
Qed.
Lemma insert_cols_arr_thm c a s p : cfg_ok c -> sound2 a -> fits2 c a -> sound2 s -> fits2 c s ->
  (drows a = 0 -> p = 0 -> exists a', arr2_insert_cols_arr zero c p s a = Ok a' /\ holds a' (drows s) (dcols s) (elem s)) /\
  (0 < drows a -> 0 <= p <= dcols a -> drows s = drows a -> drows a * (dcols a + dcols s) <= amax c ->
   exists a', arr2_insert_cols_arr zero c p s a = Ok a' /\
    holds a' (drows a) (dcols a + dcols s)
      (fun i j => if j <? p then elem a i j else if j <? p + dcols s then elem s i (j - p) else elem a i (j - dcols s))).
Proof.
  intros Hc Hs Hf Hss Hfs. destruct (sound_rep s Hss) as (N & HN). pose proof (rep_small c s N HN Hfs) as HSN. pose proof HN as (_ & E1 & E2 & _).
  destruct (insert_cols_gen_thm c a (arr2_resize_and_assign_arr zero c s) (src_of_arr2 s) N p) as [H1 H2]; auto.
  { now apply (produces2_arr zero c). } { now apply arr_fresh. } rewrite E1, E2. split.
  - intros. destruct H1 as (a' & E & H'); auto. exists a'. split; [exact E|]. eapply holds_ext; [|exact H']. intros. symmetry. now apply rep_elem.
  - intros. destruct H2 as (a' & E & H'); auto. exists a'. split; [exact E|]. eapply holds_ext; [|exact H']. intros i j Hi Hj. cbv beta.
    destruct (Z.ltb_spec j p); [reflexivity|]. destruct (Z.ltb_spec j (p + ncols N)); [|reflexivity]. rewrite (rep_elem s N) by (auto; lia). reflexivity.
Qed.
Lemma insert_row_thm c a B l p : cfg_ok c -> sound2 a -> fits2 c a -> produces B l ->
  (drows a = 0 -> p = 0 -> 0 < zlen l <= amax c ->
   exists a', arr2_insert_row zero c p B a = Ok a' /\ holds a' 1 (zlen l) (fun _ j => znth l j)) /\
  (0 < drows a -> 0 <= p <= drows a -> zlen l = dcols a -> (drows a + 1) * dcols a <= amax c ->
   exists a', arr2_insert_row zero c p B a = Ok a' /\
    holds a' (drows a + 1) (dcols a) (fun i j => if i <? p then elem a i j else if i =? p then znth l j else elem a (i - 1) j)).
Proof.
  intros Hc Hs Hf HB. got. pose proof (amax_long c Hc) as AL. rewrite ER, EC in *.
  pose proof (sim2_insert_row zero c Hc a M Hr HM p B l HB) as Hsim. unfold spec_insert_row, guard in Hsim. split.
  - intros EM -> HS. rewrite EM in Hsim. cbn [Z.leb Z.compare andb] in Hsim. change ((0 <=? 0) && (0 <=? 0)) with true in Hsim. change (0 =? 0) with true in Hsim. cbv iota in Hsim.
    replace (0 <? zlen l) with true in Hsim by lia. unfold room2, room, in_long in Hsim. rewrite Z.mul_1_l in Hsim.
    replace ((LONG_MIN <=? zlen l) && (zlen l <=? LONG_MAX)) with true in Hsim by (unfold LONG_MIN; lia).
    replace (amax c <? zlen l) with false in Hsim by lia.
    destruct Hsim as (a' & E & Hr' & _); [right; exact I|]. exists a'. split; [assumption|]. apply (rep_holds a' [l]); auto.
    intros i j Hi Hj. replace i with 0 by lia. reflexivity.
  - intros Hm Hp EN HS. replace ((0 <=? p) && (p <=? zlen M)) with true in Hsim by lia. replace (zlen M =? 0) with false in Hsim by lia.
    replace (zlen l =? ncols M) with true in Hsim by lia. unfold room2, room, in_long in Hsim. assert (0 <= (zlen M + 1) * ncols M) by nia.
    replace ((LONG_MIN <=? (zlen M + 1) * ncols M) && ((zlen M + 1) * ncols M <=? LONG_MAX)) with true in Hsim by (unfold LONG_MIN; lia).
    replace (amax c <? (zlen M + 1) * ncols M) with false in Hsim by lia.
    destruct Hsim as (a' & E & Hr' & _); [right; exact I|]. exists a'. split; [assumption|].
    assert (rect (ncols M) (ins M p [l])) as HR by (apply rect_ins; [now apply wfm_rect|constructor; [assumption|constructor]]).
    assert (zlen (ins M p [l]) = zlen M + 1) as LI by (rewrite zlen_ins by lia; reflexivity).
    apply (rep_holds a' (ins M p [l])); auto.
    + apply rect_ncols; [assumption|]. apply nonempty_len. lia.
    + intros i j Hi Hj. unfold mget at 1. rewrite znth_ins by lia. change (zlen [l]) with 1. destruct (Z.ltb_spec i p).
      * now rewrite (rep_elem a M) by (auto; lia).
      * destruct (Z.eqb_spec i p); [subst i; replace (p <? p + 1) with true by lia; rewrite Z.sub_diag; reflexivity|].
        replace (i <? p + 1) with false by lia. now rewrite (rep_elem a M) by (auto; lia).
Qed.
Lemma insert_col_thm c a B l p : cfg_ok c -> sound2 a -> fits2 c a -> produces B l ->
  (drows a = 0 -> p = 0 -> 0 < zlen l <= amax c ->
   exists a', arr2_insert_col zero c p B a = Ok a' /\ holds a' (zlen l) 1 (fun i _ => znth l i)) /\
  (0 < drows a -> 0 <= p <= dcols a -> zlen l = drows a -> drows a * (dcols a + 1) <= amax c ->
   exists a', arr2_insert_col zero c p B a = Ok a' /\
    holds a' (drows a) (dcols a + 1) (fun i j => if j <? p then elem a i j else if j =? p then znth l i else elem a i (j - 1))).
Proof.
  intros Hc Hs Hf HB. got. pose proof (amax_long c Hc) as AL. rewrite ER, EC in *.
  pose proof (sim2_insert_col zero c Hc a M Hr HM p B l HB) as Hsim. unfold spec_insert_col, guard in Hsim. split.
  - intros EM -> HS. rewrite EM in Hsim. replace ((0 <=? 0) && (0 <=? ncols M)) with true in Hsim by lia. change (0 =? 0) with true in Hsim. cbv iota in Hsim.
    replace (0 <? zlen l) with true in Hsim by lia. unfold room2, room, in_long in Hsim. rewrite Z.mul_1_r in Hsim.
    replace ((LONG_MIN <=? zlen l) && (zlen l <=? LONG_MAX)) with true in Hsim by (unfold LONG_MIN; lia).
    replace (amax c <? zlen l) with false in Hsim by lia.
    destruct Hsim as (a' & E & Hr' & _); [right; exact I|]. exists a'. split; [assumption|].
    apply (rep_holds a' (map (fun x => [x]) l)); auto.
    + apply zlen_map.
    + destruct l; [cbn in HS; lia|reflexivity].
    + intros i j Hi Hj. unfold mget. rewrite znth_map. destruct (znth_some l i Hi) as [x Ex]. rewrite Ex. cbn [option_map].
      replace j with 0 by lia. reflexivity.
  - intros Hm Hp EN HS. replace ((0 <=? p) && (p <=? ncols M)) with true in Hsim by lia. replace (zlen M =? 0) with false in Hsim by lia.
    replace (zlen l =? zlen M) with true in Hsim by lia. unfold room2, room, in_long in Hsim. assert (0 <= zlen M * (ncols M + 1)) by nia.
    replace ((LONG_MIN <=? zlen M * (ncols M + 1)) && (zlen M * (ncols M + 1) <=? LONG_MAX)) with true in Hsim by (unfold LONG_MIN; lia).
    replace (amax c <? zlen M * (ncols M + 1)) with false in Hsim by lia.
    destruct Hsim as (a' & E & Hr' & _); [right; exact I|]. exists a'. split; [assumption|].
    set (R := zipw (fun r x => ins r p [x]) M l) in *.
    assert (rect (ncols M + 1) R) as HR.
    { apply rect_zipw; [assumption|]. intros i r x E1 E2. pose proof (rect_nth _ _ _ _ (wfm_rect _ Hw) E1).
      rewrite zlen_ins by lia. change (zlen [x]) with 1. lia. }
    assert (zlen R = zlen M) as LR. { unfold R, zipw. rewrite zlen_map. apply zlen_combine. lia. }
    apply (rep_holds a' R); auto.
    + apply rect_ncols; [assumption|]. apply nonempty_len. lia.
    + intros i j Hi Hj. destruct (znth_some M i Hi) as [r Er]. destruct (znth_some l i) as [x Ex]; [lia|].
      pose proof (rect_nth _ _ _ _ (wfm_rect _ Hw) Er) as Lr.
      unfold mget at 1. unfold R. rewrite (znth_zipw M (fun r x => ins r p [x]) l i r x Er Ex). rewrite znth_ins by lia.
      change (zlen [x]) with 1. destruct (Z.ltb_spec j p).
      * rewrite (rep_elem a M) by (auto; lia). unfold mget. now rewrite Er.
      * destruct (Z.eqb_spec j p); [subst j; replace (p <? p + 1) with true by lia; rewrite Z.sub_diag, Ex; reflexivity|]. replace (j <? p + 1) with false by lia. rewrite (rep_elem a M) by (auto; lia). unfold mget. now rewrite Er.
Qed.
Lemma resize2_thm c a m n : cfg_ok c -> sound2 a -> fits2 c a -> 0 <= m -> 0 <= n -> (m = 0 <-> n = 0) -> m * n <= amax c ->
  exists a', arr2_resize zero c m n true a = Ok a' /\
    holds a' m n (fun i j => if (i <? drows a) && (j <? dcols a) then elem a i j else Some zero).
Proof.
  intros Hc Hs Hf Hm Hn Hmn HS. got. pose proof (amax_long c Hc) as AL. rewrite ER, EC in *. assert (0 <= m * n) by nia.
  assert (shape_ok m n = true) as Hsh by (apply shape_ok_true; auto).
  assert (is_long m /\ is_long n) as [Lm Ln]. { destruct (dims_long m n Hm Hn Hmn) as [? ?]; [lia|]. unfold is_long, LONG_MIN. lia. }
  pose proof (sim2_resize zero c Hc a M Hr HM m n true Lm Ln) as Hsim. unfold spec_resize2, guard in Hsim. rewrite Hsh in Hsim.
  destruct ((m =? zlen M) && (n =? ncols M)) eqn:EQ.
  - destruct Hsim as (a' & E & Hr' & _); [right; exact I|]. exists a'. split; [assumption|]. apply (rep_holds a' M); auto; try lia.
    intros i j Hi Hj. replace ((i <? zlen M) && (j <? ncols M)) with true by lia. now rewrite (rep_elem a M) by (auto; lia).
  - unfold room2, room, in_long in Hsim.
    replace ((LONG_MIN <=? m * n) && (m * n <=? LONG_MAX)) with true in Hsim by (unfold LONG_MIN; lia).
    replace (amax c <? m * n) with false in Hsim by lia.
    destruct Hsim as (a' & E & Hr' & _); [right; exact I|]. exists a'. split; [assumption|].
    set (R := fit (repeat zero (Z.to_nat n)) m (map (fit zero n) M)) in *.
    assert (forall i, 0 <= i < m -> znth R i = if i <? zlen M then option_map (fit zero n) (znth M i) else Some (repeat zero (Z.to_nat n))) as GR.
    { intros i Hi. unfold R. rewrite znth_fit by assumption. rewrite zlen_map. destruct (i <? zlen M); [apply znth_map|reflexivity]. }
    assert (zlen R = m) as LR by now apply zlen_fit.
    apply (rep_holds a' R); auto.
    + destruct (Z.eqb_spec m 0) as [->|Hne].
      * apply zlen_zero in LR. rewrite LR. cbn. lia.
      * apply rect_ncols; [|apply nonempty_len; lia]. apply Forall_forall. intros r Hin. apply in_znth in Hin as (i & Hi).
        assert (0 <= i < m) as Ri by (apply znth_lt in Hi; lia). rewrite GR in Hi by assumption. destruct (i <? zlen M).
        -- destruct (znth M i); [|discriminate]. cbn in Hi. injection Hi as <-. now apply zlen_fit.
        -- injection Hi as <-. apply zlen_repeat. lia.
    + intros i j Hi Hj. unfold mget. rewrite GR by assumption. destruct (Z.ltb_spec i (zlen M)); cbn [andb].
      * destruct (znth_some M i) as [r Er]; [lia|]. rewrite Er. cbn [option_map]. pose proof (rect_nth _ _ _ _ (wfm_rect _ Hw) Er) as Lr.
        rewrite znth_fit by assumption. rewrite Lr. destruct (Z.ltb_spec j (ncols M)); [|reflexivity].
        rewrite (rep_elem a M) by (auto; lia). unfold mget. now rewrite Er.
      * now apply znth_repeat.
Qed.
(** resize(m, n, false): zeros, unless the number of elements is unchanged, when the old elements stay in row-major order. *)
Lemma resize2_false_thm c a m n : cfg_ok c -> sound2 a -> fits2 c a -> 0 <= m -> 0 <= n -> (m = 0 <-> n = 0) -> m * n <= amax c ->
  exists a', arr2_resize zero c m n false a = Ok a' /\
    holds a' m n (fun i j => if m * n =? drows a * dcols a then znth (buf (dat a)) (i * n + j) else Some zero).
Proof.
  intros Hc Hs Hf Hm Hn Hmn HS. pose proof (amax_long c Hc) as AL. pose proof Hs as (S1 & S2 & S3 & S4 & S5). assert (0 <= m * n) by nia.
  assert (shape_ok m n = true) as Hsh by (apply shape_ok_true; auto). unfold fits2 in Hf. assert (0 <= drows a * dcols a) by nia.
  unfold arr2_resize. replace (0 <=? m) with true by lia. replace (0 <=? n) with true by lia. rewrite semi_valid_true by assumption.
  rewrite !check_debug_true. cbn [bind]. destruct ((m =? drows a) && (n =? dcols a)) eqn:EQ.
  - exists a. split; [reflexivity|]. assert (m = drows a) as -> by lia. assert (n = dcols a) as -> by lia. rewrite Z.eqb_refl. repeat split; auto; tauto.
  - rewrite !lmul_ok by (unfold LONG_MIN; lia). cbn [bind]. destruct (Z.eqb_spec (m * n) (drows a * dcols a)) as [E|E].
    + eexists. split; [reflexivity|]. unfold holds, sound2, elem. cbn [drows dcols dat]. rewrite E. repeat split; auto; tauto.
    + rewrite arr2_new_ok by auto. eexists. split; [reflexivity|]. unfold holds, sound2, elem. cbn [drows dcols dat buf an].
      rewrite zlen_repeat by lia. repeat split; auto; try tauto. intros i j Hi Hj. now apply (fresh_get zero m n i j).
Qed.
(** Invalid arguments. *)
Lemma invalid2_thm c a : cfg_ok c -> sound2 a -> fits2 c a -> checked c = true ->
  (forall p k, is_long p -> is_long k -> p + k <= LONG_MAX -> ~ (0 < k /\ 0 <= p /\ p + k <= drows a) -> arr2_remove_rows zero c p k a = Fail (report c)) /\
  (forall p k, is_long p -> is_long k -> p + k <= LONG_MAX -> ~ (0 < k /\ 0 <= p /\ p + k <= dcols a) -> arr2_remove_cols zero c p k a = Fail (report c)) /\
  (forall v, ~ (StronglySorted Z.lt v /\ Forall (fun p => 0 <= p < drows a) v) -> arr2_remove_rows_idx zero c v a = Fail (report c)) /\
  (forall v, ~ (StronglySorted Z.lt v /\ Forall (fun p => 0 <= p < dcols a) v) -> arr2_remove_cols_idx zero c v a = Fail (report c)) /\
  (forall p A, ~ (0 <= p <= drows a /\ (drows a = 0 \/ s2cols A = dcols a)) -> arr2_insert_rows zero c p A a = Fail (report c)) /\
  (forall p A, ~ (0 <= p <= dcols a /\ (drows a = 0 \/ s2rows A = drows a)) -> arr2_insert_cols zero c p A a = Fail (report c)) /\
  (forall p B l, produces B l -> ~ (0 <= p <= drows a /\ (if drows a =? 0 then 0 < zlen l else zlen l = dcols a)) -> arr2_insert_row zero c p B a = Fail (report c)) /\
  (forall p B l, produces B l -> ~ (0 <= p <= dcols a /\ (if drows a =? 0 then 0 < zlen l else zlen l = drows a)) -> arr2_insert_col zero c p B a = Fail (report c)) /\
  (forall m n pr, is_long m -> is_long n -> ~ (0 <= m /\ 0 <= n /\ (m = 0 <-> n = 0)) -> arr2_resize zero c m n pr a = Fail (report c)).
Proof.
  intros Hc Hs Hf Hk. got. pose proof (dims_long2 c Hc a M Hr HM) as [D1 D2]. rewrite ER, EC in *. repeat apply conj.
  - intros p k Lp Lk Ho Hn. pose proof (sim2_remove_rows zero c Hc a M Hr HM p k Lp Lk (or_introl Hk)) as Hsim. unfold spec_remove_rows, guard in Hsim.
    replace (LONG_MAX <? p + k) with false in Hsim by lia. rewrite andb_false_r in Hsim.
    replace ((0 <? k) && (0 <=? p) && (p + k <=? zlen M)) with false in Hsim by lia. exact Hsim.
  - intros p k Lp Lk Ho Hn. pose proof (sim2_remove_cols zero c Hc a M Hr HM p k Lp Lk (or_introl Hk)) as Hsim. unfold spec_remove_cols, guard in Hsim.
    replace (LONG_MAX <? p + k) with false in Hsim by lia. rewrite andb_false_r in Hsim.
    replace ((0 <? k) && (0 <=? p) && (p + k <=? ncols M)) with false in Hsim by lia. exact Hsim.
  - intros v Hn. pose proof (sim2_remove_rows_idx zero c Hc a M Hr HM v (or_introl Hk)) as Hsim. unfold spec_remove_rows_idx, guard in Hsim.
    rewrite <- increasing_spec, <- in_range_forall, <- andb_true_iff in Hn. apply not_true_is_false in Hn. rewrite Hn in Hsim. exact Hsim.
  - intros v Hn. pose proof (sim2_remove_cols_idx zero c Hc a M Hr HM v (or_introl Hk)) as Hsim. unfold spec_remove_cols_idx, guard in Hsim.
    rewrite <- increasing_spec, <- in_range_forall, <- andb_true_iff in Hn. apply not_true_is_false in Hn. rewrite Hn in Hsim. exact Hsim.
  - intros p A Hn. unfold arr2_insert_rows, arr2_insert_rows_gen. rewrite ER, EC. destruct ((0 <=? p) && (p <=? zlen M)) eqn:G; [|now rewrite check_debug_false].
    rewrite check_debug_true. cbn [bind]. replace ((zlen M =? 0) && (ncols M =? 0)) with false by lia.
    replace (s2cols A =? ncols M) with false by lia. now rewrite check_debug_false.
  - intros p A Hn. unfold arr2_insert_cols, arr2_insert_cols_gen. rewrite ER, EC. destruct ((0 <=? p) && (p <=? ncols M)) eqn:G; [|now rewrite check_debug_false].
    rewrite check_debug_true. cbn [bind]. replace ((zlen M =? 0) && (ncols M =? 0)) with false by lia.
    replace (s2rows A =? zlen M) with false by lia. now rewrite check_debug_false.
  - intros p B l HB Hn. pose proof (sim2_insert_row zero c Hc a M Hr HM p B l HB (or_introl Hk)) as Hsim. unfold spec_insert_row, guard in Hsim.
    destruct ((0 <=? p) && (p <=? zlen M)) eqn:G; [|exact Hsim]. destruct (zlen M =? 0) eqn:G2.
    + replace (0 <? zlen l) with false in Hsim by lia. exact Hsim.
    + replace (zlen l =? ncols M) with false in Hsim by lia. exact Hsim.
  - intros p B l HB Hn. pose proof (sim2_insert_col zero c Hc a M Hr HM p B l HB (or_introl Hk)) as Hsim. unfold spec_insert_col, guard in Hsim.
    destruct ((0 <=? p) && (p <=? ncols M)) eqn:G; [|exact Hsim]. destruct (zlen M =? 0) eqn:G2.
    + replace (0 <? zlen l) with false in Hsim by lia. exact Hsim.
    + replace (zlen l =? zlen M) with false in Hsim by lia. exact Hsim.
  - intros m n pr Lm Ln Hn. pose proof (sim2_resize zero c Hc a M Hr HM m n pr Lm Ln (or_introl Hk)) as Hsim. unfold spec_resize2, guard in Hsim.
    assert (shape_ok m n = false) as EF. { apply not_true_is_false. now rewrite shape_ok_true. } rewrite EF in Hsim. exact Hsim.
Qed.

(** C30 *)
Lemma remove_last_thm c a k : cfg_ok c -> sound2 a -> fits2 c a -> 0 < drows a ->
  (exists a', arr2_remove_row_last zero c k a = Ok a' /\ arr2_remove_row zero c (drows a - 1) a = Ok a' /\
    (drows a = 1 -> empty2 a') /\ (1 < drows a -> holds a' (drows a - 1) (dcols a) (elem a))) /\
  (exists a', arr2_remove_col_last zero c k a = Ok a' /\ arr2_remove_col zero c (dcols a - 1) a = Ok a' /\
    (dcols a = 1 -> empty2 a') /\ (1 < dcols a -> holds a' (drows a) (dcols a - 1) (elem a))).
Proof.
  intros Hc Hs Hf Hm. pose proof Hs as (S1 & S2 & S3 & _). unfold cfg_ok, fits2 in *. assert (0 < dcols a) by lia.
  assert (drows a <= LONG_MAX /\ dcols a <= LONG_MAX) as [L1 L2] by (apply (dims_long (drows a) (dcols a)); auto; lia).
  unfold arr2_remove_row_last, arr2_remove_col_last. rewrite !lsub_ok by (unfold LONG_MIN; lia). cbn [bind]. split.
  - destruct (remove_rows_thm c a (drows a - 1) 1) as (a' & E & H1 & H2); auto; try lia. exists a'. repeat split; auto; try (apply H1; lia); try (apply H2; lia).
    intros i j Hi Hj. destruct (H2 ltac:(lia)) as (_ & _ & _ & H3). rewrite H3 by assumption. now replace (i <? drows a - 1) with true by lia.
  - destruct (remove_cols_thm c a (dcols a - 1) 1) as (a' & E & H1 & H2); auto; try lia. exists a'. repeat split; auto; try (apply H1; lia); try (apply H2; lia).
    intros i j Hi Hj. destruct (H2 ltac:(lia)) as (_ & _ & _ & H3). rewrite H3 by assumption. now replace (j <? dcols a - 1) with true by lia.
Qed.

(** C31 *)
Lemma move1_thm (a b : arr V) c : 
  arr_move b = (b, arr_empty) /\ rep (@arr_empty V) [] /\
  (an a = an b -> arr_move_assign c a b = Ok (b, arr_empty)) /\
  arr_resize_and_assign_move a b = (b, arr_empty) /\
  arr_move_assign_self a = a.
Proof.
  repeat split. intros E. unfold arr_move_assign. rewrite E, Z.eqb_refl, check_normal_true. reflexivity.
Qed.
Lemma move2_thm c a b : sound2 b ->
  (exists b', arr2_move b = (b, b') /\ empty2 b' /\ sound2 b') /\
  (exists b', arr2_resize_and_assign_move a b = (b, b') /\ empty2 b' /\ sound2 b') /\
  (sound2 a -> drows a = drows b -> dcols a = dcols b -> exists b', arr2_move_assign c a b = Ok (b, b') /\ empty2 b' /\ sound2 b').
Proof.
  intros Hb. assert (empty2 (@arr2_empty V) /\ sound2 (@arr2_empty V)) as He by (unfold empty2, sound2; cbn; repeat split; lia).
  split; [eexists; split; [reflexivity|exact He]|]. split; [eexists; split; [reflexivity|exact He]|].
  intros (_ & _ & _ & H4 & _) E1 E2. exists arr2_empty. split; [|exact He]. destruct Hb as (_ & _ & _ & H5 & _).
  unfold arr2_move_assign, same_size2. rewrite E1, E2, !Z.eqb_refl, check_normal_true. cbn [bind andb].
  unfold arr_move_assign. assert (an (dat a) = an (dat b)) as -> by congruence. rewrite Z.eqb_refl, check_normal_true. cbn. now destruct b.
Qed.
Lemma self_move2_thm a : sound2 a ->
  drows (arr2_move_assign_self a) = 0 /\ dcols (arr2_move_assign_self a) = 0 /\ dat (arr2_move_assign_self a) = dat a /\
  (sound2 (arr2_move_assign_self a) <-> drows a = 0).
Proof.
  intros (H1 & H2 & H3 & H4 & H5). repeat split; cbn; unfold arr_move_assign_self; try lia. intros (_ & _ & _ & H & _). cbn in H.
  unfold arr_move_assign_self in H. rewrite H4 in H. nia.
Qed.

(** C32 *)
Lemma mismatched_move_thm c a s : sound2 a -> sound2 s -> (drows a <> drows s \/ dcols a <> dcols s) ->
  (dbg c = true -> ndbg c = false -> arr2_move_assign c a s = Fail Abort) /\
  (dbg c = false \/ ndbg c = true ->
   exists a', arr2_move_assign c a s = Ok (a', arr2_empty) /\ drows a' = drows a /\ dcols a' = dcols a /\ dat a' = dat s /\
     (drows s * dcols s < drows a * dcols a -> drows a * dcols a <= LONG_MAX -> 
      forall c', exists i j, inside a' i j /\ sub2 c' (src_of_arr2 a') (Plain i) (Plain j) = UB /\ at2 c' (src_of_arr2 a') (Plain i) (Plain j) = UB /\
        forall x, arr2_write c' (Plain i) (Plain j) x a' = UB)).
Proof.
  intros (A1 & A2 & A3 & A4 & A5) (S1 & S2 & S3 & S4 & S5) Hne.
  assert (same_size2 (drows a) (dcols a) (drows s) (dcols s) = false) as EF by (unfold same_size2; lia). unfold arr2_move_assign. rewrite EF.
  split.
  - intros Hd Hn. unfold check_normal. rewrite Hd, Hn. reflexivity.
  - intros Hoff. assert (forall b, check_normal c (Ok b) = Ok tt) as EN.
    { intros b. unfold check_normal. destruct (dbg c); [|reflexivity]. destruct (ndbg c); [|destruct Hoff; discriminate]. now destruct b. }
    rewrite EN. cbn [bind]. unfold arr_move_assign. rewrite EN. cbn. eexists. split; [reflexivity|]. repeat split; auto.
    intros Hlt HL c'. cbn [drows dcols dat]. assert (0 <= drows s * dcols s) by nia. assert (0 < drows a) by nia. assert (0 < dcols a) by nia.
    assert (drows a <= LONG_MAX /\ dcols a <= LONG_MAX) as [L1 L2] by (apply (dims_long (drows a) (dcols a)); auto; lia).
    exists (drows a - 1), (dcols a - 1). unfold inside. cbn [drows dcols]. split; [lia|].
    unfold sub2, at2, arr2_write. cbn [idx_get bind src_of_arr2 s2rows s2cols s2un drows dcols dat].
    assert (valid_index2 (drows a) (dcols a) (drows a - 1) (dcols a - 1) = true) as -> by (unfold valid_index2, valid_row, valid_col; lia).
    rewrite !check_debug_true. cbn [bind check_always]. unfold un2, set2. cbn [dcols dat].
    assert (0 <= (drows a - 1) * dcols a <= LONG_MAX) by nia. rewrite lmul_ok by (unfold LONG_MIN; lia). cbn [bind].
    assert ((drows a - 1) * dcols a + (dcols a - 1) = drows a * dcols a - 1) as EA by ring. rewrite ladd_ok by (unfold LONG_MIN; lia). cbn [bind].
    rewrite EA. rewrite oget_ub by lia. split; [reflexivity|]. split; [reflexivity|]. intros x. rewrite oset_ub by lia. reflexivity.
Qed.
End T.
