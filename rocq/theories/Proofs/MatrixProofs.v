(** Facts about matrices as lists of rows, row-major addresses, and nested fill loops. *)
From Verif Require Import Base.Outcome Base.ZList Model.Index Model.Slice Model.Array1D Model.Array2D Model.Store1D.
From Verif Require Import Spec.ArraySpec Spec.SliceSpec Spec.Store1DSpec Spec.MatrixSpec.
From Verif Require Import Proofs.Array1DProofs Proofs.SliceProofs Proofs.ViewProofs.
Ltac Zify.zify_post_hook ::= Z.div_mod_to_equations.

(** ** Row-major addresses *)
Lemma addr_range m n i j : 0 <= i < m -> 0 <= j < n -> 0 <= i * n + j < m * n.
Proof. intros. split; [nia|]. assert (i * n + n <= m * n) by nia. lia. Qed.
Lemma addr_inj n i j i' j' : 0 <= j < n -> 0 <= j' < n -> i * n + j = i' * n + j' -> i = i' /\ j = j'.
Proof.
  intros H1 H2 E. assert (i = i').
  { destruct (Z.lt_trichotomy i i') as [H|[H|H]]; auto; exfalso; nia. }
  subst. split; [reflexivity|lia].
Qed.
Lemma addr_div m n p : 0 < n -> 0 <= p < m * n -> exists i j, 0 <= i < m /\ 0 <= j < n /\ p = i * n + j.
Proof.
  intros Hn Hp. exists (p / n), (p mod n). pose proof (Z.mod_pos_bound p n Hn). pose proof (Z.div_mod p n).
  assert (0 <= p / n) by (apply Z.div_pos; lia). assert (p / n < m) by (apply Z.div_lt_upper_bound; lia).
  repeat split; lia.
Qed.

Section M.
Context {V : Type}.
Implicit Types (M N : list (list V)) (b : list V).

Lemma rect_nth n M i r : rect n M -> znth M i = Some r -> zlen r = n.
Proof. intros H Hr. unfold rect in H. rewrite Forall_forall in H. apply H. now apply znth_in in Hr. Qed.
Lemma zlen_concat n M : rect n M -> zlen (concat M) = zlen M * n.
Proof.
  induction 1 as [|r M Hr HM IH]; [reflexivity|]. cbn [concat]. rewrite zlen_app, zlen_cons, IH, Hr. lia.
Qed.
Lemma mget_some n M i j : rect n M -> 0 <= i < zlen M -> 0 <= j < n -> exists v, mget M i j = Some v.
Proof.
  intros HM Hi Hj. unfold mget. destruct (znth_some M i Hi) as [r Hr]. rewrite Hr. apply znth_some.
  now rewrite (rect_nth n M i r).
Qed.
Lemma mget_in n M i j v : rect n M -> mget M i j = Some v -> 0 <= i < zlen M /\ 0 <= j < n.
Proof.
  intros HM H. unfold mget in H. destruct (znth M i) as [r|] eqn:E; [|discriminate].
  rewrite <- (rect_nth n M i r HM E). split; [now apply znth_lt in E|now apply znth_lt in H].
Qed.
Lemma concat_get n M i j : rect n M -> 0 <= i < zlen M -> 0 <= j < n -> znth (concat M) (i * n + j) = mget M i j.
Proof.
  intros HM. revert i. induction HM as [|r M Hr HM IH]; intros i Hi Hj; [cbn in Hi; lia|].
  rewrite zlen_cons in Hi. cbn [concat]. unfold mget. destruct (Z.eqb_spec i 0) as [->|].
  - rewrite znth_app_l by lia. rewrite znth_cons_0. reflexivity.
  - rewrite znth_app_r by nia. rewrite znth_cons_pos by lia. rewrite Hr.
    replace (i * n + j - n) with ((i - 1) * n + j) by lia. rewrite IH by lia. reflexivity.
Qed.
Lemma concat_ext m n b M : rect n M -> zlen M = m -> zlen b = m * n -> (m = 0 \/ 0 < n) ->
  (forall i j, 0 <= i < m -> 0 <= j < n -> znth b (i * n + j) = mget M i j) -> b = concat M.
Proof.
  intros HM HL Hb Hn H. apply list_ext_zlen; [rewrite (zlen_concat n) by assumption; now subst|].
  intros p Hp. rewrite Hb in Hp. destruct Hn as [->|Hn]; [lia|].
  destruct (addr_div m n p Hn Hp) as (i & j & Hi & Hj & ->). rewrite H by assumption. now rewrite concat_get by (auto; lia).
Qed.
Lemma rect_ext n M N : rect n M -> rect n N -> zlen M = zlen N ->
  (forall i j, 0 <= i < zlen M -> 0 <= j < n -> mget M i j = mget N i j) -> M = N.
Proof.
  intros HM HN HL H. apply list_ext_zlen; [assumption|]. intros i Hi.
  destruct (znth_some M i Hi) as [r Hr]. destruct (znth_some N i) as [s Hs]; [lia|]. rewrite Hr, Hs. f_equal.
  pose proof (rect_nth n M i r HM Hr). pose proof (rect_nth n N i s HN Hs).
  apply list_ext_zlen; [lia|]. intros j Hj. specialize (H i j Hi ltac:(lia)). unfold mget in H. now rewrite Hr, Hs in H.
Qed.
Lemma rect_ncols n M : rect n M -> M <> [] -> ncols M = n.
Proof. intros H Hne. destruct H; [congruence|assumption]. Qed.
Lemma wfm_rect M : wfm M -> rect (ncols M) M.
Proof. intros []. assumption. Qed.
Lemma wfm_intro n M : rect n M -> 0 < n -> wfm M.
Proof.
  intros H Hn. destruct H as [|r M Hr HM]; [split; [constructor|congruence]|].
  split; cbn [ncols]; [constructor; [reflexivity|now rewrite Hr]|lia].
Qed.
Lemma wfm_nil : wfm (@nil (list V)).
Proof. split; [constructor|congruence]. Qed.
Lemma ncols_nonneg M : 0 <= ncols M.
Proof. destruct M; cbn [ncols]; [lia|apply zlen_nonneg]. Qed.
Lemma wfm_zero M : wfm M -> zlen M = 0 <-> ncols M = 0.
Proof.
  intros [_ H]. destruct M; [split; reflexivity|]. specialize (H ltac:(congruence)). rewrite zlen_cons. pose proof (zlen_nonneg M). lia.
Qed.
Lemma nonempty_len M : M <> [] <-> 0 < zlen M.
Proof. destruct M; [split; [congruence|cbn; lia]|]. rewrite zlen_cons. pose proof (zlen_nonneg M). split; [lia|congruence]. Qed.

(** Buffers seen as matrices *)
Definition get2 (n : Z) b (i j : Z) : option V := znth b (i * n + j).
Lemma set2_ok m n b i j v : zlen b = m * n -> m * n <= LONG_MAX -> 0 <= i < m -> 0 <= j < n ->
  set2 n b i j v = Ok (zupd b (i * n + j) v).
Proof.
  intros Hb HL Hi Hj. pose proof (addr_range m n i j Hi Hj). unfold set2.
  assert (0 <= i * n) by nia. rewrite lmul_ok by (unfold LONG_MIN; lia). cbn [bind].
  rewrite ladd_ok by (unfold LONG_MIN; lia). cbn [bind]. now rewrite oset_ok by lia.
Qed.
Lemma get2_zupd m n b i j v i' j' : zlen b = m * n -> 0 <= i < m -> 0 <= j < n -> 0 <= i' < m -> 0 <= j' < n ->
  get2 n (zupd b (i * n + j) v) i' j' = if (i' =? i) && (j' =? j) then Some v else get2 n b i' j'.
Proof.
  intros Hb Hi Hj Hi' Hj'. unfold get2. pose proof (addr_range m n i j Hi Hj). rewrite znth_zupd by lia.
  destruct (Z.eqb_spec (i' * n + j') (i * n + j)) as [E|E].
  - apply addr_inj in E as [-> ->]; auto. now rewrite !Z.eqb_refl.
  - destruct ((i' =? i) && (j' =? j)) eqn:B; [|reflexivity]. exfalso. apply E. f_equal; [f_equal|]; lia.
Qed.

(** One row of a rectangle. *)
Lemma row_fill m n q i c0 (g : Z -> V) (body : Z -> list V -> outcome (list V)) b :
  0 <= q -> 0 <= i < m -> 0 <= c0 -> c0 + q <= n -> zlen b = m * n -> m * n <= LONG_MAX ->
  (forall j b, 0 <= j < q -> body j b = set2 n b i (j + c0) (g j)) ->
  exists b', for_ 0 q body b = Ok b' /\ zlen b' = m * n /\
    forall i' j', 0 <= i' < m -> 0 <= j' < n ->
      get2 n b' i' j' = if (i' =? i) && (c0 <=? j') && (j' <? c0 + q) then Some (g (j' - c0)) else get2 n b i' j'.
Proof.
  intros Hq Hi Hc0 Hcq Hb HL Hbody.
  destruct (for_inv (fun k s => zlen s = m * n /\ forall i' j', 0 <= i' < m -> 0 <= j' < n ->
      get2 n s i' j' = if (i' =? i) && (c0 <=? j') && (j' <? c0 + k) then Some (g (j' - c0)) else get2 n b i' j') 0 q body b)
    as (b' & E & L & G); [lia| |  |exists b'; auto].
  - split; [assumption|]. intros i' j' _ _. replace ((i' =? i) && (c0 <=? j') && (j' <? c0 + 0)) with false by lia. reflexivity.
  - intros j s Hj [Ls Gs]. rewrite Hbody by assumption. rewrite (set2_ok m) by (auto; lia).
    eexists. split; [reflexivity|]. rewrite zlen_zupd. split; [assumption|]. intros i' j' Hi' Hj'.
    rewrite (get2_zupd m) by (auto; lia). rewrite Gs by assumption.
    destruct ((i' =? i) && (j' =? j + c0)) eqn:B.
    + replace ((i' =? i) && (c0 <=? j') && (j' <? c0 + (j + 1))) with true by lia. do 2 f_equal. lia.
    + replace ((i' =? i) && (c0 <=? j') && (j' <? c0 + (j + 1))) with ((i' =? i) && (c0 <=? j') && (j' <? c0 + j)) by lia.
      reflexivity.
Qed.

Lemma rect_fill m n p q r0 c0 (g : Z -> Z -> V) (body : Z -> Z -> list V -> outcome (list V)) b :
  0 <= p -> 0 <= q -> 0 <= r0 -> r0 + p <= m -> 0 <= c0 -> c0 + q <= n -> zlen b = m * n -> m * n <= LONG_MAX ->
  (forall i j b, 0 <= i < p -> 0 <= j < q -> body i j b = set2 n b (i + r0) (j + c0) (g i j)) ->
  exists b', for_ 0 p (fun i b => for_ 0 q (body i) b) b = Ok b' /\ zlen b' = m * n /\
    forall i j, 0 <= i < m -> 0 <= j < n ->
      get2 n b' i j = if (r0 <=? i) && (i <? r0 + p) && (c0 <=? j) && (j <? c0 + q) then Some (g (i - r0) (j - c0))
                      else get2 n b i j.
Proof.
  intros Hp Hq Hr0 Hrp Hc0 Hcq Hb HL Hbody.
  destruct (for_inv (fun k s => zlen s = m * n /\ forall i j, 0 <= i < m -> 0 <= j < n ->
      get2 n s i j = if (r0 <=? i) && (i <? r0 + k) && (c0 <=? j) && (j <? c0 + q) then Some (g (i - r0) (j - c0))
                     else get2 n b i j) 0 p (fun i b => for_ 0 q (body i) b) b)
    as (b' & E & L & G); [lia| |  |exists b'; auto].
  - split; [assumption|]. intros i j _ _.
    replace ((r0 <=? i) && (i <? r0 + 0) && (c0 <=? j) && (j <? c0 + q)) with false by lia. reflexivity.
  - intros k s Hk [Ls Gs].
    destruct (row_fill m n q (k + r0) c0 (g k) (body k) s) as (s' & E & L' & G'); auto; try lia.
    exists s'. split; [assumption|]. split; [assumption|]. intros i j Hi Hj. rewrite G' by assumption. rewrite Gs by assumption.
    destruct ((i =? k + r0) && (c0 <=? j) && (j <? c0 + q)) eqn:B.
    + replace ((r0 <=? i) && (i <? r0 + (k + 1)) && (c0 <=? j) && (j <? c0 + q)) with true by lia. do 2 f_equal. lia.
    + replace ((r0 <=? i) && (i <? r0 + (k + 1)) && (c0 <=? j) && (j <? c0 + q)) with
        ((r0 <=? i) && (i <? r0 + k) && (c0 <=? j) && (j <? c0 + q)) by lia. reflexivity.
Qed.

(** ** List edits, by elements *)
Lemma zlen_ins {X} (l : list X) p m : 0 <= p <= zlen l -> zlen (ins l p m) = zlen l + zlen m.
Proof. intros. unfold ins. rewrite !zlen_app, zlen_firstn, zlen_skipn; lia. Qed.
Lemma znth_ins {X} (l : list X) p m i : 0 <= p <= zlen l -> 0 <= i ->
  znth (ins l p m) i = if i <? p then znth l i else if i <? p + zlen m then znth m (i - p) else znth l (i - zlen m).
Proof.
  intros Hp Hi. pose proof (zlen_nonneg m). unfold ins.
  assert (zlen (firstn (Z.to_nat p) l) = p) as LF by (rewrite zlen_firstn; lia).
  destruct (Z.ltb_spec i p).
  - rewrite znth_app_l by lia. rewrite znth_firstn by lia. now replace (i <? p) with true by lia.
  - rewrite znth_app_r by lia. rewrite LF. destruct (Z.ltb_spec i (p + zlen m)).
    + now rewrite znth_app_l by lia.
    + rewrite znth_app_r by lia. rewrite znth_skipn by lia. f_equal. lia.
Qed.
Lemma zlen_del {X} (l : list X) p k : 0 <= p -> 0 <= k -> p + k <= zlen l -> zlen (del l p k) = zlen l - k.
Proof. intros. unfold del. rewrite zlen_app, zlen_firstn, zlen_skipn; lia. Qed.
Lemma znth_del {X} (l : list X) p k i : 0 <= p -> 0 <= k -> p + k <= zlen l -> 0 <= i ->
  znth (del l p k) i = if i <? p then znth l i else znth l (i + k).
Proof.
  intros Hp Hk HL Hi. unfold del.
  assert (zlen (firstn (Z.to_nat p) l) = p) as LF by (rewrite zlen_firstn; lia).
  destruct (Z.ltb_spec i p).
  - rewrite znth_app_l by lia. rewrite znth_firstn by lia. now replace (i <? p) with true by lia.
  - rewrite znth_app_r by lia. rewrite LF. rewrite znth_skipn by lia. f_equal. lia.
Qed.
Lemma rect_map n n' (f : list V -> list V) M : rect n M -> (forall r, zlen r = n -> zlen (f r) = n') -> rect n' (map f M).
Proof. intros H Hf. induction H; constructor; auto. Qed.
Lemma rect_in n M r : rect n M -> In r M -> zlen r = n.
Proof. intros H Hin. unfold rect in H. rewrite Forall_forall in H. now apply H. Qed.
Lemma in_ins {X} (l : list X) p m x : In x (ins l p m) -> In x l \/ In x m.
Proof.
  unfold ins. rewrite !in_app_iff. intros [H|[H|H]]; auto; left.
  - rewrite <- (firstn_skipn (Z.to_nat p) l). apply in_app_iff. now left.
  - rewrite <- (firstn_skipn (Z.to_nat p) l). apply in_app_iff. now right.
Qed.
Lemma in_del {X} (l : list X) p k x : In x (del l p k) -> In x l.
Proof.
  unfold del. rewrite !in_app_iff. intros [H|H].
  - rewrite <- (firstn_skipn (Z.to_nat p) l). apply in_app_iff. now left.
  - rewrite <- (firstn_skipn (Z.to_nat (p + k)) l). apply in_app_iff. now right.
Qed.
Lemma rect_ins n M p N : rect n M -> rect n N -> rect n (ins M p N).
Proof.
  intros H1 H2. apply Forall_forall. intros r Hr. apply in_ins in Hr as [Hr|Hr]; [now apply (rect_in n M)|now apply (rect_in n N)].
Qed.
Lemma rect_del n M p k : rect n M -> rect n (del M p k).
Proof. intros H1. apply Forall_forall. intros r Hr. apply in_del in Hr. now apply (rect_in n M). Qed.
Lemma mget_map (f : list V -> list V) M i j : mget (map f M) i j = match znth M i with Some r => znth (f r) j | None => None end.
Proof. unfold mget. rewrite znth_map. destruct (znth M i); reflexivity. Qed.
End M.
