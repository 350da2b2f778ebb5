From Verif Require Import Base.Outcome Base.ZList Model.Index Model.View2D Model.Iterator.
From Verif Require Import Spec.ArraySpec Spec.IteratorSpec Spec.View2DSpec Proofs.View2DThms.
From Coq Require Import List FinFun.

Lemma somewhere_some c p k : somewhere c (mkit (Some p) k) = Ok tt.
Proof. unfold somewhere, it_somewhere. cbn. apply check_debug_true. Qed.
Lemma somewhere_null c k : checked c = true -> somewhere c (mkit None k) = Fail (report c).
Proof. intros H. unfold somewhere, it_somewhere. cbn. now apply check_debug_false. Qed.
Lemma same_refl p k1 k2 : same_ptr (mkit (Some p) k1) (mkit (Some p) k2) = true.
Proof. unfold same_ptr. cbn. lia. Qed.

Section C.
Variable c : cfg.

Lemma addeq_ok p i k : is_long (i + k) -> it_addeq c (mkit (Some p) i) k = Ok (mkit (Some p) (i + k)).
Proof. intros H. unfold it_addeq. rewrite somewhere_some. cbn [bind it_pos it_ptr]. now rewrite ladd_ok by exact H. Qed.
Lemma subeq_ok p i k : is_long (i - k) -> it_subeq c (mkit (Some p) i) k = Ok (mkit (Some p) (i - k)).
Proof. intros H. unfold it_subeq. rewrite somewhere_some. cbn [bind it_pos it_ptr]. now rewrite lsub_ok by exact H. Qed.
Lemma inc_ok p i : is_long (i + 1) -> it_inc c (mkit (Some p) i) = Ok (mkit (Some p) (i + 1)).
Proof. intros H. unfold it_inc. rewrite somewhere_some. cbn [bind it_pos it_ptr]. now rewrite ladd_ok by exact H. Qed.
Lemma dec_ok p i : is_long (i - 1) -> it_dec c (mkit (Some p) i) = Ok (mkit (Some p) (i - 1)).
Proof. intros H. unfold it_dec. rewrite somewhere_some. cbn [bind it_pos it_ptr]. now rewrite lsub_ok by exact H. Qed.
Lemma post_inc_ok p i : is_long (i + 1) -> it_post_inc c (mkit (Some p) i) = Ok (mkit (Some p) i, mkit (Some p) (i + 1)).
Proof. intros H. unfold it_post_inc. rewrite somewhere_some. cbn [bind]. now rewrite inc_ok. Qed.
Lemma post_dec_ok p i : is_long (i - 1) -> it_post_dec c (mkit (Some p) i) = Ok (mkit (Some p) i, mkit (Some p) (i - 1)).
Proof. intros H. unfold it_post_dec. rewrite somewhere_some. cbn [bind]. now rewrite dec_ok. Qed.
Lemma plus_ok p i k : is_long (i + k) -> it_plus c (mkit (Some p) i) k = Ok (mkit (Some p) (i + k)).
Proof. intros H. unfold it_plus. rewrite somewhere_some. cbn [bind]. now apply addeq_ok. Qed.
Lemma plus_l_ok p i k : is_long (i + k) -> it_plus_l c k (mkit (Some p) i) = Ok (mkit (Some p) (i + k)).
Proof. intros H. unfold it_plus_l. rewrite somewhere_some. cbn [bind]. now apply plus_ok. Qed.
Lemma minus_ok p i k : is_long (i - k) -> it_minus c (mkit (Some p) i) k = Ok (mkit (Some p) (i - k)).
Proof. intros H. unfold it_minus. rewrite somewhere_some. cbn [bind]. now apply subeq_ok. Qed.

Lemma cmp_ok k p i j : it_cmp c k (mkit (Some p) i) (mkit (Some p) j) = Ok (cmp_pos k i j).
Proof. unfold it_cmp. rewrite somewhere_some, same_refl. cbn [bind it_pos]. now rewrite check_debug_true. Qed.
Lemma cmp_holds k i j : cmp_pos k i j = true <-> icmp_holds k i j.
Proof. destruct k; cbn; lia. Qed.

Section R.
Context {R : Type}.
Implicit Types (E : env R) (l : list R).

Theorem expression_thm E p l e : shows (E p) l -> ifits (zlen l) e -> it_eval c E p e = Ok (mkit (Some p) (ipos (zlen l) e)).
Proof.
  intros HS. induction e as [| |e IH|e IH|e IH k|e IH k|k e IH|e IH k|e IH k|e IH|e IH]; cbn [ifits ipos it_eval]; intros HF.
  - reflexivity.
  - unfold it_end. destruct HS as (_ & -> & _). reflexivity.
  - rewrite IH by apply HF. cbn [bind]. apply inc_ok. apply HF.
  - rewrite IH by apply HF. cbn [bind]. apply dec_ok. apply HF.
  - rewrite IH by apply HF. cbn [bind]. apply plus_ok. apply HF.
  - rewrite IH by apply HF. cbn [bind]. apply minus_ok. apply HF.
  - rewrite IH by apply HF. cbn [bind]. apply plus_l_ok. apply HF.
  - rewrite IH by apply HF. cbn [bind]. apply addeq_ok. apply HF.
  - rewrite IH by apply HF. cbn [bind]. apply subeq_ok. apply HF.
  - rewrite IH by apply HF. cbn [bind]. rewrite post_inc_ok by apply HF. reflexivity.
  - rewrite IH by apply HF. cbn [bind]. rewrite post_dec_ok by apply HF. reflexivity.
Qed.

Theorem deref_thm E p l k : shows (E p) l ->
  (forall v, znth l k = Some v -> it_deref c E (mkit (Some p) k) = Ok v) /\
  (~ 0 <= k < zlen l -> checked c = true -> it_deref c E (mkit (Some p) k) = Fail (report c)).
Proof.
  intros (HL & HN & HA). unfold it_deref. rewrite somewhere_some. cbn [bind target it_ptr it_pos]. rewrite HN. cbn [bind]. split.
  - intros v Hv. pose proof (znth_lt _ _ _ Hv) as Hk. replace ((-1 <? k) && (k <? zlen l)) with true by lia. rewrite check_debug_true. cbn [bind].
    rewrite HA by assumption. now apply oget_ok.
  - intros Hk HC. replace ((-1 <? k) && (k <? zlen l)) with false by lia. now rewrite check_debug_false.
Qed.

Theorem subscript_thm E p l i k : shows (E p) l -> is_long (i + k) ->
  (forall v, znth l (i + k) = Some v -> it_sub c E (mkit (Some p) i) k = Ok v) /\
  (~ 0 <= i + k < zlen l -> checked c = true -> it_sub c E (mkit (Some p) i) k = Fail (report c)).
Proof.
  intros (HL & HN & HA) HF. unfold it_sub. rewrite somewhere_some. cbn [bind target it_ptr it_pos]. rewrite HN, ladd_ok by exact HF. cbn [bind oand]. split.
  - intros v Hv. pose proof (znth_lt _ _ _ Hv) as Hk. replace ((-1 <? i + k) && (i + k <? zlen l)) with true by lia. rewrite check_debug_true. cbn [bind].
    rewrite HA by assumption. now apply oget_ok.
  - intros Hk HC. replace ((-1 <? i + k) && (i + k <? zlen l)) with false by lia. now rewrite check_debug_false.
Qed.

Lemma walk_ok E p l : shows (E p) l -> forall fuel i j, 0 <= i <= j -> j <= zlen l -> j - i < Z.of_nat fuel ->
  it_walk fuel c E (mkit (Some p) i) (mkit (Some p) j) = Ok (firstn (Z.to_nat (j - i)) (skipn (Z.to_nat i) l)).
Proof.
  intros HS. induction fuel as [|fuel IH]; intros i j Hi Hj HF; [lia|]. cbn [it_walk]. rewrite cmp_ok. cbn [bind cmp_pos].
  destruct (Z.eqb_spec i j) as [->|Hne]; cbn [negb].
  - now replace (Z.to_nat (j - j)) with O by lia.
  - destruct (znth_some l i) as [v Hv]; [lia|]. rewrite (proj1 (deref_thm E p l i HS) v Hv). cbn [bind]. destruct HS as (HL & HS).
    rewrite inc_ok by (unfold is_long, LONG_MIN, LONG_MAX in *; lia). cbn [bind]. rewrite IH by lia. cbn [bind].
    replace (Z.to_nat (j - i)) with (S (Z.to_nat (j - (i + 1)))) by lia. replace (Z.to_nat (i + 1)) with (S (Z.to_nat i)) by lia.
    unfold znth in Hv. destruct (i <? 0) eqn:E0; [lia|]. f_equal. clear -Hv. revert l Hv. induction (Z.to_nat i) as [|a IHa]; intros [|x l] Hv; try discriminate; cbn in *.
    + injection Hv as ->. reflexivity.
    + now apply IHa.
Qed.
Theorem walk_thm E p l e fuel : shows (E p) l -> it_end E p = Ok e -> zlen l < Z.of_nat fuel -> it_walk fuel c E (it_begin p) e = Ok l.
Proof.
  intros HS HE HF. unfold it_end in HE. pose proof HS as (_ & HN & _). rewrite HN in HE. injection HE as <-. unfold it_begin, it_make. pose proof (zlen_nonneg l).
  rewrite (walk_ok E p l HS) by lia. f_equal. cbn [Z.to_nat skipn]. apply firstn_all2. unfold zlen. lia.
Qed.

Lemma r_walk_ok E p l : shows (E p) l -> forall fuel j, 0 <= j <= zlen l -> j < Z.of_nat fuel ->
  r_walk fuel c E (mkit (Some p) j) (mkit (Some p) 0) = Ok (rev (firstn (Z.to_nat j) l)).
Proof.
  intros HS. induction fuel as [|fuel IH]; intros j Hj HF; [lia|]. cbn [r_walk]. rewrite cmp_ok. cbn [bind cmp_pos].
  destruct (Z.eqb_spec j 0) as [->|Hne]; cbn [negb]; [reflexivity|].
  destruct (znth_some l (j - 1)) as [v Hv]; [lia|]. unfold r_deref, r_inc. pose proof HS as (HL & _).
  rewrite dec_ok by (unfold is_long, LONG_MIN, LONG_MAX in *; lia). cbn [bind]. rewrite (proj1 (deref_thm E p l (j - 1) HS) v Hv). cbn [bind].
  rewrite IH by lia. cbn [bind]. f_equal. replace (Z.to_nat j) with (S (Z.to_nat (j - 1))) by lia.
  unfold znth in Hv. destruct (j - 1 <? 0) eqn:E0; [lia|]. clear -Hv. revert l Hv. induction (Z.to_nat (j - 1)) as [|a IHa]; intros [|x l] Hv; try discriminate; cbn [nth_error] in *.
  - injection Hv as ->. reflexivity.
  - change (firstn (S (S a)) (x :: l)) with (x :: firstn (S a) l). change (firstn (S a) (x :: l)) with (x :: firstn a l). cbn [rev]. rewrite <- (IHa l Hv). reflexivity.
Qed.
Theorem r_walk_thm E p l e fuel : shows (E p) l -> it_end E p = Ok e -> zlen l < Z.of_nat fuel -> r_walk fuel c E e (it_begin p) = Ok (rev l).
Proof.
  intros HS HE HF. unfold it_end in HE. pose proof HS as (_ & HN & _). rewrite HN in HE. injection HE as <-. unfold it_begin, it_make. pose proof (zlen_nonneg l).
  rewrite (r_walk_ok E p l HS) by lia. do 2 f_equal. apply firstn_all2. unfold zlen. lia.
Qed.
Theorem r_deref_thm E p l k : shows (E p) l -> 0 <= k < zlen l -> exists r v, r_plus c (mkit (Some p) (zlen l)) k = Ok r /\ znth l (zlen l - 1 - k) = Some v /\ r_deref c E r = Ok v.
Proof.
  intros HS Hk. pose proof HS as (HL & _). destruct (znth_some l (zlen l - 1 - k)) as [v Hv]; [lia|]. exists (mkit (Some p) (zlen l - k)), v. split.
  - unfold r_plus. apply minus_ok. unfold is_long, LONG_MIN, LONG_MAX in *. lia.
  - split; [assumption|]. unfold r_deref. rewrite dec_ok by (unfold is_long, LONG_MIN, LONG_MAX in *; lia). cbn [bind].
    apply (proj1 (deref_thm E p l _ HS)). now replace (zlen l - k - 1) with (zlen l - 1 - k) by lia.
Qed.

Theorem r_arith_thm p n j k rj rk : 0 <= j <= n -> 0 <= k <= n -> n <= LONG_MAX -> r_plus c (mkit (Some p) n) j = Ok rj -> r_plus c (mkit (Some p) n) k = Ok rk ->
  r_diff c rk rj = Ok (k - j) /\ (k < n -> r_inc c rk = r_plus c (mkit (Some p) n) (k + 1)) /\ (0 < k -> r_dec c rk = r_plus c (mkit (Some p) n) (k - 1)).
Proof.
  intros Hj Hk HN. unfold r_plus, r_diff, r_inc, r_dec. rewrite !minus_ok by (unfold is_long, LONG_MIN, LONG_MAX in *; lia). intros E1 E2. injection E1 as <-. injection E2 as <-.
  split; [|split; intros H].
  - unfold it_diff. rewrite somewhere_some, same_refl. cbn [bind it_pos]. rewrite check_debug_true. cbn [bind]. rewrite lsub_ok by (unfold is_long, LONG_MIN, LONG_MAX in *; lia). f_equal. lia.
  - rewrite dec_ok, ?minus_ok by (unfold is_long, LONG_MIN, LONG_MAX in *; lia). do 2 f_equal. lia.
  - rewrite inc_ok, ?minus_ok by (unfold is_long, LONG_MIN, LONG_MAX in *; lia). do 2 f_equal. lia.
Qed.

Theorem order_thm p i j : is_long (i - j) ->
  it_diff c (mkit (Some p) i) (mkit (Some p) j) = Ok (i - j) /\
  forall k, exists b, it_cmp c k (mkit (Some p) i) (mkit (Some p) j) = Ok b /\ (b = true <-> icmp_holds k i j).
Proof.
  intros H. split.
  - unfold it_diff. rewrite somewhere_some, same_refl. cbn [bind it_pos]. rewrite check_debug_true. cbn [bind]. now apply lsub_ok.
  - intros k. eexists. split; [apply cmp_ok|apply cmp_holds].
Qed.
Theorem mixed_thm p q i j : p <> q -> checked c = true ->
  it_diff c (mkit (Some p) i) (mkit (Some q) j) = Fail (report c) /\ forall k, it_cmp c k (mkit (Some p) i) (mkit (Some q) j) = Fail (report c).
Proof.
  intros H HC. unfold it_diff, it_cmp. rewrite somewhere_some. unfold same_ptr. cbn [bind it_ptr]. replace (p =? q) with false by lia.
  rewrite check_debug_false by assumption. auto.
Qed.
Theorem mixed_null_thm p i j : checked c = true ->
  it_diff c (mkit (Some p) i) (mkit None j) = Fail (report c) /\ forall k, it_cmp c k (mkit (Some p) i) (mkit None j) = Fail (report c).
Proof.
  intros HC. unfold it_diff, it_cmp. rewrite somewhere_some. unfold same_ptr. cbn [bind it_ptr].
  rewrite check_debug_false by assumption. auto.
Qed.
Theorem null_thm E j it : checked c = true ->
  it_deref c E (mkit None j) = Fail (report c) /\ it_inc c (mkit None j) = Fail (report c) /\ it_dec c (mkit None j) = Fail (report c) /\
  it_post_inc c (mkit None j) = Fail (report c) /\ it_post_dec c (mkit None j) = Fail (report c) /\
  (forall k, it_sub c E (mkit None j) k = Fail (report c) /\ it_addeq c (mkit None j) k = Fail (report c) /\ it_subeq c (mkit None j) k = Fail (report c) /\
     it_plus c (mkit None j) k = Fail (report c) /\ it_minus c (mkit None j) k = Fail (report c) /\ it_plus_l c k (mkit None j) = Fail (report c)) /\
  it_diff c (mkit None j) it = Fail (report c) /\ (forall k, it_cmp c k (mkit None j) it = Fail (report c)).
Proof.
  intros HC. unfold it_deref, it_post_inc, it_post_dec, it_inc, it_dec, it_sub, it_addeq, it_subeq, it_plus, it_minus, it_plus_l, it_diff, it_cmp.
  rewrite somewhere_null by assumption. cbn [bind]. repeat split; reflexivity.
Qed.
End R.

Theorem inverse_thm p i k : is_long i -> is_long (i + k) -> is_long (i - k) ->
  (a <- it_addeq c (mkit (Some p) i) k ;; it_subeq c a k) = Ok (mkit (Some p) i) /\
  (a <- it_subeq c (mkit (Some p) i) k ;; it_addeq c a k) = Ok (mkit (Some p) i) /\
  (a <- it_plus c (mkit (Some p) i) k ;; it_diff c a (mkit (Some p) i)) = lret k.
Proof.
  intros H1 H2 H3. rewrite addeq_ok, subeq_ok, plus_ok by assumption. cbn [bind]. rewrite subeq_ok, addeq_ok by (unfold is_long in *; lia).
  split; [do 2 f_equal; lia|]. split; [do 2 f_equal; lia|]. unfold it_diff. rewrite somewhere_some, same_refl, check_debug_true. cbn [bind it_pos]. unfold lsub. f_equal. lia.
Qed.
Theorem step_thm p i : is_long i ->
  (i < LONG_MAX -> (a <- it_inc c (mkit (Some p) i) ;; it_dec c a) = Ok (mkit (Some p) i) /\
     exists a, it_inc c (mkit (Some p) i) = Ok a /\ it_plus c (mkit (Some p) i) 1 = Ok a /\ it_post_inc c (mkit (Some p) i) = Ok (mkit (Some p) i, a)) /\
  (LONG_MIN < i -> (a <- it_dec c (mkit (Some p) i) ;; it_inc c a) = Ok (mkit (Some p) i) /\
     exists a, it_dec c (mkit (Some p) i) = Ok a /\ it_minus c (mkit (Some p) i) 1 = Ok a /\ it_post_dec c (mkit (Some p) i) = Ok (mkit (Some p) i, a)).
Proof.
  unfold is_long. intros H. split; intros Hb.
  - rewrite inc_ok by (unfold is_long; lia). cbn [bind]. rewrite dec_ok by (unfold is_long; lia). split; [do 2 f_equal; lia|].
    eexists. split; [reflexivity|]. rewrite plus_ok, post_inc_ok by (unfold is_long; lia). auto.
  - rewrite dec_ok by (unfold is_long; lia). cbn [bind]. rewrite inc_ok by (unfold is_long; lia). split; [do 2 f_equal; lia|].
    eexists. split; [reflexivity|]. rewrite minus_ok, post_dec_ok by (unfold is_long; lia). auto.
Qed.

Theorem write_thm {V} (h : Z -> list V) p k v :
  (0 <= k < zlen (h p) -> exists h', it_write c h (mkit (Some p) k) v = Ok h' /\ zlen (h' p) = zlen (h p) /\
     (forall i, znth (h' p) i = if i =? k then Some v else znth (h p) i) /\ (forall q, q <> p -> h' q = h q)) /\
  (~ 0 <= k < zlen (h p) -> checked c = true -> it_write c h (mkit (Some p) k) v = Fail (report c)).
Proof.
  unfold it_write. rewrite somewhere_some. cbn [bind it_ptr it_pos]. split.
  - intros Hk. replace ((-1 <? k) && (k <? zlen (h p))) with true by lia. rewrite check_debug_true. cbn [bind]. rewrite oset_ok by lia. cbn [bind].
    eexists. split; [reflexivity|]. cbn beta. rewrite Z.eqb_refl, zlen_zupd. split; [reflexivity|]. split; [intros i; apply znth_zupd; lia|].
    intros q Hq. now replace (q =? p) with false by lia.
  - intros Hk HC. replace ((-1 <? k) && (k <? zlen (h p))) with false by lia. now rewrite check_debug_false.
Qed.

(** ** The objects iterators are taken from. *)
Theorem list_shows {V} (l : list V) : zlen l <= LONG_MAX -> shows (flag_list l) l.
Proof. intros H. split; [assumption|]. split; [reflexivity|]. reflexivity. Qed.

Lemma shows_fun {R} (F : flag R) (Q : Z -> R -> Prop) n : 0 <= n <= LONG_MAX -> f_size F = Ok n ->
  (forall i, 0 <= i < n -> exists r, f_at F i = Ok r /\ Q i r) -> exists l, shows F l /\ zlen l = n /\ forall i r, znth l i = Some r -> Q i r.
Proof.
  intros Hn HS H.
  assert (forall k, Z.of_nat k <= n -> exists l : list R, zlen l = Z.of_nat k /\ forall i, 0 <= i < Z.of_nat k -> exists r, znth l i = Some r /\ f_at F i = Ok r /\ Q i r) as HK.
  { induction k as [|k IH]; intros Hk; [exists []; split; [reflexivity|lia]|]. destruct IH as (l & L & HI); [lia|]. destruct (H (Z.of_nat k)) as (r & E & HQ); [lia|].
    exists (l ++ [r]). rewrite zlen_app, L. split; [cbn; lia|]. intros i Hi. rewrite znth_app by lia. destruct (i <? zlen l) eqn:Ei; [apply HI; lia|].
    replace (i - zlen l) with 0 by lia. exists r. replace i with (Z.of_nat k) by lia. auto. }
  destruct (HK (Z.to_nat n)) as (l & L & HI); [lia|]. exists l. split; [|split; [lia|]].
  - split; [lia|]. split; [rewrite HS; f_equal; lia|]. intros i Hi. destruct (HI i) as (r & E & F1 & _); [lia|]. rewrite F1. symmetry. now apply oget_ok.
  - intros i r Hr. pose proof (znth_lt _ _ _ Hr). destruct (HI i) as (r' & E & _ & HQ); [lia|]. congruence.
Qed.

Theorem elems_show N o : is_view c N o -> exists n l, o_size o = Ok n /\ zlen l = n /\ shows (flag_elems c o) l /\ forall i p, znth l i = Some p -> o_lin c o i = Ok p /\ 0 <= p < N.
Proof.
  intros HV. destruct (view_size c N o HV) as (n & HS & HN). destruct (view_known c N o HV) as [d KO].
  destruct (shows_fun (flag_elems c o) (fun i p => o_lin c o i = Ok p /\ 0 <= p < N) n HN HS) as (l & H1 & H2 & H3).
  - intros i Hi. destruct (lin_known c N o d i n KO HS Hi) as (p & _ & HP & HL). exists p. auto.
  - exists n, l. auto.
Qed.
Theorem rows_show N o : is_view c N o -> is_two o = true -> exists l, zlen l = o_rows o /\ shows (flag_rows c o) l /\
  forall i v, znth l i = Some v -> line_of c N o v (o_cols o) (fun j => (i, j)).
Proof.
  intros HV HT. pose proof (view_dims c N o HV HT) as (B1 & B2 & _).
  destruct (shows_fun (flag_rows c o) (fun i v => line_of c N o v (o_cols o) (fun j => (i, j))) (o_rows o)) as (l & H1 & H2 & H3); [lia|reflexivity| |eauto].
  intros i Hi. destruct (row_thm c N o (Plain i) HV HT) as [HR _]; [cbn; unfold is_long, LONG_MIN, LONG_MAX in *; lia|]. apply HR. exact Hi.
Qed.
Theorem cols_show N o : is_view c N o -> is_two o = true -> exists l, zlen l = o_cols o /\ shows (flag_cols c o) l /\
  forall j v, znth l j = Some v -> line_of c N o v (o_rows o) (fun i => (i, j)).
Proof.
  intros HV HT. pose proof (view_dims c N o HV HT) as (B1 & B2 & _).
  destruct (shows_fun (flag_cols c o) (fun j v => line_of c N o v (o_rows o) (fun i => (i, j))) (o_cols o)) as (l & H1 & H2 & H3); [lia|reflexivity| |eauto].
  intros j Hj. destruct (col_thm c N o (Plain j) HV HT) as [HR _]; [cbn; unfold is_long, LONG_MIN, LONG_MAX in *; lia|]. apply HR. exact Hj.
Qed.

(** ** The plane. *)
Lemma pit_ne_ok i j k l m n : pit_ne c (mkpit i j m n) (mkpit k l m n) = Ok (negb ((i =? k) && (j =? l))).
Proof. unfold pit_ne, pit_eq. cbn [prows pcols pi pj]. rewrite !Z.eqb_refl, !check_debug_true. reflexivity. Qed.
Lemma pit_deref_ok i j m n : i < m -> j < n -> pit_deref c (mkpit i j m n) = Ok (i, j).
Proof. intros H1 H2. unfold pit_deref. cbn [prows pcols pi pj]. replace (i <? m) with true by lia. replace (j <? n) with true by lia. now rewrite !check_debug_true. Qed.
Lemma pit_inc_ok i j m n : 0 <= i < m -> 0 <= j < n -> m <= LONG_MAX -> n <= LONG_MAX ->
  pit_inc c (mkpit i j m n) = Ok (if j + 1 <? n then mkpit i (j + 1) m n else if i + 1 <? m then mkpit (i + 1) 0 m n else mkpit m n m n).
Proof.
  intros Hi Hj Hm Hn. unfold pit_inc. cbn [prows pcols pi pj]. replace (i <? m) with true by lia. replace (j <? n) with true by lia. rewrite !check_debug_true. cbn [bind].
  assert (LONG_MIN < 0) by (unfold LONG_MIN; lia).
  rewrite !lsub_ok, (ladd_ok j 1), (ladd_ok i 1) by lia. cbn [bind oand].
  destruct (Z.ltb_spec (j + 1) n).
  - replace (j =? n - 1) with false by lia. rewrite andb_false_r. replace (j + 1 =? n) with false by lia. rewrite ladd_ok by lia. cbn [bind].
    rewrite lmod_ok; [|lia|rewrite Z.quot_small by lia; unfold LONG_MAX; lia]. cbn [bind]. rewrite Z.rem_small by lia. do 2 f_equal. lia.
  - replace (j =? n - 1) with true by lia. rewrite andb_true_r. destruct (Z.ltb_spec (i + 1) m).
    + replace (i =? m - 1) with false by lia. replace (j + 1 =? n) with true by lia. rewrite ladd_ok by lia. cbn [bind]. replace (j + 1) with n by lia.
      rewrite lmod_ok; [|lia|rewrite Z.quot_same by lia; unfold LONG_MAX; lia]. cbn [bind]. rewrite Z.rem_same by lia. reflexivity.
    + replace (i =? m - 1) with true by lia. do 2 f_equal; lia.
Qed.

Lemma plane_step (i a : Z) (k b : nat) : list_prod (zseq i (S k)) (zseq a b) = map (pair i) (zseq a b) ++ list_prod (zseq (i + 1) k) (zseq a b).
Proof. reflexivity. Qed.

(** The cells still to come from (i, j). *)
Lemma pit_walk_ok m n : 0 < m <= LONG_MAX -> 0 < n <= LONG_MAX -> forall fuel i j, 0 <= i < m -> 0 <= j < n -> (m - i) * n - j < Z.of_nat fuel ->
  pit_walk fuel c (mkpit i j m n) (mkpit m n m n) =
  Ok (map (pair i) (zseq j (Z.to_nat (n - j))) ++ list_prod (zseq (i + 1) (Z.to_nat (m - i - 1))) (zseq 0 (Z.to_nat n))).
Proof.
  intros Hm Hn. induction fuel as [|fuel IH]; intros i j Hi Hj HF.
  { assert (1 * n <= (m - i) * n) by (apply Z.mul_le_mono_nonneg_r; lia). lia. }
  cbn [pit_walk]. rewrite pit_ne_ok. replace (i =? m) with false by lia. cbn [andb negb bind]. rewrite pit_deref_ok by lia. cbn [bind]. rewrite pit_inc_ok by lia. cbn [bind].
  replace (Z.to_nat (n - j)) with (S (Z.to_nat (n - (j + 1)))) by lia. cbn [zseq map app].
  destruct (Z.ltb_spec (j + 1) n).
  - rewrite IH by lia. reflexivity.
  - replace (Z.to_nat (n - (j + 1))) with O by lia. cbn [zseq map app]. destruct (Z.ltb_spec (i + 1) m).
    + rewrite IH by (try lia; replace (m - (i + 1)) with (m - i - 1) by lia; rewrite Z.mul_sub_distr_r; lia). cbn [bind].
      replace (Z.to_nat (m - i - 1)) with (S (Z.to_nat (m - (i + 1) - 1))) by lia. rewrite plane_step. now replace (n - 0) with n by lia.
    + replace (m - i) with 1 in HF by lia. replace (Z.to_nat (m - i - 1)) with O by lia. destruct fuel as [|fuel]; [lia|]. cbn [pit_walk]. rewrite pit_ne_ok, !Z.eqb_refl. reflexivity.
Qed.

Theorem range_thm m n fuel : is_long m -> is_long n ->
  (shape_ok m n -> m * n < Z.of_nat fuel -> range_walk fuel c m n = Ok (plane m n)) /\
  (~ shape_ok m n -> checked c = true -> range_make c m n = Fail (report c)).
Proof.
  intros LM LN. unfold shape_ok, is_long in *. split.
  - intros (H1 & H2 & H3) HF. unfold range_walk, range_make, range_begin, range_end, pit_make. cbn [fst snd]. replace (-1 <? m) with true by lia. replace (-1 <? n) with true by lia.
    replace (semi_valid m n) with true by (unfold semi_valid; lia). rewrite !check_debug_true. cbn [bind fst snd].
    replace (0 <=? m) with true by lia. replace (0 <=? n) with true by lia. rewrite !Z.leb_refl. rewrite !check_debug_true. cbn [bind].
    destruct (Z.eq_dec m 0) as [->|Hm].
    + assert (n = 0) as -> by lia. destruct fuel as [|fuel]; [lia|]. cbn [pit_walk]. rewrite pit_ne_ok. reflexivity.
    + rewrite pit_walk_ok by lia. unfold plane. replace (Z.to_nat m) with (S (Z.to_nat (m - 0 - 1))) by lia. rewrite plane_step. now replace (n - 0) with n by lia.
  - intros HB HC. unfold range_make. destruct (Z.ltb_spec (-1) m); [|now rewrite check_debug_false]. rewrite check_debug_true. cbn [bind].
    destruct (Z.ltb_spec (-1) n); [|now rewrite check_debug_false]. rewrite check_debug_true. cbn [bind].
    replace (semi_valid m n) with false by (unfold semi_valid; lia). now rewrite check_debug_false.
Qed.

Theorem plane_end_thm m n : checked c = true ->
  pit_inc c (mkpit m n m n) = Fail (report c) /\ pit_deref c (mkpit m n m n) = Fail (report c) /\
  (forall i j k l m' n', m <> m' \/ n <> n' -> pit_eq c (mkpit i j m n) (mkpit k l m' n') = Fail (report c) /\
     pit_ne c (mkpit i j m n) (mkpit k l m' n') = Fail (report c) /\ pit_assign c (mkpit i j m n) (mkpit k l m' n') = Fail (report c)).
Proof.
  intros HC. unfold pit_inc, pit_deref, pit_ne, pit_eq, pit_assign. cbn [pi pj prows pcols]. replace (m <? m) with false by lia. rewrite check_debug_false by assumption. cbn [bind].
  split; [reflexivity|]. split; [reflexivity|]. intros i j k l m' n' H. destruct (Z.eqb_spec m m').
  - replace (n =? n') with false by lia. rewrite check_debug_true. cbn [bind]. rewrite check_debug_false by assumption. auto.
  - rewrite check_debug_false by assumption. auto.
Qed.
End C.

Lemma plane_in m n i j : In (i, j) (plane m n) <-> 0 <= i < m /\ 0 <= j < n.
Proof. unfold plane. rewrite in_prod_iff, !in_zseq. lia. Qed.
Lemma plane_nth m n i j : 0 <= i < m -> 0 <= j < n -> znth (plane m n) (i * n + j) = Some (i, j).
Proof.
  unfold plane. intros Hi Hj. enough (forall k s i, 0 <= i < Z.of_nat k -> znth (list_prod (zseq s k) (zseq 0 (Z.to_nat n))) (i * n + j) = Some (s + i, j)) as H by (apply (H _ 0 i); lia).
  clear m i Hi. induction k as [|k IH]; intros s i Hi; [lia|]. rewrite plane_step. rewrite znth_app. 2:{ assert (0 <= i * n) by (apply Z.mul_nonneg_nonneg; lia). lia. }
  rewrite zlen_map, zlen_zseq. destruct (Z.eq_dec i 0) as [->|Hne].
  - replace (0 * n + j <? Z.of_nat (Z.to_nat n)) with true by lia. rewrite znth_map, znth_zseq by lia. cbn [option_map]. do 2 f_equal; lia.
  - assert (1 * n <= i * n) by (apply Z.mul_le_mono_nonneg_r; lia). replace (i * n + j <? Z.of_nat (Z.to_nat n)) with false by lia.
    replace (i * n + j - Z.of_nat (Z.to_nat n)) with ((i - 1) * n + j) by (rewrite Z.mul_sub_distr_r; lia). rewrite IH by lia. do 2 f_equal. lia.
Qed.
Theorem plane_thm m n : 0 <= m -> 0 <= n -> zlen (plane m n) = m * n /\ NoDup (plane m n) /\
  (forall i j, In (i, j) (plane m n) <-> 0 <= i < m /\ 0 <= j < n) /\ (forall i j, 0 <= i < m -> 0 <= j < n -> znth (plane m n) (i * n + j) = Some (i, j)).
Proof.
  intros Hm Hn. split; [|split; [|split; [apply plane_in|apply plane_nth]]].
  - unfold plane, zlen. rewrite prod_length, !zseq_length. nia.
  - unfold plane. generalize (NoDup_zseq 0 (Z.to_nat m)), (NoDup_zseq 0 (Z.to_nat n)). generalize (zseq 0 (Z.to_nat m)), (zseq 0 (Z.to_nat n)). intros a b Ha Hb.
    induction Ha as [|x a Hx Ha IH]; cbn [list_prod]; [constructor|]. assert (NoDup (map (pair x) b)) as HM.
    { apply Injective_map_NoDup; [|assumption]. intros u v E. now injection E. }
    revert HM. assert (forall q, In q (map (pair x) b) -> ~ In q (list_prod a b)) as HD.
    { intros q Hq Hi. apply in_map_iff in Hq as (y & <- & _). apply in_prod_iff in Hi. tauto. }
    revert HD. induction (map (pair x) b) as [|u v IHv]; cbn [app]; intros HD HM; [assumption|]. inversion HM; subst. constructor.
    + rewrite in_app_iff. intros [?|?]; [contradiction|]. apply (HD u); [now left|assumption].
    + apply IHv; [|assumption]. intros q Hq. apply HD. now right.
Qed.
