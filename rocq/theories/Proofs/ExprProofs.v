(** Array expressions: every combinator, then whole expression trees. *)
From Verif Require Import Base.Outcome Base.ZList Model.IntModel Model.ScalarOps Model.Index Model.Slice Model.Array1D Model.Array2D Model.View2D Model.Expr.
From Verif Require Import Spec.ArraySpec Spec.SliceSpec Spec.MatrixSpec Spec.Matrix2Spec Spec.View2DSpec Spec.ExprSpec.
From Verif Require Import Proofs.ScalarProofs Proofs.Array1DProofs Proofs.SliceProofs Proofs.ViewProofs Proofs.SliceThms Proofs.MatrixProofs Proofs.Array2DProofs Proofs.Array2DSim Proofs.View2DProofs Proofs.View2DOps Proofs.View2DThms.
Ltac Zify.zify_post_hook ::= Z.div_mod_to_equations.

(** ** Elements of lists *)
Lemma elt_map {V W} (f : outcome V -> outcome W) l i : 0 <= i < zlen l -> elt (map f l) i = f (elt l i).
Proof. intros H. unfold elt. rewrite znth_map. destruct (znth_some l i H) as [v E]. now rewrite E. Qed.
Lemma elt_gen {V} (g : Z -> outcome V) n i : 0 <= i < n -> elt (map g (zseq 0 (Z.to_nat n))) i = g i.
Proof. intros H. unfold elt. rewrite znth_map_zseq by lia. now replace (0 + i) with i by lia. Qed.
Lemma elt_app {V} (l k : list (outcome V)) i : 0 <= i -> elt (l ++ k) i = if i <? zlen l then elt l i else elt k (i - zlen l).
Proof. intros H. unfold elt. rewrite znth_app by lia. now destruct (i <? zlen l). Qed.
Lemma zlen_zip {U V W} (f : U -> V -> outcome W) l : forall k, zlen (zip f l k) = Z.min (zlen l) (zlen k).
Proof.
  induction l as [|u l IH]; intros [|v k]; cbn [zip]; rewrite ?zlen_cons, ?IH; unfold zlen; cbn [length]; lia.
Qed.
Lemma znth_zip {U V W} (f : U -> V -> outcome W) l : forall k i u v, znth l i = Some u -> znth k i = Some v -> znth (zip f l k) i = Some (both f u v).
Proof.
  induction l as [|u0 l IH]; intros [|v0 k] i u v E1 E2; rewrite ?znth_nil in *; try discriminate. cbn [zip].
  pose proof (znth_lt _ _ _ E1) as Hi. destruct (Z.eq_dec i 0) as [->|Hne].
  - rewrite znth_cons_0 in E1. rewrite znth_cons_0 in E2. rewrite znth_cons_0. congruence.
  - rewrite znth_cons_pos in E1 by lia. rewrite znth_cons_pos in E2 by lia. rewrite znth_cons_pos by lia. now apply IH.
Qed.
Lemma elt_zip {U V W} (f : U -> V -> outcome W) l k i : 0 <= i < zlen l -> i < zlen k -> elt (zip f l k) i = both f (elt l i) (elt k i).
Proof.
  intros H1 H2. destruct (znth_some l i H1) as [u E1]. destruct (znth_some k i) as [v E2]; [lia|]. unfold elt. now rewrite E1, E2, (znth_zip f l k i u v).
Qed.
Lemma list_ext_elt {V} (l k : list (outcome V)) : zlen l = zlen k -> (forall i, 0 <= i < zlen l -> elt l i = elt k i) -> l = k.
Proof.
  intros HL H. apply list_ext_zlen; [assumption|]. intros i Hi. specialize (H i Hi). unfold elt in H.
  destruct (znth_some l i Hi) as [u E1]. destruct (znth_some k i) as [v E2]; [lia|]. rewrite E1, E2 in *. congruence.
Qed.
Lemma yields_self {V} (A : src1 V) : 0 <= ssize A <= LONG_MAX -> yields A (map (sun A) (zseq 0 (Z.to_nat (ssize A)))).
Proof.
  intros H. unfold yields. rewrite zlen_map, zlen_zseq. split; [lia|]. split; [lia|]. intros i Hi. rewrite elt_gen by lia. reflexivity.
Qed.
Lemma yields_list {V} (l : list V) : zlen l <= LONG_MAX -> yields (src_of_list l) (map Ok l).
Proof.
  intros H. unfold yields. rewrite zlen_map. split; [reflexivity|]. split; [assumption|]. intros i Hi. unfold elt, src_of_list, oget. cbn.
  rewrite znth_map. unfold oget. now destruct (znth_some l i Hi) as [v ->].
Qed.
Lemma yields_ext {V} (A : src1 V) l k : yields A l -> zlen l = zlen k -> (forall i, 0 <= i < zlen l -> elt l i = elt k i) -> yields A k.
Proof. intros H1 H2 H3. now rewrite <- (list_ext_elt l k). Qed.

(** ** One-dimensional combinators *)
Section One.
Context (c : cfg).
Lemma un_ok {V W} (f : V -> outcome W) A l : yields A l -> yields (x_un f A) (map (fun v => bind v f) l).
Proof.
  intros (E & HL & HU). unfold yields. rewrite zlen_map. split; [exact E|]. split; [exact HL|]. intros i Hi.
  rewrite elt_map by assumption. cbn. now rewrite HU.
Qed.
Lemma un_id {V} (A : src1 V) l : yields A l -> yields (x_un Ok A) l.
Proof.
  intros H. apply un_ok with (f := Ok) in H. eapply yields_ext; [exact H|now rewrite zlen_map|]. rewrite zlen_map. intros i Hi.
  rewrite elt_map by assumption. destruct (elt l i); reflexivity.
Qed.
Lemma bin_ok {U V W} (f : U -> V -> outcome W) A B l k : yields A l -> yields B k -> zlen l = zlen k ->
  exists R, x_bin c f A B = Ok R /\ yields R (zip f l k).
Proof.
  intros (EA & HA & UA) (EB & HB & UB) HL. unfold x_bin. rewrite EA, EB. replace (zlen l =? zlen k) with true by lia. rewrite check_debug_true. cbn [bind].
  eexists. split; [reflexivity|]. unfold yields. cbn. rewrite zlen_zip. split; [lia|]. split; [lia|]. intros i Hi.
  rewrite elt_zip, UA, UB by lia. reflexivity.
Qed.
Lemma bin_bad {U V W} (f : U -> V -> outcome W) A B l k : yields A l -> yields B k -> zlen l <> zlen k -> checked c = true -> x_bin c f A B = Fail (report c).
Proof.
  intros (EA & _) (EB & _) HL HC. unfold x_bin. rewrite EA, EB. replace (zlen l =? zlen k) with false by lia. now rewrite check_debug_false.
Qed.
Lemma gen_ok {V} (g : Z -> outcome V) n : 0 <= n <= LONG_MAX -> exists R, x_gen c n g = Ok R /\ yields R (map g (zseq 0 (Z.to_nat n))).
Proof.
  intros H. unfold x_gen, x_irange, x_seq. replace (-1 <? n) with true by lia. rewrite check_debug_true. cbn [bind]. eexists. split; [reflexivity|].
  unfold yields. rewrite zlen_map, zlen_zseq. cbn [x_un ssize sun]. split; [lia|]. split; [lia|]. intros i Hi. cbn [bind].
  rewrite lmul_ok by (unfold LONG_MIN; lia). cbn [bind]. rewrite ladd_ok by (unfold LONG_MIN; lia). cbn [bind]. rewrite elt_gen by lia. f_equal. lia.
Qed.
Lemma gen_bad {V} (g : Z -> outcome V) n : n < 0 -> checked c = true -> x_gen c n g = Fail (report c).
Proof. intros H HC. unfold x_gen, x_irange, x_seq. replace (-1 <? n) with false by lia. now rewrite check_debug_false. Qed.
Lemma gen_list {V} (g : Z -> outcome V) n l : n = zlen l -> zlen l <= LONG_MAX -> (forall i, 0 <= i < zlen l -> g i = elt l i) ->
  exists R, x_gen c n g = Ok R /\ yields R l.
Proof.
  intros -> HL HG. pose proof (zlen_nonneg l). destruct (gen_ok g (zlen l)) as (R & E & Y); [lia|]. exists R. split; [exact E|].
  eapply yields_ext; [exact Y| |]; rewrite zlen_map, zlen_zseq; [lia|]. intros i Hi. rewrite elt_gen by lia. apply HG. lia.
Qed.
Lemma const1_ok {V} (x : V) n : 0 <= n <= LONG_MAX -> exists R, x_const1 c n x = Ok R /\ yields R (repeat (Ok x) (Z.to_nat n)).
Proof.
  intros H. unfold x_const1. replace (-1 <? n) with true by lia. rewrite check_debug_true. cbn [bind]. apply gen_list; rewrite zlen_repeat; try lia.
  intros i Hi. unfold elt. now rewrite znth_repeat by lia.
Qed.
Lemma yields_len {V} (A : src1 V) l : yields A l -> 0 <= ssize A <= LONG_MAX /\ ssize A = zlen l.
Proof. intros (E & H & _). pose proof (zlen_nonneg l). lia. Qed.
Lemma elt_repeat {V} (v : outcome V) n i : 0 <= i < n -> elt (repeat v (Z.to_nat n)) i = v.
Proof. intros H. unfold elt. now rewrite znth_repeat by lia. Qed.
Lemma scal_r_ok {U V W} (f : U -> V -> outcome W) A l x : yields A l -> exists R, x_scal_r c f A x = Ok R /\ yields R (map (fun u => both f u (Ok x)) l).
Proof.
  intros H. pose proof (yields_len A l H) as [B E]. unfold x_scal_r. destruct (const1_ok x (ssize A) B) as (C & E1 & Y1). rewrite E1. cbn [bind].
  destruct (bin_ok f A C l _ H Y1) as (R & E2 & Y2); [rewrite zlen_repeat; lia|]. exists R. split; [exact E2|].
  eapply yields_ext; [exact Y2| |]; rewrite zlen_zip, zlen_repeat by lia; rewrite ?zlen_map; try lia. intros i Hi.
  rewrite elt_zip by (rewrite ?zlen_repeat; lia). rewrite elt_repeat, elt_map by lia. reflexivity.
Qed.
Lemma scal_l_ok {U V W} (f : U -> V -> outcome W) A l x : yields A l -> exists R, x_scal_l c f x A = Ok R /\ yields R (map (fun v => both f (Ok x) v) l).
Proof.
  intros H. pose proof (yields_len A l H) as [B E]. unfold x_scal_l. destruct (const1_ok x (ssize A) B) as (C & E1 & Y1). rewrite E1. cbn [bind].
  destruct (bin_ok f C A _ l Y1 H) as (R & E2 & Y2); [rewrite zlen_repeat; lia|]. exists R. split; [exact E2|].
  eapply yields_ext; [exact Y2| |]; rewrite zlen_zip, zlen_repeat by lia; rewrite ?zlen_map; try lia. intros i Hi.
  rewrite elt_zip by (rewrite ?zlen_repeat; lia). rewrite elt_repeat, elt_map by lia. reflexivity.
Qed.
Lemma merge_step {V} (A E : src1 V) l k : yields A l -> yields E k -> zlen l + zlen k <= LONG_MAX ->
  exists R, (n <- ladd (ssize A) (ssize E) ;;
             x_gen c n (fun i => if i <? ssize A then sun A i else j <- lsub i (ssize A) ;; sun E j)) = Ok R /\ yields R (l ++ k).
Proof.
  intros (EA & HA & UA) (EB & HB & UB) HL. pose proof (zlen_nonneg l). pose proof (zlen_nonneg k).
  rewrite EA, EB, ladd_ok by (unfold LONG_MIN; lia). cbn [bind]. apply gen_list; rewrite zlen_app; try lia.
  intros i Hi. rewrite elt_app by lia. destruct (Z.ltb_spec i (zlen l)); [apply UA; lia|]. rewrite lsub_ok by (unfold LONG_MIN; lia). cbn [bind]. apply UB. lia.
Qed.
Lemma merge_ok {V} (A B : src1 V) l k : yields A l -> yields B k -> zlen l + zlen k <= LONG_MAX -> exists R, x_merge c A B = Ok R /\ yields R (l ++ k).
Proof. intros HA HB HL. exact (merge_step (x_un Ok A) (x_un Ok B) l k (un_id _ _ HA) (un_id _ _ HB) HL). Qed.
Lemma merge_back_ok {V} (A : src1 V) l x : yields A l -> zlen l < LONG_MAX -> exists R, x_merge_back c A x = Ok R /\ yields R (l ++ [Ok x]).
Proof.
  intros HA HL. unfold x_merge_back. destruct (un_id A l HA) as (E & _ & UA). rewrite E. pose proof (zlen_nonneg l). rewrite ladd_ok by (unfold LONG_MIN; lia). cbn [bind].
  apply gen_list; rewrite zlen_app, zlen_cons; change (zlen (@nil (outcome V))) with 0; try lia.
  intros i Hi. rewrite elt_app by lia. destruct (Z.eqb_spec i (zlen l)) as [->|Hne].
  - rewrite Z.ltb_irrefl, Z.sub_diag. reflexivity.
  - replace (i <? zlen l) with true by lia. apply UA. lia.
Qed.
Lemma merge_front_ok {V} (A : src1 V) l x : yields A l -> zlen l < LONG_MAX -> exists R, x_merge_front c x A = Ok R /\ yields R (Ok x :: l).
Proof.
  intros HA HL. unfold x_merge_front. destruct (un_id A l HA) as (E & _ & UA). rewrite E. pose proof (zlen_nonneg l). rewrite ladd_ok by (unfold LONG_MIN; lia). cbn [bind].
  apply gen_list; rewrite zlen_cons; try lia. intros i Hi. destruct (Z.eqb_spec i 0) as [->|Hne]; [reflexivity|].
  rewrite lsub_ok by (unfold LONG_MIN; lia). cbn [bind]. rewrite UA by lia. unfold elt. now rewrite znth_cons_pos by lia.
Qed.
Lemma exclude_ok {V} (A : src1 V) l pos count : yields A l -> 0 < count -> 0 <= pos -> pos + count <= zlen l ->
  exists R, x_exclude c A pos count = Ok R /\ yields R (firstn (Z.to_nat pos) l ++ skipn (Z.to_nat (pos + count)) l).
Proof.
  intros HA H1 H2 H3. unfold x_exclude. pose proof HA as (E & HL & _). destruct (un_id A l HA) as (_ & _ & UA). rewrite E.
  unfold valid_index. replace (0 <? count) with true by lia. replace ((-1 <? pos) && (pos <? zlen l)) with true by lia.
  rewrite ladd_ok by (unfold LONG_MIN; lia). cbn [bind]. rewrite lsub_ok by (unfold LONG_MIN; lia). cbn [bind].
  replace ((-1 <? pos + count - 1) && (pos + count - 1 <? zlen l)) with true by lia. rewrite !check_debug_true. cbn [bind].
  rewrite lsub_ok by (unfold LONG_MIN; lia). cbn [bind].
  assert (zlen (firstn (Z.to_nat pos) l ++ skipn (Z.to_nat (pos + count)) l) = zlen l - count) as EL by (rewrite zlen_app, zlen_firstn, zlen_skipn; lia).
  apply gen_list; rewrite EL; try lia. intros j Hj. rewrite elt_app, zlen_firstn by lia. destruct (Z.ltb_spec j pos).
  - rewrite UA by lia. unfold elt. rewrite znth_firstn by lia. now replace (j <? pos) with true by lia.
  - rewrite ladd_ok by (unfold LONG_MIN; lia). cbn [bind]. rewrite UA by lia. unfold elt. rewrite znth_skipn by lia. now replace (j - pos + (pos + count)) with (j + count) by lia.
Qed.
Lemma exclude_bad {V} (A : src1 V) l pos count : yields A l -> is_long pos -> is_long count -> pos + count <= LONG_MAX ->
  ~ (0 < count /\ 0 <= pos /\ pos + count <= zlen l) -> checked c = true -> x_exclude c A pos count = Fail (report c).
Proof.
  intros (E & HL & _) Lp Lc HO HB HC. unfold x_exclude. rewrite E. destruct (Z.ltb_spec 0 count); [|now rewrite check_debug_false]. rewrite check_debug_true. cbn [bind].
  unfold valid_index. destruct (Z.ltb_spec (-1) pos); [|cbn [andb]; now rewrite check_debug_false].
  destruct (Z.ltb_spec pos (zlen l)); [|cbn [andb]; now rewrite check_debug_false]. cbn [andb]. rewrite check_debug_true. cbn [bind].
  rewrite ladd_ok by (unfold LONG_MIN; lia). cbn [bind]. rewrite lsub_ok by (unfold LONG_MIN; lia). cbn [bind].
  replace ((-1 <? pos + count - 1) && (pos + count - 1 <? zlen l)) with false by lia. now rewrite check_debug_false.
Qed.
Lemma removelast_firstn {X} (l : list X) : removelast l = firstn (length l - 1) l.
Proof. rewrite removelast_firstn_len. f_equal. lia. Qed.
Lemma exclude_last_ok {V} (A : src1 V) l k : yields A l -> 0 < zlen l -> exists R, x_exclude_last c A k = Ok R /\ yields R (removelast l).
Proof.
  intros HA H. pose proof HA as (E & HL & _). unfold x_exclude_last. rewrite E, lsub_ok by (unfold LONG_MIN; lia). cbn [bind].
  destruct (exclude_ok A l (zlen l - 1) 1 HA) as (R & E1 & Y); try lia. exists R. split; [exact E1|].
  rewrite (skipn_all2 l) in Y by (unfold zlen in *; lia). rewrite app_nil_r in Y. rewrite removelast_firstn.
  now replace (length l - 1)%nat with (Z.to_nat (zlen l - 1)) by (unfold zlen in *; lia).
Qed.
Lemma exclude_last_bad {V} (A : src1 V) l k : yields A l -> ~ 0 < zlen l -> checked c = true -> x_exclude_last c A k = Fail (report c).
Proof.
  intros HA H HC. pose proof HA as (E & HL & _). unfold x_exclude_last. pose proof (zlen_nonneg l). rewrite E, lsub_ok by (unfold LONG_MIN, LONG_MAX; lia). cbn [bind].
  apply (exclude_bad A l); auto; unfold is_long, LONG_MIN, LONG_MAX in *; lia.
Qed.
End One.

(** ** Two-dimensional combinators *)
Lemma mlin_at {V} (M : mx V) i j : 0 <= i -> 0 <= j < mc M -> mlin M (i * mc M + j) = mel M i j.
Proof.
  intros Hi Hj. unfold mlin. f_equal.
  - rewrite Z.div_add_l by lia. rewrite Z.div_small by lia. lia.
  - rewrite Z.add_comm, Z.mod_add by lia. now apply Z.mod_small.
Qed.
Lemma yields2_lin {V} (A : src2 V) M p : yields2 A M -> 0 <= p < mr M * mc M -> s2lin A p = mlin M p.
Proof.
  intros (_ & _ & H1 & H2 & _ & _ & _ & HL) Hp. assert (0 < mc M) by nia. destruct (addr_div (mr M) (mc M) p) as (i & j & Hi & Hj & ->); try lia.
  rewrite HL by lia. now rewrite mlin_at by lia.
Qed.
Lemma index_map_ok c n i j : 0 <= i -> 0 <= j < n -> i * n + j <= LONG_MAX -> index_map_one_to_two c n (i * n + j) = Ok (i, j).
Proof.
  intros Hi Hj HB. assert (0 <= i * n) by nia. unfold index_map_one_to_two.
  assert (Z.quot (i * n + j) n = i) as EQ. { rewrite Z.quot_div_nonneg by lia. rewrite Z.div_add_l by lia. rewrite Z.div_small by lia. lia. }
  assert (Z.rem (i * n + j) n = j) as ER. { rewrite Z.rem_mod_nonneg by lia. rewrite Z.add_comm, Z.mod_add by lia. now apply Z.mod_small. }
  assert (i <= i * n) by nia.
  rewrite ldiv_ok by (rewrite ?EQ; unfold LONG_MIN, LONG_MAX in *; lia). rewrite lmod_ok by (rewrite ?EQ; unfold LONG_MIN, LONG_MAX in *; lia). cbn [bind]. now rewrite EQ, ER.
Qed.
Definition sized {V} (M : mx V) : Prop := 0 <= mr M <= LONG_MAX /\ 0 <= mc M <= LONG_MAX /\ mr M * mc M <= LONG_MAX.
Lemma yields2_sized {V} (A : src2 V) M : yields2 A M -> sized M.
Proof. unfold yields2, sized. tauto. Qed.
Lemma addr_max m n i j : 0 <= i < m -> 0 <= j < n -> m * n <= LONG_MAX -> 0 <= i * n <= LONG_MAX /\ 0 <= i * n + j <= LONG_MAX.
Proof. intros. pose proof (addr_range m n i j). nia. Qed.
Section Two.
Context (c : cfg).
Lemma index2_ok {V} m n (op : Z -> Z -> outcome V) : 0 <= m <= LONG_MAX -> 0 <= n <= LONG_MAX -> m * n <= LONG_MAX ->
  exists R, x_index2 c m n op = Ok R /\ yields2 R (mkmx m n op).
Proof.
  intros Hm Hn HP. assert (0 <= m * n) by nia. unfold x_index2. replace (-1 <? m) with true by lia. replace (-1 <? n) with true by lia. rewrite !check_debug_true. cbn [bind].
  rewrite lmul_ok by (unfold LONG_MIN; lia). cbn [bind]. eexists. split; [reflexivity|]. unfold yields2. cbn [s2rows s2cols s2size s2un s2lin mr mc mel].
  repeat split; try lia. intros i j Hi Hj. pose proof (addr_max m n i j Hi Hj HP). rewrite index_map_ok by lia. reflexivity.
Qed.
Lemma index2_bad {V} m n (op : Z -> Z -> outcome V) : ~ (0 <= m /\ 0 <= n) -> checked c = true -> x_index2 c m n op = Fail (report c).
Proof.
  intros H HC. unfold x_index2. destruct (Z.ltb_spec (-1) m); [|now rewrite check_debug_false]. rewrite check_debug_true. cbn [bind].
  replace (-1 <? n) with false by lia. now rewrite check_debug_false.
Qed.
Lemma un2_ok {V W} (f : V -> outcome W) A M : yields2 A M -> yields2 (x_un2 f A) (mkmx (mr M) (mc M) (fun i j => bind (mel M i j) f)).
Proof.
  intros (E1 & E2 & B1 & B2 & E3 & B3 & H1 & H2). unfold yields2. cbn [x_un2 s2rows s2cols s2size s2un s2lin mr mc mel]. repeat split; auto; try lia.
  - intros i j Hi Hj. now rewrite H1.
  - intros i j Hi Hj. now rewrite H2.
Qed.
Lemma bind_ok_r {V} (v : outcome V) : bind v Ok = v.
Proof. destruct v; reflexivity. Qed.
Lemma yields2_ext {V} (A : src2 V) M N : yields2 A M -> mr M = mr N -> mc M = mc N -> (forall i j, 0 <= i < mr M -> 0 <= j < mc M -> mel M i j = mel N i j) -> yields2 A N.
Proof.
  intros (E1 & E2 & B1 & B2 & E3 & B3 & H1 & H2) HR HC HE. unfold yields2. rewrite <- HR, <- HC. repeat split; auto; try lia.
  - intros i j Hi Hj. rewrite <- HE by lia. auto.
  - intros i j Hi Hj. rewrite <- HE by lia. auto.
Qed.
Lemma un2_id {V} (A : src2 V) M : yields2 A M -> yields2 (x_un2 Ok A) M.
Proof. intros H. eapply yields2_ext; [apply un2_ok, H|reflexivity|reflexivity|]. intros. cbn [mel]. apply bind_ok_r. Qed.
Lemma bin2_ok {U V W} (f : U -> V -> outcome W) A B M N : yields2 A M -> yields2 B N -> mr M = mr N -> mc M = mc N ->
  exists R, x_bin2 c f A B = Ok R /\ yields2 R (mkmx (mr M) (mc M) (fun i j => both f (mel M i j) (mel N i j))).
Proof.
  intros (E1 & E2 & B1 & B2 & E3 & B3 & H1 & H2) (F1 & F2 & C1 & C2 & F3 & C3 & K1 & K2) HR HC. unfold x_bin2, same_size2. rewrite E1, E2, F1, F2.
  replace ((mr M =? mr N) && (mc M =? mc N)) with true by lia. rewrite check_debug_true. cbn [bind]. eexists. split; [reflexivity|].
  unfold yields2. cbn [s2rows s2cols s2size s2un s2lin mr mc mel]. repeat split; auto; try lia.
  - intros i j Hi Hj. rewrite H1, K1 by lia. reflexivity.
  - intros i j Hi Hj. rewrite H2 by lia. rewrite HC, K2 by lia. reflexivity.
Qed.
Lemma bin2_bad {U V W} (f : U -> V -> outcome W) A B M N : yields2 A M -> yields2 B N -> ~ (mr M = mr N /\ mc M = mc N) -> checked c = true -> x_bin2 c f A B = Fail (report c).
Proof.
  intros (E1 & E2 & _) (F1 & F2 & _) HN HC. unfold x_bin2, same_size2. rewrite E1, E2, F1, F2.
  replace ((mr M =? mr N) && (mc M =? mc N)) with false by lia. now rewrite check_debug_false.
Qed.
Lemma gen2_ok {V} (g : Z -> outcome V) (M : mx V) : sized M -> (forall i j, 0 <= i < mr M -> 0 <= j < mc M -> g (i * mc M + j) = mel M i j) ->
  exists R, x_gen2 c (mr M) (mc M) g = Ok R /\ yields2 R M.
Proof.
  intros (B1 & B2 & B3) HG. unfold x_gen2, x_irange2. set (op := fun i j => p <- lmul i (mc M) ;; ladd p j).
  destruct (index2_ok (mr M) (mc M) op) as (R & E & Y); try lia. rewrite E. cbn [bind]. eexists. split; [reflexivity|].
  eapply yields2_ext; [apply un2_ok, Y|reflexivity|reflexivity|]. cbn [mr mc mel]. intros i j Hi Hj. rewrite <- HG by lia. unfold op.
  pose proof (addr_max _ _ i j Hi Hj B3). rewrite lmul_ok by (unfold LONG_MIN; lia). cbn [bind]. rewrite ladd_ok by (unfold LONG_MIN; lia). reflexivity.
Qed.
Lemma semi_valid_spec m n : semi_valid m n = true <-> (m = 0 <-> n = 0).
Proof. unfold semi_valid. destruct (Z.eqb_spec m 0), (Z.eqb_spec n 0); cbn; intuition (try lia; try discriminate). Qed.
Lemma const2_ok {V} (x : V) m n : 0 <= m -> 0 <= n -> (m = 0 <-> n = 0) -> m <= LONG_MAX -> n <= LONG_MAX -> m * n <= LONG_MAX ->
  exists R, x_const2 c m n x = Ok R /\ yields2 R (mkmx m n (fun _ _ => Ok x)).
Proof.
  intros Hm Hn HZ B1 B2 B3. unfold x_const2. replace (-1 <? m) with true by lia. replace (-1 <? n) with true by lia.
  rewrite (proj2 (semi_valid_spec m n) HZ). rewrite !check_debug_true. cbn [bind].
  apply (gen2_ok (fun _ => Ok x) (mkmx m n (fun _ _ => Ok x))); [unfold sized; cbn; lia|reflexivity].
Qed.
Lemma const2_bad {V} (x : V) m n : ~ (0 <= m /\ 0 <= n /\ (m = 0 <-> n = 0)) -> checked c = true -> x_const2 c m n x = Fail (report c).
Proof.
  intros H HC. unfold x_const2. destruct (Z.ltb_spec (-1) m); [|now rewrite check_debug_false]. destruct (Z.ltb_spec (-1) n); [|rewrite check_debug_true; cbn [bind]; now rewrite check_debug_false].
  destruct (semi_valid m n) eqn:E; [apply semi_valid_spec in E; lia|]. rewrite check_debug_true. cbn [bind]. now rewrite check_debug_false.
Qed.
Lemma scal2_r_ok {U V W} (f : U -> V -> outcome W) A M x : yields2 A M -> plump M ->
  exists R, x_scal2_r c f A x = Ok R /\ yields2 R (mkmx (mr M) (mc M) (fun i j => both f (mel M i j) (Ok x))).
Proof.
  intros H HP. pose proof H as (E1 & E2 & B1 & B2 & E3 & B3 & _). unfold x_scal2_r. rewrite E1, E2. destruct (const2_ok x (mr M) (mc M)) as (B & EB & YB); try lia; [exact HP|].
  rewrite EB. cbn [bind]. exact (bin2_ok f A B M _ H YB eq_refl eq_refl).
Qed.
Lemma scal2_l_ok {U V W} (f : U -> V -> outcome W) A M x : yields2 A M -> plump M ->
  exists R, x_scal2_l c f x A = Ok R /\ yields2 R (mkmx (mr M) (mc M) (fun i j => both f (Ok x) (mel M i j))).
Proof.
  intros H HP. pose proof H as (E1 & E2 & B1 & B2 & E3 & B3 & _). unfold x_scal2_l. rewrite E1, E2. destruct (const2_ok x (mr M) (mc M)) as (B & EB & YB); try lia; [exact HP|].
  rewrite EB. cbn [bind]. exact (bin2_ok f B A _ M YB H eq_refl eq_refl).
Qed.
Lemma scal2_bad {U V W} (f : U -> V -> outcome W) A M x : yields2 A M -> ~ plump M -> checked c = true -> x_scal2_r c f A x = Fail (report c).
Proof.
  intros H HP HC. pose proof H as (E1 & E2 & B1 & B2 & E3 & B3 & _). unfold x_scal2_r. rewrite E1, E2. rewrite const2_bad; auto. unfold plump in HP. tauto.
Qed.
Lemma scal2_l_bad {U V W} (f : U -> V -> outcome W) A M x : yields2 A M -> ~ plump M -> checked c = true -> x_scal2_l c f x A = Fail (report c).
Proof.
  intros H HP HC. pose proof H as (E1 & E2 & B1 & B2 & E3 & B3 & _). unfold x_scal2_l. rewrite E1, E2. rewrite const2_bad; auto. unfold plump in HP. tauto.
Qed.
Lemma transpose_ok {V} (A : src2 V) M : yields2 A M -> exists R, x_transpose c A = Ok R /\ yields2 R (mkmx (mc M) (mr M) (fun i j => mel M j i)).
Proof.
  intros (E1 & E2 & B1 & B2 & E3 & B3 & H1 & H2). unfold x_transpose. rewrite E1, E2. destruct (index2_ok (mc M) (mr M) (fun i j => s2un A j i)) as (R & E & Y); try lia.
  exists R. split; [exact E|]. eapply yields2_ext; [exact Y|reflexivity|reflexivity|]. cbn [mr mc mel]. intros i j Hi Hj. apply H1; lia.
Qed.
Lemma broadcast_ok {V} r (A : src1 V) l : yields A l -> zlen l * zlen l <= LONG_MAX ->
  exists R, x_broadcast c r A = Ok R /\ yields2 R (mkmx (zlen l) (zlen l) (fun i j => elt l (if r then j else i))).
Proof.
  intros (E & HL & HU) HP. pose proof (zlen_nonneg l). unfold x_broadcast. rewrite E, lmul_ok by (unfold LONG_MIN; nia). cbn [bind]. eexists. split; [reflexivity|].
  unfold yields2. cbn [s2rows s2cols s2size s2un s2lin mr mc mel]. repeat split; try lia.
  - intros i j Hi Hj. destruct r; apply HU; lia.
  - intros i j Hi Hj. pose proof (addr_max _ _ i j Hi Hj HP). rewrite index_map_ok by lia. cbn [bind fst snd]. destruct r; apply HU; lia.
Qed.
Lemma tensor_ok {U V W} (mul : U -> V -> outcome W) A B l k : yields A l -> yields B k -> zlen l * zlen k <= LONG_MAX ->
  exists R, x_tensor c mul A B = Ok R /\ yields2 R (mkmx (zlen l) (zlen k) (fun i j => both mul (elt l i) (elt k j))).
Proof.
  intros (E & HL & HU) (F & HK & KU) HP. pose proof (zlen_nonneg l). pose proof (zlen_nonneg k). unfold x_tensor. rewrite E, F, lmul_ok by (unfold LONG_MIN; nia). cbn [bind]. eexists. split; [reflexivity|].
  unfold yields2. cbn [s2rows s2cols s2size s2un s2lin mr mc mel]. repeat split; try lia.
  - intros i j Hi Hj. rewrite HU, KU by lia. reflexivity.
  - intros i j Hi Hj. pose proof (addr_max _ _ i j Hi Hj HP). rewrite index_map_ok by lia. cbn [bind fst snd]. rewrite HU, KU by lia. reflexivity.
Qed.
End Two.
