(** Views whose slice arguments name no element twice have pairwise different elements. *)
From Verif Require Import Base.Outcome Base.ZList Model.IntModel Model.ScalarOps Model.Index Model.Slice Model.Array1D Model.Array2D Model.View2D.
From Verif Require Import Spec.ArraySpec Spec.SliceSpec Spec.MatrixSpec Spec.Matrix2Spec Spec.View2DSpec Spec.SortSpec.
From Verif Require Import Proofs.ScalarProofs Proofs.Array1DProofs Proofs.SliceProofs Proofs.ViewProofs Proofs.SliceThms Proofs.MatrixProofs Proofs.Array2DProofs Proofs.Array2DSim Proofs.View2DProofs Proofs.View2DOps Proofs.View2DThms.
Ltac Zify.zify_post_hook ::= Z.div_mod_to_equations.

Lemma nodup_app {A} (l k : list A) : NoDup (l ++ k) <-> NoDup l /\ NoDup k /\ forall x, In x l -> In x k -> False.
Proof.
  induction l as [|a l IH]; cbn; [split; [intros H; repeat split; auto; constructor|tauto]|]. rewrite !NoDup_cons_iff, IH, in_app_iff. split.
  - intros (H1 & H2 & H3 & H4). split; [tauto|]. split; [assumption|]. intros x [<-|Hx] Hk; [tauto|eauto].
  - intros ((H1 & H2) & H3 & H4). split; [intros [|]; [tauto|apply (H4 a); auto]|]. repeat split; auto. intros x Hx Hk. apply (H4 x); auto.
Qed.
Lemma nodup_firstn {A} (l : list A) n : NoDup l -> NoDup (firstn n l).
Proof. intros H. rewrite <- (firstn_skipn n l) in H. now apply nodup_app in H. Qed.
Lemma nodup_skipn {A} (l : list A) n : NoDup l -> NoDup (skipn n l).
Proof. intros H. rewrite <- (firstn_skipn n l) in H. now apply nodup_app in H. Qed.
Lemma nodup_run {A} a k (l : list A) : NoDup l -> NoDup (run_of a k l).
Proof. intros H. now apply nodup_firstn, nodup_skipn. Qed.
Lemma nodup_concat_run {A} a k (P : list (list A)) : NoDup (concat P) -> NoDup (concat (run_of a k P)).
Proof.
  intros H. rewrite <- (firstn_skipn (Z.to_nat a) P), concat_app in H. apply nodup_app in H as (_ & H & _).
  rewrite <- (firstn_skipn (Z.to_nat k) (skipn (Z.to_nat a) P)), concat_app in H. now apply nodup_app in H.
Qed.
Lemma nodup_concat_in {A} (P : list (list A)) r : NoDup (concat P) -> In r P -> NoDup r.
Proof. induction P as [|q P IH]; cbn; [tauto|]. rewrite nodup_app. intros (H1 & H2 & _) [<-|Hr]; auto. Qed.
Lemma nodup_map_concat {A} (f : list A -> list A) (P : list (list A)) : (forall r x, In x (f r) -> In x r) -> (forall r, NoDup r -> NoDup (f r)) -> NoDup (concat P) -> NoDup (concat (map f P)).
Proof.
  intros H1 H2. induction P as [|r P IH]; cbn; [auto|]. rewrite !nodup_app. intros (N1 & N2 & N3). split; [auto|]. split; [auto|]. intros x Hx Hc. apply (N3 x); [auto|].
  apply in_concat in Hc as (q & Hq & Hx'). apply in_map_iff in Hq as (s & <- & Hs). apply in_concat. eauto.
Qed.
Lemma nodup_collect {A B} (f : A -> option B) l : NoDup l -> (forall a a' b, f a = Some b -> f a' = Some b -> a = a') -> NoDup (collect f l).
Proof.
  intros HN HI. induction HN as [|a l Ha HN IH]; [constructor|]. unfold collect. cbn. destruct (f a) as [b|] eqn:E; cbn; [|exact IH]. constructor; [|exact IH].
  intros H. apply in_collect in H as (a' & Ha' & E'). assert (a = a') as <- by eauto. contradiction.
Qed.
Lemma nodup_at {A} (l : list A) i j x : NoDup l -> znth l i = Some x -> znth l j = Some x -> i = j.
Proof.
  intros H Hi Hj. pose proof (znth_lt _ _ _ Hi). pose proof (znth_lt _ _ _ Hj). unfold znth in *. replace (i <? 0) with false in * by lia. replace (j <? 0) with false in * by lia.
  rewrite NoDup_nth_error in H. enough (Z.to_nat i = Z.to_nat j) by lia. apply H; [unfold zlen in *; lia|congruence].
Qed.
Lemma nodup_pick {A} (l : list A) ps : NoDup l -> NoDup ps -> NoDup (pick l ps).
Proof. intros HL HP. apply (nodup_collect (znth l)); auto. intros a a' b Ha Ha'. now apply (nodup_at l a a' b). Qed.
(** Two entries of a matrix without repetitions. *)
Lemma nodup_row {A} (P : list (list A)) : forall i i' r r' x, NoDup (concat P) -> znth P i = Some r -> znth P i' = Some r' -> In x r -> In x r' -> i = i'.
Proof.
  induction P as [|q P IH]; intros i i' r r' x HN Hi Hi' Hx Hx'; [now rewrite znth_nil in Hi|]. cbn in HN. apply nodup_app in HN as (N1 & N2 & N3). pose proof (znth_lt _ _ _ Hi). pose proof (znth_lt _ _ _ Hi').
  destruct (Z.eq_dec i 0) as [->|], (Z.eq_dec i' 0) as [->|]; [reflexivity| | |].
  - rewrite znth_cons_0 in Hi. injection Hi as <-. rewrite znth_cons_pos in Hi' by lia. exfalso. apply (N3 x); auto. apply in_concat. exists r'. split; [now apply znth_in in Hi'|auto].
  - rewrite znth_cons_0 in Hi'. injection Hi' as <-. rewrite znth_cons_pos in Hi by lia. exfalso. apply (N3 x); auto. apply in_concat. exists r. split; [now apply znth_in in Hi|auto].
  - rewrite znth_cons_pos in Hi, Hi' by lia. specialize (IH _ _ _ _ x N2 Hi Hi' Hx Hx'). lia.
Qed.
Lemma nodup_mget {A} (P : list (list A)) i j i' j' x : NoDup (concat P) -> mget P i j = Some x -> mget P i' j' = Some x -> i = i' /\ j = j'.
Proof.
  intros HN H H'. unfold mget in *. destruct (znth P i) as [r|] eqn:E; [|discriminate]. destruct (znth P i') as [r'|] eqn:E'; [|discriminate].
  assert (i = i') as <- by (apply (nodup_row P i i' r r' x HN E E'); eapply znth_in; eauto). split; [reflexivity|]. rewrite E in E'. injection E' as <-.
  apply (nodup_at r j j' x); auto. apply (nodup_concat_in P); auto. now apply znth_in in E.
Qed.
Lemma nodup_pick_rows {A} (P : list (list A)) xs : NoDup (concat P) -> NoDup xs -> NoDup (concat (pick P xs)).
Proof.
  intros HN HX. induction HX as [|x xs Hx HX IH]; [constructor|]. unfold pick. cbn [flat_map]. fold (pick P xs). destruct (znth P x) as [r|] eqn:E; cbn; [|exact IH]. rewrite nodup_app.
  split; [apply (nodup_concat_in P); auto; now apply znth_in in E|]. split; [exact IH|]. intros p Hp Hc. apply in_concat in Hc as (q & Hq & Hp'). unfold pick in Hq. apply in_flat_map in Hq as (y & Hy & Hq).
  destruct (znth P y) as [r'|] eqn:E'; [|destruct Hq]. destruct Hq as [<-|[]]. assert (x = y) as <- by exact (nodup_row P x y r r' p HN E E' Hp Hp'). contradiction.
Qed.
Lemma nodup_norm {A} (M : list (list A)) : NoDup (concat M) -> NoDup (concat (norm M)).
Proof. unfold norm. destruct (ncols M =? 0); [constructor|auto]. Qed.
Lemma concat_chunks {A} m n (l : list A) : 0 <= m -> 0 <= n -> m * n = zlen l -> concat (chunks m n l) = l.
Proof.
  intros Hm Hn HL. destruct (chunks_spec m n l Hm Hn) as (R & L & G); [lia|]. assert (zlen (concat (chunks m n l)) = m * n) as LC by (rewrite (zlen_concat n) by assumption; now rewrite L).
  apply list_ext_zlen; [lia|]. intros k Hk. rewrite LC in Hk. assert (0 < n) by nia. assert (0 <= m) by lia.
  destruct (addr_div m n k) as (i & j & Hi & Hj & ->); auto. rewrite (concat_get n) by (auto; lia). now apply G.
Qed.
Lemma nodup_filter {A} (f : A -> bool) l : NoDup l -> NoDup (filter f l).
Proof. apply NoDup_filter. Qed.
Lemma nodup_all n : NoDup (all_positions n).
Proof. apply NoDup_zseq. Qed.
Lemma nodup_positions n s : names_once s -> NoDup (positions n s).
Proof.
  intros H. destruct s; cbn [positions names_once] in *; try (now apply nodup_filter, nodup_all); try apply nodup_all; try exact H.
  - destruct H as [H|H].
    + apply FinFun.Injective_map_NoDup; [|apply nodup_all]. intros x y E. assert ((x - y) * stride = 0) as E0 by lia. apply Z.mul_eq_0 in E0. lia.
    + unfold all_positions. destruct (Z.to_nat size) as [|[|k]] eqn:E; [constructor|cbn; repeat constructor; auto|lia].
  - destruct (0 <? stride); [now apply nodup_filter, nodup_all|]. destruct (stride <? 0); [apply NoDup_rev, nodup_filter, nodup_all|repeat constructor; auto].
  - apply NoDup_rev, nodup_all.
Qed.
Lemma apply_distinct d w d' : (forall P, d = D2 P -> wfm P) -> vop_ok d w -> vop_once w -> den_apply d w = Some d' -> NoDup (entries d) -> NoDup (entries d').
Proof.
  intros HW HO HD E HN. destruct d as [ps|P], w; cbn [den_apply] in E; try discriminate E; try (injection E as <-); cbn [entries vop_ok vop_once] in *; try exact HN.
  - apply nodup_pick; auto. now apply nodup_positions.
  - apply nodup_norm. rewrite concat_chunks by lia. exact HN.
  - apply nodup_norm. apply (nodup_map_concat (fun r => pick r (positions (ncols P) s2))); [intros r x; apply in_pick|intros r Hr; apply nodup_pick; auto; now apply nodup_positions|].
    apply nodup_pick_rows; auto. now apply nodup_positions.
  - apply nodup_pick_rows; auto. now apply nodup_positions.
  - apply nodup_norm. apply (nodup_map_concat (fun r => pick r (positions (ncols P) s))); [intros r x; apply in_pick|intros r Hr; apply nodup_pick; auto; now apply nodup_positions|auto].
  - destruct (znth P (denotes (zlen P) ix)) as [r|] eqn:Er; [|discriminate]. injection E as <-. cbn [entries]. apply (nodup_concat_in P); auto. now apply znth_in in Er.
  - destruct (column_spec P (denotes (ncols P) jx)) as [LC NC]; auto. apply NoDup_nth_error. intros i k Hi Ek.
    assert (exists p, nth_error (column P (denotes (ncols P) jx)) i = Some p) as [p Hp] by (destruct (nth_error (column P (denotes (ncols P) jx)) i) eqn:X; [eauto|apply nth_error_None in X; lia]).
    assert (znth (column P (denotes (ncols P) jx)) (Z.of_nat i) = Some p) as Z1 by (unfold znth; replace (Z.of_nat i <? 0) with false by lia; now rewrite Nat2Z.id).
    assert (znth (column P (denotes (ncols P) jx)) (Z.of_nat k) = Some p) as Z2 by (unfold znth; replace (Z.of_nat k <? 0) with false by lia; rewrite Nat2Z.id; congruence).
    rewrite NC in Z1, Z2. destruct (nodup_mget P _ _ _ _ p HN Z1 Z2). lia.
  - apply nodup_collect; [apply nodup_all|]. intros a a' b Ha Ha'. now destruct (nodup_mget P _ _ _ _ b HN Ha Ha').
  - apply nodup_collect; [apply nodup_all|]. intros a a' b Ha Ha'. now destruct (nodup_mget P _ _ _ _ b HN Ha Ha').
  - apply nodup_map_concat; [intros r x; apply in_run|intros r; apply nodup_run|]. now apply nodup_concat_run.
  - apply nodup_norm. apply nodup_map_concat; [intros r x; apply in_run|intros r; apply nodup_run|]. now apply nodup_concat_run.
  - apply nodup_norm. rewrite concat_chunks; [exact HN|lia|lia|]. rewrite (zlen_concat (ncols P)); [lia|]. apply wfm_rect. now apply HW.
Qed.
Section T.
Context (c : cfg) (N : Z).
Lemma root_distinct o d : root o d N -> NoDup (entries d).
Proof.
  intros [(H1 & -> & ->)|(m & n & H1 & H2 & H3 & H4 & H5 & -> & ->)]; cbn [whole1 whole2 entries]; [apply nodup_all|]. rewrite concat_chunks; auto; [apply nodup_all|]. unfold all_positions. rewrite zlen_zseq. nia.
Qed.
Lemma chain_distinct ws : forall o d o' d', o_denotes c o d -> chain_ok d ws -> Forall vop_once ws -> o_chain c o ws = Ok o' -> den_chain d ws = Some d' -> NoDup (entries d) -> NoDup (entries d').
Proof.
  induction ws as [|w ws IH]; intros o d o' d' HD HC HO E ED HN; cbn in *; [now injection ED as <-|]. inversion HO as [|? ? Hw Hws]; subst. destruct HC as (T1 & T2 & T3 & T4).
  destruct (apply_ok c o d w HD T1 T2 T3) as (o1 & d1 & E1 & E2 & HD1). rewrite E1 in *. rewrite E2 in E. cbn [bind] in E. apply (IH o1 d1 o' d'); auto.
  apply (apply_distinct d w d1); auto. intros P ->. now destruct HD as (_ & HW & _).
Qed.
Lemma size_entries o d : o_denotes c o d -> o_size o = Ok (zlen (entries d)) /\ forall i p, znth (entries d) i = Some p -> o_lin c o i = Ok p.
Proof.
  destruct d as [ps|P]; cbn [entries].
  - intros (_ & _ & HS & HL). auto.
  - intros (_ & HW & _ & _ & _ & HS & _ & HL). split; [|exact HL]. rewrite HS. f_equal. symmetry. apply zlen_concat. now apply wfm_rect.
Qed.
(** Different indexes are different elements exactly when the positions do not repeat. *)
Theorem distinct_thm r d0 ws o : root r d0 N -> chain_ok d0 ws -> Forall vop_once ws -> o_chain c r ws = Ok o -> separate c o.
Proof.
  intros HR HC HO E. destruct (root_den c N r d0 HR) as [Hd _]. destruct (chain_ok_den c ws r d0 Hd HC) as (o' & d' & E1 & E2 & Hd'). rewrite E in E2. injection E2 as <-.
  pose proof (chain_distinct ws r d0 o d' Hd HC HO E E1 (root_distinct _ _ HR)) as ND. destruct (size_entries o d' Hd') as [HS HL].
  intros n i j p En Hi Hj Li Lj. rewrite HS in En. injection En as <-. destruct (znth_some (entries d') i Hi) as [q Hq]. destruct (znth_some (entries d') j Hj) as [q' Hq'].
  assert (q = p) as -> by (apply HL in Hq; congruence). assert (q' = p) as -> by (apply HL in Hq'; congruence). now apply (nodup_at (entries d') i j p).
Qed.
(** Conversely an index list with a repetition gives two indexes of the view naming one element. *)
Theorem repeat_thm o v o' i j k : is_view c N o -> is_two o = false -> (exists n, o_size o = Ok n /\ acceptable n (Vec v) /\ zlen v <= LONG_MAX) -> 0 <= i < j -> znth v i = Some k -> znth v j = Some k ->
  o_slice1 c o (Vec v) = Ok o' -> ~ separate c o'.
Proof.
  intros HV HT (n & ES & HA & HL) Hij Hi Hj E HS. destruct (view_known c N o HV) as [[ps|P] HK]; [|destruct HK as ((H & _) & _); congruence]. pose proof HK as ((_ & _ & ES' & _) & _). rewrite ES in ES'. injection ES' as ->.
  destruct (known_apply c N o (D1 ps) (VwSlice (Vec v)) HK) as (o2 & d2 & E1 & E2 & (Hd2 & _)); [reflexivity|cbn; auto|exact HA|]. unfold o_apply in E2. rewrite HT in E2. rewrite E in E2. injection E2 as <-.
  cbn [den_apply] in E1. injection E1 as <-. cbn [positions] in Hd2. destruct (size_entries o' _ Hd2) as [HS2 HL2]. cbn [entries] in HS2, HL2. cbn [acceptable] in HA. rewrite zlen_pick in HS2 by assumption.
  assert (0 <= k < zlen ps) as Rk by (rewrite Forall_forall in HA; apply HA; now apply znth_in in Hi). destruct (znth_some ps k Rk) as [p Hp].
  pose proof (znth_lt _ _ _ Hj). assert (i = j); [|lia]. apply (HS (zlen v) i j p); auto; try lia; apply HL2; rewrite znth_pick by assumption; [now rewrite Hi|now rewrite Hj].
Qed.
End T.
