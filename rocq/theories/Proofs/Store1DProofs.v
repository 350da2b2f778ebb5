From Coq Require Import Sorting.Sorted.
From Verif Require Import Base.Outcome Base.ZList Model.IntModel Model.ScalarOps Model.Index Model.Slice Model.Array1D Model.Store1D.
From Verif Require Import Spec.ArraySpec Spec.SliceSpec Spec.Store1DSpec.
From Verif Require Import Proofs.ScalarProofs Proofs.Array1DProofs Proofs.SliceProofs Proofs.ViewProofs.
Ltac Zify.zify_post_hook ::= Z.div_mod_to_equations.

(** Decidable slice conditions *)
Lemma increasing_spec v : increasing v = true <-> StronglySorted Z.lt v.
Proof.
  rewrite <- is_sorted_le_spec. induction v as [|x v IH]; [reflexivity|].
  cbn [increasing is_sorted_le]. destruct v as [|y v]; [reflexivity|].
  rewrite !andb_true_iff. rewrite IH. replace (negb (y <=? x)) with (x <? y) by lia. reflexivity.
Qed.
Lemma in_range_forall n v : forallb (in_range n) v = true <-> Forall (fun p => 0 <= p < n) v.
Proof.
  rewrite forallb_forall, Forall_forall. unfold in_range. split; intros H x Hx; specialize (H x Hx); lia.
Qed.
Lemma slice_okb_spec n s : slice_okb n s = true <-> acceptable n s.
Proof.
  destruct s as [a b d|f l d| | | | |k|m|m|v|v]; cbn [slice_okb acceptable]; try tauto; try (unfold in_range; lia).
  - split.
    + intros H. split; [lia|]. split; [lia|]. destruct (Z.eqb_spec b 0); [intros; lia|].
      apply affine_acceptable; unfold in_range in H; lia.
    + intros (H1 & H2 & H3). destruct (Z.eqb_spec b 0); [lia|].
      apply affine_acceptable in H3; [|lia|lia]. unfold in_range. lia.
  - apply in_range_forall.
  - rewrite andb_true_iff, increasing_spec, in_range_forall. reflexivity.
Qed.
Lemma slice_fits_spec n s : 0 <= n <= LONG_MAX -> slice_fits n s = true <-> no_overflow n s.
Proof.
  intros Hn. destruct s as [a b d|f l d| | | | |k|m|m|v|v]; cbn [slice_fits no_overflow]; try tauto; try lia.
  split.
  - intros H Ha Hb. rewrite !orb_true_iff, andb_true_iff, !in_long_spec in H. destruct H as [[H|H]|H]; [lia|lia|exact H].
  - intros H. rewrite !orb_true_iff, andb_true_iff, !in_long_spec.
    destruct (Z.ltb_spec a 0); [auto|]. destruct (Z.leb_spec b 0); [auto|]. right. apply H; lia.
Qed.

Section P.
Context {V : Type} (zero : V) (c : cfg).
Hypothesis Hc : cfg_ok c.
Implicit Types (a : arr V) (l : list V) (A : src1 V).

(** The abstract result the theorem speaks about: everything when checks are active; otherwise only calls with valid
    arguments (possibly running out of memory). *)
Definition covered {X} (n : outcome X) : Prop :=
  checked c = true \/ match n with Ok _ => True | Fail f => f = BadAlloc | UB => False end.

Definition osim (m : outcome (arr V)) (n : outcome (list V)) : Prop :=
  match n with
  | Ok l => exists a, m = Ok a /\ rep a l /\ zlen l <= amax c
  | Fail f => m = Fail f
  | UB => m = UB
  end.

Lemma report_not_badalloc : report c <> BadAlloc.
Proof. unfold report. destruct (exc c); discriminate. Qed.
Lemma covered_checked {X} (n : outcome X) : covered n -> n = Fail (report c) \/ n = UB -> checked c = true.
Proof. intros [H|H]; auto. intros [->| ->]; [now apply report_not_badalloc in H|contradiction]. Qed.

Lemma sim_new n : is_long n -> covered (guard c (0 <=? n) (room c n (Ok (repeat zero (Z.to_nat n))))) ->
  osim (arr_new zero c n) (guard c (0 <=? n) (room c n (Ok (repeat zero (Z.to_nat n))))).
Proof.
  intros Hn Hcov. unfold guard, room in *. destruct (Z.leb_spec 0 n).
  - destruct (Z.ltb_spec (amax c) n).
    + simpl. apply arr_new_big. unfold cfg_ok in Hc. lia.
    + simpl. rewrite arr_new_ok by lia. eexists. split; [reflexivity|]. rewrite zlen_repeat by lia.
      split; [split; [reflexivity|simpl; rewrite zlen_repeat; lia]|lia].
  - simpl. apply arr_new_neg; [|lia]. eapply covered_checked; eauto.
Qed.
Lemma sim_new_fill n x : is_long n -> covered (guard c (0 <=? n) (room c n (Ok (repeat x (Z.to_nat n))))) ->
  osim (arr_new_fill zero c n x) (guard c (0 <=? n) (room c n (Ok (repeat x (Z.to_nat n))))).
Proof.
  intros Hn Hcov. unfold guard, room in *. destruct (Z.leb_spec 0 n).
  - destruct (Z.ltb_spec (amax c) n).
    + simpl. unfold arr_new_fill. rewrite arr_new_big by (unfold cfg_ok in Hc; lia). reflexivity.
    + simpl. destruct (arr_new_fill_ok zero c n x) as (a & E & Hr); [lia|]. exists a. split; auto. split; auto.
      rewrite zlen_repeat; lia.
  - simpl. unfold arr_new_fill. rewrite arr_new_neg; [reflexivity| |lia]. eapply covered_checked; eauto.
Qed.
Lemma sim_src A l : produces A l -> osim (arr_of_src zero c A) (room c (zlen l) (Ok l)).
Proof.
  intros HA. unfold room. destruct (Z.ltb_spec (amax c) (zlen l)).
  - simpl. eapply arr_of_src_big; eauto.
  - simpl. destruct (arr_of_src_ok zero c A l) as (a & E & Hr); auto. eauto.
Qed.
Lemma sim_slice a l s : rep a l -> zlen l <= amax c -> args_long s ->
  covered (m <- spec_slice c l s ;; room c (zlen m) (Ok m)) ->
  osim (A <- slice_src c a s ;; arr_of_src zero c A) (m <- spec_slice c l s ;; room c (zlen m) (Ok m)).
Proof.
  intros [Eb En] HL HA Hcov. unfold cfg_ok in Hc. pose proof (zlen_nonneg l) as Hnn.
  unfold spec_slice, slice_src in *. rewrite En, Eb.
  destruct (slice_fits (zlen l) s) eqn:F; cbn [negb] in *.
  - apply slice_fits_spec in F; [|lia]. unfold guard in *.
    destruct (slice_okb (zlen l) s) eqn:O; cbn [bind] in *.
    + apply slice_okb_spec in O.
      destruct (view_of_slice c (zlen l) s) as (v & E & Hv); auto; [lia|]. rewrite E. cbn [bind].
      pose proof (positions_in_range (zlen l) s Hnn O) as HR.
      apply sim_src. split; [simpl; rewrite (proj1 Hv); now rewrite zlen_pick|].
      intros i Hi. rewrite zlen_pick in Hi by assumption. destruct (znth_some _ _ Hi) as [p Hp]. simpl.
      rewrite (view_un_ok v _ l i p) by eauto. unfold oget. rewrite znth_pick by assumption. now rewrite Hp.
    + rewrite view_slice_bad; [reflexivity|simpl; lia|assumption| |intros Hacc; apply slice_okb_spec in Hacc; simpl in Hacc; congruence|exact F].
      eapply covered_checked; eauto.
  - cbn [bind]. rewrite view_slice_overflow; [reflexivity|simpl; lia|assumption| | |].
    + simpl. intros Hno. apply slice_fits_spec in Hno; [congruence|lia].
    + left. eapply covered_checked; [exact Hcov|now right].
    + destruct s; auto. simpl in F. lia.
Qed.
Lemma sim_set_all a l x : rep a l -> zlen l <= amax c -> osim (arr_set_all x a) (Ok (repeat x (length l))).
Proof.
  intros Hr HL. destruct (arr_set_all_ok a l x Hr) as (a' & E & Hr'). simpl. exists a'. split; auto. split; auto.
  unfold zlen in *. now rewrite repeat_length.
Qed.
Lemma sim_resize a l n pr : rep a l -> zlen l <= amax c -> is_long n -> covered (spec_resize zero c l n pr) ->
  osim (arr_resize zero c n pr a) (spec_resize zero c l n pr).
Proof.
  intros Hr HL Hn Hcov. unfold spec_resize, guard, room in *. pose proof (zlen_nonneg l).
  destruct (Z.leb_spec 0 n).
  - destruct (Z.eqb_spec n (zlen l)) as [->|Hne].
    + simpl. exists a. split; [|auto]. destruct (arr_resize_ok zero c a l (zlen l) pr) as (a' & E & _); auto.
      unfold arr_resize. replace (-1 <? zlen l) with true by lia. rewrite check_debug_true. cbn [bind].
      destruct Hr as [_ ->]. now rewrite Z.eqb_refl.
    + destruct (Z.ltb_spec (amax c) n).
      * simpl. eapply arr_resize_big; eauto.
      * destruct (arr_resize_ok zero c a l n pr) as (a' & E & Hr'); auto.
        replace (n =? zlen l) with false in Hr' by lia. simpl. exists a'. split; auto. split; auto.
        destruct Hr' as [_ Hn']. destruct pr.
        -- rewrite zlen_app. unfold zlen. rewrite firstn_length, repeat_length. lia.
        -- rewrite zlen_repeat; lia.
  - simpl. eapply arr_resize_neg; eauto. eapply covered_checked; eauto.
Qed.
Lemma sim_remove a l p k : rep a l -> zlen l <= amax c -> is_long p -> is_long k -> covered (spec_remove c l p k) ->
  osim (arr_remove zero c p k a) (spec_remove c l p k).
Proof.
  intros Hr HL Hp Hk Hcov. unfold spec_remove, guard, in_range in *. unfold cfg_ok in Hc. pose proof (zlen_nonneg l).
  destruct ((0 <? k) && (0 <=? p) && (p + k <=? zlen l)) eqn:G.
  - replace ((0 <? k) && ((0 <=? p) && (p <? zlen l)) && (LONG_MAX <? p + k)) with false in * by lia.
    destruct (arr_remove_ok zero c Hc a l p k) as (a' & E & Hr'); auto; try lia. simpl. exists a'. split; auto. split; auto.
    unfold del. rewrite zlen_app, zlen_firstn, zlen_skipn; lia.
  - assert (checked c = true) as Hck.
    { destruct ((0 <? k) && ((0 <=? p) && (p <? zlen l)) && (LONG_MAX <? p + k)); eapply covered_checked; eauto. }
    rewrite arr_remove_bad with (l := l); auto; try lia.
    replace ((0 <? k) && (0 <=? p) && (p <? zlen l) && (LONG_MAX <? p + k)) with
      ((0 <? k) && ((0 <=? p) && (p <? zlen l)) && (LONG_MAX <? p + k)) by lia.
    destruct ((0 <? k) && ((0 <=? p) && (p <? zlen l)) && (LONG_MAX <? p + k)); reflexivity.
Qed.
Lemma sim_insert a l A m p : rep a l -> zlen l <= amax c -> produces A m -> covered (spec_insert c l p m) ->
  osim (arr_insert_arr zero c p A a) (spec_insert c l p m).
Proof.
  intros Hr HL HA Hcov. unfold spec_insert, guard, room in *. unfold cfg_ok in Hc. pose proof (zlen_nonneg l). pose proof (zlen_nonneg m).
  destruct ((0 <=? p) && (p <=? zlen l)) eqn:G.
  - destruct (Z.ltb_spec LONG_MAX (zlen l + zlen m)).
    + simpl. unfold arr_insert_arr. rewrite (proj2 Hr), (proj1 HA), G. rewrite check_debug_true. cbn [bind].
      unfold ladd at 1. rewrite lret_ub by lia. reflexivity.
    + destruct (Z.ltb_spec (amax c) (zlen l + zlen m)).
      * simpl. eapply arr_insert_arr_big; eauto; lia.
      * destruct (arr_insert_arr_ok zero c Hc a l A m p) as (a' & E & Hr'); auto; try lia. simpl. exists a'. split; auto. split; auto.
        unfold ins. rewrite !zlen_app, zlen_firstn, zlen_skipn; lia.
  - simpl. eapply arr_insert_arr_bad; eauto; [|lia]. eapply covered_checked; eauto.
Qed.
Lemma sim_insert1 a l x p : rep a l -> zlen l <= amax c -> covered (spec_insert c l p [x]) ->
  osim (arr_insert zero c p x a) (spec_insert c l p [x]).
Proof.
  intros Hr HL Hcov. unfold spec_insert, guard, room in *. unfold cfg_ok in Hc. pose proof (zlen_nonneg l).
  change (zlen [x]) with 1 in *.
  destruct ((0 <=? p) && (p <=? zlen l)) eqn:G.
  - destruct (Z.ltb_spec LONG_MAX (zlen l + 1)).
    + simpl. unfold arr_insert. rewrite (proj2 Hr), G. rewrite check_debug_true. cbn [bind].
      unfold ladd at 1. rewrite lret_ub by lia. reflexivity.
    + destruct (Z.ltb_spec (amax c) (zlen l + 1)).
      * simpl. eapply arr_insert_big; eauto; lia.
      * destruct (arr_insert_ok zero c Hc a l p x) as (a' & E & Hr'); auto; try lia. simpl. exists a'. split; auto. split; auto.
        unfold ins. rewrite !zlen_app, zlen_firstn, zlen_skipn by lia. change (zlen [x]) with 1. lia.
  - simpl. eapply arr_insert_bad; eauto; [|lia]. eapply covered_checked; eauto.
Qed.
Lemma sim_remove_indexes a l v : rep a l -> zlen l <= amax c ->
  covered (guard c (increasing v && forallb (in_range (zlen l)) v) (Ok (keep l v))) ->
  osim (arr_remove_indexes zero c v a) (guard c (increasing v && forallb (in_range (zlen l)) v) (Ok (keep l v))).
Proof.
  intros Hr HL Hcov. pose proof Hr as [Eb En]. unfold cfg_ok in Hc. pose proof (zlen_nonneg l) as Hnn.
  unfold guard in *. destruct v as [|x v].
  - simpl. exists a. split; [reflexivity|]. 
    assert (keep l [] = l) as ->; [|auto].
    unfold keep. cbn [existsb negb]. 
    assert (filter (fun _ : Z => true) (all_positions (zlen l)) = all_positions (zlen l)) as ->.
    { induction (all_positions (zlen l)) as [|y ys IH]; simpl; congruence. }
    rewrite all_positions_affine. apply list_ext_znth. intros i Hi.
    rewrite znth_pick.
    + destruct (Z.ltb_spec i (zlen l)).
      * unfold all_positions. rewrite znth_map_zseq by lia. f_equal. lia.
      * rewrite !znth_none; auto; [lia|]. unfold all_positions. rewrite zlen_map, zlen_zseq. lia.
    + apply Forall_forall. intros p Hp. apply in_map_iff in Hp as (j & <- & Hj). apply in_zseq in Hj. lia.
  - set (w := x :: v) in *. unfold arr_remove_indexes. fold w. change (match w with [] => Ok a | _ => ?X end) with X.
    rewrite En. destruct (increasing w && forallb (in_range (zlen l)) w) eqn:G.
    + apply andb_true_iff in G as [G1 G2]. apply increasing_spec in G1. apply in_range_forall in G2.
      unfold w at 1. rewrite complement_index_vector_ok by (auto; lia). cbn [bind].
      set (u := filter _ _).
      assert (Forall (fun p => 0 <= p < zlen l) u) as HU.
      { apply Forall_forall. intros p Hp. apply filter_In in Hp as [Hp _]. apply in_zseq in Hp. lia. }
      assert (zlen u <= zlen l) as LU.
      { destruct (sorted_range_length (zlen l) u); [apply sorted_filter, sorted_zseq|assumption|assumption|].
        rewrite H, zlen_nil. lia. }
      pose proof (zlen_nonneg u). rewrite arr_new_ok by lia. cbn [bind buf an].
      rewrite (for_ext _ _ _ (fun i b => y <- (j <- oget u i ;; oget (buf a) j) ;; oset b i y)).
      2:{ intros i s Hi. destruct (oget u i); reflexivity. }
      rewrite (for_table (fun i => j <- oget u i ;; oget (buf a) j) (nthd zero (pick l u)) (zlen u)).
      * cbn [bind]. simpl. eexists. split; [reflexivity|].
        assert (keep l w = pick l u) as -> by reflexivity.
        assert (map (nthd zero (pick l u)) (zseq 0 (Z.to_nat (zlen u))) = pick l u) as ->.
        { rewrite <- (map_nthd_all zero (pick l u)) at 2. do 2 f_equal.
          pose proof (zlen_pick l u HU) as E. unfold zlen in *. lia. }
        split; [split; [reflexivity|]|]; simpl; rewrite zlen_pick by assumption; lia.
      * lia.
      * apply zlen_repeat. lia.
      * intros i Hi. destruct (znth_some u i Hi) as [p Hp]. rewrite (oget_ok _ _ _ Hp). cbn [bind]. rewrite Eb.
        assert (0 <= p < zlen l) as Rp by (rewrite Forall_forall in HU; apply HU; now apply znth_in in Hp).
        unfold nthd. rewrite znth_pick by assumption. rewrite Hp. destruct (znth_some l p Rp) as [y Hy]. now rewrite (oget_ok _ _ _ Hy), Hy.
    + simpl. unfold w at 1. fold w. rewrite complement_index_vector_bad; [reflexivity| |].
      * eapply covered_checked; eauto.
      * intros [H1 H2]. apply increasing_spec in H1. apply in_range_forall in H2. unfold w in *. rewrite H1, H2 in G. discriminate.
Qed.
Lemma sim_write a l ix x : rep a l -> zlen l <= amax c -> match ix with Plain i => is_long i | FromLast k => is_long k end ->
  covered (spec_at c l ix (fun p => Ok (zupd l p x))) ->
  osim (arr_write c ix x a) (spec_at c l ix (fun p => Ok (zupd l p x))).
Proof.
  intros [Eb En] HL Hix Hcov. unfold cfg_ok in Hc. pose proof (zlen_nonneg l) as Hnn. unfold spec_at, guard, arr_write in *. rewrite En, Eb.
  destruct (match ix with Plain _ => false | FromLast d => LONG_MAX <? zlen l - d end) eqn:F.
  - destruct ix as [i|k]; [discriminate|]. unfold osim. rewrite idx_get_ub by (auto; lia). reflexivity.
  - assert (idx_fits (zlen l) ix) as Hf by (destruct ix; [assumption|split; [assumption|lia]]).
    rewrite idx_get_ok by (auto; lia). cbn [bind]. unfold valid_index, in_range in *.
    set (p := denotes (zlen l) ix) in *. replace ((-1 <? p) && (p <? zlen l)) with ((0 <=? p) && (p <? zlen l)) by lia.
    destruct ((0 <=? p) && (p <? zlen l)) eqn:G.
    + rewrite check_debug_true. cbn [bind]. rewrite oset_ok by lia. cbn [bind]. simpl. eexists. split; [reflexivity|].
      split; [split; [reflexivity|]|]; simpl; rewrite ?zlen_zupd; auto.
    + simpl. rewrite check_debug_false; [reflexivity|]. eapply covered_checked; eauto.
Qed.
Lemma sim_read a l ix : rep a l -> zlen l <= amax c -> match ix with Plain i => is_long i | FromLast k => is_long k end ->
  covered (spec_at c l ix (fun p => oget l p)) ->
  sub1 c (src_of_arr a) ix = spec_at c l ix (fun p => oget l p).
Proof.
  intros Hr HL Hix Hcov. pose proof (produces_arr _ _ Hr) as HA. unfold cfg_ok in Hc. pose proof (zlen_nonneg l) as Hnn.
  unfold spec_at, guard in *.
  destruct (match ix with Plain _ => false | FromLast d => LONG_MAX <? zlen l - d end) eqn:F.
  - destruct ix as [i|k]; [discriminate|]. eapply sub1_last_ub; eauto; lia.
  - assert (idx_fits (zlen l) ix) as Hf by (destruct ix; [assumption|split; [assumption|lia]]).
    unfold in_range in *. destruct ((0 <=? _) && _) eqn:G.
    + destruct (znth_some l (denotes (zlen l) ix)) as [y Hy]; [lia|]. rewrite (oget_ok _ _ _ Hy). eapply sub1_ok; eauto. lia.
    + eapply sub1_bad; eauto; try lia. eapply covered_checked; eauto.
Qed.
Lemma sim_assign a l A m : rep a l -> zlen l <= amax c -> produces A m -> covered (guard c (zlen l =? zlen m) (Ok m)) ->
  match guard c (zlen l =? zlen m) (Ok m) with
  | Ok l' => exists a', arr_assign c A a = MOk a' /\ rep a' l' /\ zlen l' <= amax c
  | Fail f => arr_assign c A a = MFail f a
  | UB => False
  end.
Proof.
  intros [Eb En] HL HA Hcov. unfold guard in *. unfold arr_assign, arr_assign_rd. rewrite En, (proj1 HA).
  destruct (Z.eqb_spec (zlen l) (zlen m)) as [EL|NL].
  - rewrite check_debug_true. unfold assign_loop. rewrite Eb. pose proof (zlen_nonneg m) as Hnn.
    destruct (mfor_inv (fun i b => zlen b = zlen m /\ forall k, 0 <= k < i -> znth b k = znth m k) 0 (zlen m)
      (fun i b => commit b (v <- sun A i ;; oset b i v)) l) as (b & E & HLb & HP).
    + lia.
    + split; [lia|intros; lia].
    + intros i b Hi [Lb HP]. rewrite (proj2 HA) by lia. destruct (znth_some m i ltac:(lia)) as [y Hy].
      rewrite (oget_ok _ _ _ Hy). cbn [bind]. rewrite oset_ok by lia. cbn [commit]. eexists. split; [reflexivity|].
      rewrite zlen_zupd. split; [assumption|]. intros k Hk. rewrite znth_zupd by lia.
      destruct (Z.eqb_spec k i) as [->|]; [auto|]. apply HP. lia.
    + rewrite E. cbn [with_buf mbind]. eexists. split; [reflexivity|].
      assert (b = m) as -> by (apply list_ext_zlen; [assumption|intros i Hi; apply HP; lia]).
      split; [split; simpl; auto|]; lia.
  - rewrite check_debug_false; [reflexivity|]. eapply covered_checked; eauto.
Qed.

(** ** States *)
Notation rp := (represents c).
Definition covered_res {S} (r : res S V) : Prop :=
  checked c = true \/ match r with Next _ (Failed f) => f = BadAlloc | Next _ _ => True | Crash => False end.
Definition rsim (r : res (list (arr V)) V) (s : res (list (list V)) V) : Prop :=
  match s with
  | Next w ob => exists st, r = Next st ob /\ rp st w
  | Crash => r = Crash
  end.

Lemma rp_nth st w i : rp st w ->
  match znth w i with
  | Some l => exists a, znth st i = Some a /\ rep a l /\ zlen l <= amax c
  | None => znth st i = None
  end.
Proof.
  intros H. unfold znth. destruct (i <? 0); [reflexivity|]. generalize (Z.to_nat i). clear i. 
  induction H as [|a l st w [H1 H2] HF IH]; intros [|k]; simpl; auto; [exists a; auto|apply IH].
Qed.
Lemma rp_upd st w i a l : rp st w -> rep a l -> zlen l <= amax c -> rp (zupd st i a) (zupd w i l).
Proof.
  intros H Hr HL. unfold zupd. destruct (i <? 0); [assumption|]. generalize (Z.to_nat i). clear i.
  induction H as [|a0 l0 st w [H1 H2] HF IH]; intros [|k]; simpl; try (constructor; auto; fail); constructor; auto; apply IH.
Qed.
Lemma rp_app st w a l : rp st w -> rep a l -> zlen l <= amax c -> rp (st ++ [a]) (w ++ [l]).
Proof. intros H Hr HL. apply Forall2_app; [assumption|]. now constructor. Qed.
Lemma rp_self st w i a : rp st w -> znth st i = Some a -> zupd st i a = st.
Proof.
  intros _ H. apply list_ext_znth. intros k Hk. apply znth_lt in H as Hr. rewrite znth_zupd by assumption.
  destruct (Z.eqb_spec k i) as [->|]; [congruence|reflexivity].
Qed.

Lemma sim_with1 st w i (k : arr V -> res _ V) (k' : list V -> res _ V) :
  rp st w -> covered_res (swith1 w i k') ->
  (forall a l, znth st i = Some a -> znth w i = Some l -> rep a l -> zlen l <= amax c -> covered_res (k' l) -> rsim (k a) (k' l)) ->
  rsim (with1 st i k) (swith1 w i k').
Proof.
  intros H Hcov Hk. unfold with1, swith1 in *. pose proof (rp_nth st w i H) as Hi. destruct (znth w i) as [l|] eqn:Ew.
  - destruct Hi as (a & Ea & Hr & HL). rewrite Ea. now apply Hk.
  - rewrite Hi. simpl. eauto.
Qed.
Lemma sim_push st w m n : rp st w -> covered_res (spush w n) -> (covered n -> osim m n) -> rsim (push st m) (spush w n).
Proof.
  intros H Hcov Hs. unfold push, spush in *. unfold covered, covered_res, osim in *. destruct n as [l|f|].
  - destruct Hs as (a & -> & Hr & HL); [auto|]. simpl. eexists. split; [reflexivity|]. now apply rp_app.
  - rewrite Hs by tauto. simpl. eauto.
  - rewrite Hs by tauto. reflexivity.
Qed.
Lemma sim_put st w i m n : rp st w -> covered_res (sput w i n) -> (covered n -> osim m n) -> rsim (put st i m) (sput w i n).
Proof.
  intros H Hcov Hs. unfold put, sput in *. unfold covered, covered_res, osim in *. destruct n as [l|f|].
  - destruct Hs as (a & -> & Hr & HL); [auto|]. simpl. eexists. split; [reflexivity|]. now apply rp_upd.
  - rewrite Hs by tauto. simpl. eauto.
  - rewrite Hs by tauto. reflexivity.
Qed.
Lemma rep_empty : rep (@arr_empty V) [] /\ zlen (@nil V) <= amax c.
Proof. split; [split; reflexivity|]. rewrite zlen_nil. unfold cfg_ok in Hc. lia. Qed.

Lemma zupd_same_swap (X : Type) (w : list X) i x : znth w i = Some x -> zupd (zupd w i x) i x = w.
Proof.
  intros H. apply znth_lt in H as Hr. apply list_ext_znth. intros k Hk. rewrite !znth_zupd by (rewrite ?zlen_zupd; assumption).
  destruct (Z.eqb_spec k i) as [->|]; [congruence|reflexivity].
Qed.
Lemma zupd_id (X : Type) (w : list X) i x : znth w i = Some x -> zupd w i x = w.
Proof.
  intros H. apply znth_lt in H as Hr. apply list_ext_znth. intros k Hk. rewrite !znth_zupd by assumption.
  destruct (Z.eqb_spec k i) as [->|]; [congruence|reflexivity].
Qed.
Lemma zupd_twice (X : Type) (w : list X) i x y : 0 <= i < zlen w -> zupd (zupd w i x) i y = zupd w i y.
Proof.
  intros Hr. apply list_ext_znth. intros k Hk. rewrite !znth_zupd by (rewrite ?zlen_zupd; assumption).
  destruct (k =? i); reflexivity.
Qed.

Lemma sim_assign_put st w i a l A m : rp st w -> znth st i = Some a -> rep a l -> zlen l <= amax c -> produces A m ->
  covered_res (sput w i (guard c (zlen l =? zlen m) (Ok m))) ->
  rsim (put_mut st i (arr_assign c A a)) (sput w i (guard c (zlen l =? zlen m) (Ok m))).
Proof.
  intros H Ha Hr HL HA Hcov.
  assert (covered (guard c (zlen l =? zlen m) (Ok m))) as Hcov'.
  { unfold covered, covered_res, guard in *. destruct (zlen l =? zlen m); simpl in *; auto. }
  pose proof (sim_assign a l A m Hr HL HA Hcov') as Hs. unfold guard in *. destruct (zlen l =? zlen m).
  - destruct Hs as (a' & -> & Hr' & HL'). simpl. eexists. split; [reflexivity|]. now apply rp_upd.
  - rewrite Hs. simpl. eexists. split; [reflexivity|]. now rewrite (zupd_id _ _ _ _ Ha).
Qed.

Theorem step1_refines st w o : rp st w -> op_long o -> covered_res (spec_step1 zero c w o) ->
  rsim (step1 zero c st o) (spec_step1 zero c w o).
Proof.
  intros H HO Hcov.
  destruct o as [n|n x|l|j|j|j s|i x|i l|i j|i j|i j|i n pr|i j|i j|i p k|i k|i k|i k|i v|i p x|i x|i x|i p j|i j|i j|i ix x|i ix|i];
    cbn [step1 spec_step1 op_long] in *.
  - apply sim_push; auto. now apply sim_new.
  - apply sim_push; auto. now apply sim_new_fill.
  - apply sim_push; auto. intros _. apply sim_src, produces_list.
  - apply sim_with1; auto. intros b l Hb Hl Hr HL Hcv. apply sim_push; auto. intros _.
    pose proof (sim_src (src_of_arr b) l (produces_arr _ _ Hr)) as Hs. unfold room in Hs.
    now replace (amax c <? zlen l) with false in Hs by lia.
  - apply sim_with1; auto. intros b l Hb Hl Hr HL Hcv. simpl. eexists. split; [reflexivity|].
    apply rp_app; auto. apply rp_upd; auto; apply rep_empty.
  - apply sim_with1; auto. intros b l Hb Hl Hr HL Hcv. apply sim_push; auto. intros Hc'. now apply sim_slice.
  - apply sim_with1; auto. intros a l Hb Hl Hr HL Hcv. apply sim_put; auto. intros Hc'. now apply sim_set_all.
  - apply sim_with1; auto. intros a l0 Hb Hl Hr HL Hcv. apply sim_assign_put; auto. apply produces_list.
  - apply sim_with1; auto. intros a l Ha Hl Hr HL Hcv. apply sim_with1; auto. intros b m Hb Hm Hr' HL' Hcv'.
    destruct (Z.eqb_spec i j) as [->|Hne].
    + rewrite Ha in Hb. injection Hb as <-. rewrite Hl in Hm. injection Hm as <-. rewrite Z.eqb_refl. simpl.
      eexists. split; [reflexivity|]. now rewrite (zupd_id _ _ _ _ Hl).
    + apply sim_assign_put; auto. now apply produces_arr.
  - apply sim_with1; auto. intros a l Ha Hl Hr HL Hcv. apply sim_with1; auto. intros b m Hb Hm Hr' HL' Hcv'.
    destruct (Z.eqb_spec i j) as [->|Hne].
    + simpl. eexists. split; [reflexivity|]. unfold arr_move_assign_self. now rewrite (zupd_id _ _ _ _ Ha).
    + unfold arr_move_assign, check_normal, noexcept. rewrite (proj2 Hr), (proj2 Hr').
      destruct (zlen l =? zlen m) eqn:E; [|destruct (dbg c) eqn:Ed, (ndbg c) eqn:En]; simpl.
      * destruct (dbg c); simpl; (eexists; split; [reflexivity|]; apply rp_upd; [apply rp_upd; auto| |]; apply rep_empty).
      * eexists; split; [reflexivity|]; apply rp_upd; [apply rp_upd; auto| |]; apply rep_empty.
      * eexists; split; [reflexivity|]; assumption.
      * eexists; split; [reflexivity|]; apply rp_upd; [apply rp_upd; auto| |]; apply rep_empty.
      * eexists; split; [reflexivity|]; apply rp_upd; [apply rp_upd; auto| |]; apply rep_empty.
  - apply sim_with1; auto. intros a l Ha Hl Hr HL Hcv. apply sim_with1; auto. intros b m Hb Hm Hr' HL' Hcv'. simpl.
    eexists. split; [reflexivity|]. apply rp_upd; auto. apply rp_upd; auto.
  - apply sim_with1; auto. intros a l Ha Hl Hr HL Hcv. apply sim_put; auto. intros. now apply sim_resize.
  - apply sim_with1; auto. intros a l Ha Hl Hr HL Hcv. apply sim_with1; auto. intros b m Hb Hm Hr' HL' Hcv'.
    apply sim_put; auto. intros _. pose proof (sim_src (src_of_arr b) m (produces_arr _ _ Hr')) as Hs. unfold room in Hs.
    now replace (amax c <? zlen m) with false in Hs by lia.
  - apply sim_with1; auto. intros a l Ha Hl Hr HL Hcv. apply sim_with1; auto. intros b m Hb Hm Hr' HL' Hcv'.
    destruct (Z.eqb_spec i j) as [->|Hne]; simpl.
    + eexists. split; [reflexivity|]. rewrite zupd_twice by now apply znth_lt in Hl. apply rp_upd; auto; apply rep_empty.
    + eexists; split; [reflexivity|]; apply rp_upd; [apply rp_upd; auto| |]; apply rep_empty.
  - apply sim_with1; auto. intros a l Ha Hl Hr HL Hcv. apply sim_put; auto. intros. now apply sim_remove.
  - apply sim_with1; auto. intros a l Ha Hl Hr HL Hcv. apply sim_put; auto. intros. apply sim_remove; auto.
    unfold is_long, LONG_MIN, LONG_MAX. lia.
  - apply sim_with1; auto. intros a l Ha Hl Hr HL Hcv. apply sim_put; auto. intros Hc'. unfold arr_remove_back.
    rewrite (proj2 Hr). unfold lsub at 1, lret. destruct (in_long (zlen l - k)) eqn:E; [cbn [bind]|reflexivity].
    apply in_long_spec in E. now apply sim_remove.
  - apply sim_with1; auto. intros a l Ha Hl Hr HL Hcv. apply sim_put; auto. intros Hc'. unfold arr_remove_last.
    rewrite (proj2 Hr). pose proof (zlen_nonneg l). unfold cfg_ok in Hc.
    rewrite lsub_ok by (unfold LONG_MIN, LONG_MAX in *; lia). cbn [bind].
    unfold lsub at 1, lret. destruct (in_long (zlen l - 1 - k)) eqn:E; [cbn [bind]|reflexivity].
    apply in_long_spec in E. apply sim_remove; auto. unfold is_long, LONG_MIN, LONG_MAX. lia.
  - apply sim_with1; auto. intros a l Ha Hl Hr HL Hcv. apply sim_put; auto. intros. now apply sim_remove_indexes.
  - apply sim_with1; auto. intros a l Ha Hl Hr HL Hcv. apply sim_put; auto. intros. now apply sim_insert1.
  - apply sim_with1; auto. intros a l Ha Hl Hr HL Hcv. apply sim_put; auto. intros. now apply sim_insert1.
  - apply sim_with1; auto. intros a l Ha Hl Hr HL Hcv. apply sim_put; auto. intros. unfold arr_insert_back.
    rewrite (proj2 Hr). now apply sim_insert1.
  - apply sim_with1; auto. intros a l Ha Hl Hr HL Hcv. apply sim_with1; auto. intros b m Hb Hm Hr' HL' Hcv'.
    apply sim_put; auto. intros. apply sim_insert; auto. now apply produces_arr.
  - apply sim_with1; auto. intros a l Ha Hl Hr HL Hcv. apply sim_with1; auto. intros b m Hb Hm Hr' HL' Hcv'.
    apply sim_put; auto. intros. apply sim_insert; auto. now apply produces_arr.
  - apply sim_with1; auto. intros a l Ha Hl Hr HL Hcv. apply sim_with1; auto. intros b m Hb Hm Hr' HL' Hcv'.
    apply sim_put; auto. intros. unfold arr_insert_back_arr. rewrite (proj2 Hr). apply sim_insert; auto. now apply produces_arr.
  - apply sim_with1; auto. intros a l Ha Hl Hr HL Hcv. apply sim_put; auto. intros. now apply sim_write.
  - apply sim_with1; auto. intros a l Ha Hl Hr HL Hcv. 
    assert (sub1 c (src_of_arr a) ix = spec_at c l ix (fun p => oget l p)) as ->.
    { apply sim_read; auto. unfold covered, covered_res in *. destruct (spec_at c l ix (fun p => oget l p)); auto. }
    destruct (spec_at c l ix (fun p => oget l p)); simpl; eauto.
  - apply sim_with1; auto. intros a l Ha Hl Hr HL Hcv. simpl. rewrite (proj2 Hr). eauto.
Qed.

(** ** Histories *)
Theorem run1_refines st w ops : checked c = true -> rp st w -> Forall op_long ops ->
  snd (run (step1 zero c) st ops) = snd (run (spec_step1 zero c) w ops) /\
  rsim (fst (run (step1 zero c) st ops)) (fst (run (spec_step1 zero c) w ops)).
Proof.
  intros Hk. revert st w. induction ops as [|o ops IH]; intros st w H HO.
  - simpl. split; [reflexivity|]. eauto.
  - apply Forall_cons_iff in HO as [HO1 HO2].
    pose proof (step1_refines st w o H HO1 (or_introl Hk)) as Hs. cbn [run].
    destruct (spec_step1 zero c w o) as [w' ob|]; simpl in Hs.
    + destruct Hs as (st' & -> & H'). specialize (IH st' w' H' HO2).
      destruct (run (step1 zero c) st' ops) as [r t], (run (spec_step1 zero c) w' ops) as [r' t'].
      simpl in IH. destruct IH as [-> IH].
      destruct ob; simpl; auto. destruct (fatal f); simpl; auto. split; [reflexivity|]. eauto.
    + rewrite Hs. simpl. split; reflexivity.
Qed.

(** Without checks: as long as the abstract run only makes valid calls. *)
Fixpoint valid_run {S O} (step : S -> O -> res S V) (s : S) (ops : list O) : Prop :=
  match ops with
  | [] => True
  | o :: ops' =>
      match step s o with
      | Crash => False
      | Next s' (Failed f) => f = BadAlloc /\ valid_run step s' ops'
      | Next s' _ => valid_run step s' ops'
      end
  end.
Theorem run1_refines_any st w ops : rp st w -> Forall op_long ops -> valid_run (spec_step1 zero c) w ops ->
  snd (run (step1 zero c) st ops) = snd (run (spec_step1 zero c) w ops) /\
  rsim (fst (run (step1 zero c) st ops)) (fst (run (spec_step1 zero c) w ops)).
Proof.
  revert st w. induction ops as [|o ops IH]; intros st w H HO HV.
  - simpl. split; [reflexivity|]. eauto.
  - apply Forall_cons_iff in HO as [HO1 HO2]. cbn [valid_run run] in *.
    pose proof (step1_refines st w o H HO1) as Hs. unfold covered_res in Hs.
    destruct (spec_step1 zero c w o) as [w' ob|]; simpl in Hs; [|contradiction].
    assert (valid_run (spec_step1 zero c) w' ops) as HV' by (destruct ob; tauto).
    destruct Hs as (st' & -> & H'); [destruct ob; tauto|]. specialize (IH st' w' H' HO2 HV').
    destruct (run (step1 zero c) st' ops) as [r t], (run (spec_step1 zero c) w' ops) as [r' t'].
    simpl in IH. destruct IH as [-> IH].
    destruct ob; simpl; auto. destruct (fatal f); simpl; auto. split; [reflexivity|]. eauto.
Qed.
End P.
