From Verif Require Import Base.Outcome Base.ZList Model.Index Model.View2D Model.Iterator Model.Algo.
From Verif Require Import Spec.ArraySpec Spec.IteratorSpec Spec.View2DSpec Spec.AlgoSpec Proofs.IteratorProofs Proofs.SliceProofs.
From Coq Require Import List Bool.

Lemma near_spec n i : near n i = true <-> is_long i /\ is_long (n - i) /\ is_long (n - i - 1).
Proof. unfold near. rewrite !andb_true_iff, !in_long_spec. unfold is_long. tauto. Qed.
Lemma znth_way_len ix r : zlen (way ix r) = zlen (ix (fst r)).
Proof. unfold way, zlen. destruct (snd r); [now rewrite rev_length|reflexivity]. Qed.
Lemma znth_way ix r i : znth (way ix r) i = if snd r then znth (ix (fst r)) (zlen (ix (fst r)) - 1 - i) else znth (ix (fst r)) i.
Proof.
  unfold way. destruct (snd r); [|reflexivity]. destruct (Z_lt_dec i 0); [|destruct (Z_lt_dec i (zlen (ix (fst r))))].
  - rewrite !znth_none; [reflexivity|lia|lia].
  - apply znth_rev. lia.
  - rewrite !znth_none; [reflexivity|lia|]. unfold zlen in *. rewrite rev_length. lia.
Qed.

Section C.
Variables (c : cfg) (E : env Z) (ix : Z -> list Z) (used : range -> Prop).

Lemma move_ok m x r i n : at_ ix used x (r, i) -> near (zlen (ix (fst r))) (moved m i n) = true ->
  exists x', var_move c m x n = Ok x' /\ at_ ix used x' (r, moved m i n).
Proof.
  destruct x as [d it], r as [p d']. cbn [fst snd]. intros (HU & Hd & Hit & _) HN. cbn [v_rev v_it fst snd] in *. subst d it.
  pose proof (proj1 (near_spec _ _) HN) as (H1 & H2 & H3). set (N := zlen (ix p)) in *.
  exists (mkvar d' (mkit (Some p) (if d' then N - moved m i n else moved m i n))). split.
  2: { repeat split; auto. }
  unfold var_move. cbn [v_rev v_it]. destruct d'.
  - assert (is_long (N - moved m i n)) as H4 by exact H2.
    destruct m; cbn [moved] in *; unfold r_plus, r_inc, r_dec;
      rewrite ?minus_ok, ?plus_ok, ?addeq_ok, ?subeq_ok, ?inc_ok, ?dec_ok by (unfold is_long in *; lia); cbn [bind]; do 3 f_equal; lia.
  - destruct m; cbn [moved] in *;
      rewrite ?minus_ok, ?plus_l_ok, ?plus_ok, ?addeq_ok, ?subeq_ok, ?post_inc_ok, ?post_dec_ok, ?inc_ok, ?dec_ok by (unfold is_long in *; lia); reflexivity.
Qed.

Lemma ref_ok x r i : at_ ix used x (r, i) -> shows (E (fst r)) (ix (fst r)) ->
  (forall p, znth (way ix r) i = Some p -> var_ref c E x = Ok p) /\
  (znth (way ix r) i = None -> checked c = true -> var_ref c E x = Fail (report c)).
Proof.
  destruct x as [d it], r as [p d']. cbn [fst snd]. intros (HU & Hd & Hit & HN) HS. cbn [v_rev v_it fst snd] in *. subst d it.
  pose proof (proj1 (near_spec _ _) HN) as (H1 & H2 & H3). rewrite znth_way. cbn [fst snd]. unfold var_ref. cbn [v_rev v_it].
  set (N := zlen (ix p)) in *. destruct d'.
  - unfold r_deref. rewrite dec_ok by exact H3. cbn [bind]. destruct (deref_thm c E p (ix p) (N - i - 1) HS) as [D1 D2].
    split.
    + intros q Hq. apply D1. now replace (N - i - 1) with (N - 1 - i) by lia.
    + intros Hq HC. apply D2; [|assumption]. intros HR. destruct (znth_some (ix p) (N - 1 - i)) as [v Hv]; [fold N in HR |- *; lia|congruence].
  - destruct (deref_thm c E p (ix p) i HS) as [D1 D2]. split; [exact D1|]. intros Hq HC. apply D2; [|assumption]. intros HR.
    destruct (znth_some (ix p) i HR) as [v Hv]. congruence.
Qed.

Lemma index_ok x r i n : at_ ix used x (r, i) -> near (zlen (ix (fst r))) (i + n) = true -> shows (E (fst r)) (ix (fst r)) ->
  (forall p, znth (way ix r) (i + n) = Some p -> var_index c E x n = Ok p) /\
  (znth (way ix r) (i + n) = None -> checked c = true -> var_index c E x n = Fail (report c)).
Proof.
  destruct x as [d it], r as [p d']. cbn [fst snd]. intros HA HN HS. pose proof HA as (HU & Hd & Hit & _). cbn [v_rev v_it fst snd] in *. subst d it.
  pose proof (proj1 (near_spec _ _) HN) as (H1 & H2 & H3). unfold var_index. cbn [v_rev v_it]. destruct d'.
  - destruct (move_ok MPlus _ _ _ n HA HN) as (x' & HM & HA'). unfold var_move in HM. cbn [v_rev v_it] in HM.
    destruct (r_plus c _ n) as [it'| |]; cbn [bind] in HM |- *; try discriminate. injection HM as <-.
    cbn [moved] in HA'. pose proof (ref_ok _ _ _ HA' HS) as HR. unfold var_ref in HR. cbn [v_rev v_it] in HR. exact HR.
  - rewrite znth_way. cbn [fst snd]. destruct (subscript_thm c E p (ix p) i n HS H1) as [D1 D2]. split; [exact D1|]. intros Hq HC. apply D2; [|assumption]. intros HR.
    destruct (znth_some (ix p) (i + n) HR) as [v Hv]. congruence.
Qed.

Lemma diff_ok x y r q i j : at_ ix used x (r, i) -> at_ ix used y (q, j) -> snd r = snd q ->
  (fst r = fst q -> in_long (i - j) = true -> var_diff c x y = Ok (i - j)) /\
  (fst r <> fst q -> checked c = true -> var_diff c x y = Fail (report c)).
Proof.
  destruct x as [d it], y as [d2 it2], r as [p d'], q as [p2 d2']. cbn [fst snd]. intros (_ & Hd & Hit & _) (_ & Hd2 & Hit2 & _) HE. cbn [v_rev v_it fst snd] in *. subst.
  unfold var_diff. cbn [v_rev v_it]. split.
  - intros <- HL. apply in_long_spec in HL. destruct d2'; [unfold r_diff|].
    + destruct (order_thm c p (zlen (ix p) - j) (zlen (ix p) - i)) as [-> _]; [unfold is_long; lia|]. f_equal. lia.
    + apply order_thm. exact HL.
  - intros HN HC. destruct d2'; [unfold r_diff|]; apply mixed_thm; auto.
Qed.

Lemma comp_ok o x y r q i j : at_ ix used x (r, i) -> at_ ix used y (q, j) -> snd r = snd q ->
  (fst r = fst q -> var_comp c o x y = Ok (comp_at o i j)) /\
  (fst r <> fst q -> checked c = true -> var_comp c o x y = Fail (report c)).
Proof.
  destruct x as [d it], y as [d2 it2], r as [p d'], q as [p2 d2']. cbn [fst snd]. intros (_ & Hd & Hit & _) (_ & Hd2 & Hit2 & _) HE. cbn [v_rev v_it fst snd] in *. subst.
  unfold var_comp. cbn [v_rev v_it]. split.
  - intros <-. destruct d2'; rewrite cmp_ok; f_equal; destruct o; cbn; lia.
  - intros HN HC. destruct d2'; apply mixed_thm; auto.
Qed.

Context {V R : Type}.
Variable writable : range -> bool.
Implicit Types (s : list V) (M : memory V).
Notation laid := (laid_out E used writable ix).
Notation kept := (rest_kept used writable ix).

Lemma kept_refl s : kept s s.
Proof. split; auto. Qed.
Lemma kept_trans s1 s2 s3 : kept s1 s2 -> kept s2 s3 -> kept s1 s3.
Proof. intros [A B] [A' B']. split; [congruence|]. intros p Hp. now rewrite B', B. Qed.

Lemma same_range_spec r q : same_range r q = true <-> r = q.
Proof.
  destruct r as [p d], q as [p2 d2]. unfold same_range. cbn [fst snd]. rewrite andb_true_iff, Z.eqb_eq, Bool.eqb_true_iff.
  split; [intros [-> ->]; reflexivity|intros H; injection H as -> ->; auto].
Qed.

(** Writing an element of a writable range. *)
Lemma put_ok s M r i p v : laid s M -> used r -> writable r = true -> znth (way ix r) i = Some p ->
  0 <= p < zlen s /\ laid (zupd s p v) (put M r i v) /\ kept s (zupd s p v).
Proof.
  intros HL HU HW Hp. pose proof (HL r HU) as (HS & HB & (HZ & HH) & HX).
  assert (0 <= p < zlen s) as Hps. { apply HB. apply znth_in in Hp. unfold way in Hp. destruct (snd r); [now apply in_rev|assumption]. }
  pose proof (znth_lt _ _ _ Hp) as Hi.
  split; [assumption|]. split.
  - intros q HQ. pose proof (HL q HQ) as (HS' & HB' & (HZ' & HH') & HX'). split; [assumption|]. split; [intros; rewrite zlen_zupd; auto|]. split; [|exact HX'].
    unfold put. destruct (same_range r q) eqn:EQ.
    + apply same_range_spec in EQ. subst q. split; [now rewrite zlen_zupd|]. intros j t Ht. rewrite !znth_zupd by lia.
      destruct (Z.eqb_spec t p) as [->|Hne].
      * destruct (HX HW r HU i j p Hp Ht) as [_ ->]. now rewrite Z.eqb_refl.
      * destruct (Z.eqb_spec j i) as [->|]; [congruence|]. now apply HH.
    + split; [assumption|]. intros j t Ht. rewrite znth_zupd by lia. destruct (Z.eqb_spec t p) as [->|Hne]; [|now apply HH'].
      destruct (HX HW q HQ i j p Hp Ht) as [-> _]. exfalso. enough (same_range q q = true) by congruence. now apply same_range_spec.
  - split; [apply zlen_zupd|]. intros t Ht. rewrite znth_zupd by lia. destruct (Z.eqb_spec t p) as [->|]; [|reflexivity].
    exfalso. apply (Ht r HU HW). eapply znth_in; eauto.
Qed.

Lemma var_of_ok (xs : list var) (ps : list place) x w : Forall2 (at_ ix used) xs ps -> nth_error ps x = Some w -> exists v, var_of xs x = Ok v /\ at_ ix used v w.
Proof.
  intros HF. revert x. induction HF as [|v w' xs ps HA HF IH]; intros [|x] H; cbn in H; try discriminate.
  - injection H as ->. exists v. split; [reflexivity|assumption].
  - exact (IH x H).
Qed.

Definition agree (s : list V) (o : checked_result) (a : run_result V R) : Prop :=
  match o with
  | Done r M' => exists s', a = RDone r s' /\ laid s' M' /\ kept s s'
  | Reported M' => checked c = true -> exists s', a = RFail (report c) s' /\ laid s' M' /\ kept s s'
  | Nothing => True
  end.

Lemma agree_step s s' o a : kept s s' -> agree s' o a -> agree s o a.
Proof.
  intros HK. destruct o as [r M'|M'|]; cbn; auto.
  - intros (t & A & B & C). exists t. eauto using kept_trans.
  - intros H HC. destruct (H HC) as (t & A & B & C). exists t. eauto using kept_trans.
Qed.

Theorem run_agrees (a : algo V R) : forall xs ps s M, laid s M -> Forall2 (at_ ix used) xs ps ->
  agree s (positions writable a ps M) (run c E a xs s).
Proof.
  induction a as [r|x k IH|x n k IH|x v k IH|x n v k IH|m x n k IH|x y k IH|o x y k IH]; intros xs ps s M HL HF; cbn [positions run].
  - cbn. exists s. auto using kept_refl.
  - destruct (nth_error ps x) as [[r i]|] eqn:EX; [|exact I]. destruct (var_of_ok _ _ _ _ HF EX) as (w & -> & HA). cbn [bind].
    pose proof HA as (HU & _). pose proof (HL r HU) as (HS & HB & (HZ & HH) & HX). destruct (ref_ok w r i HA HS) as [D1 D2]. unfold at_place.
    destruct (near (zlen (M r)) i); [|exact I]. destruct (znth (M r) i) as [v|] eqn:EV.
    + destruct (znth_some (way ix r) i) as [p Hp]; [rewrite HZ; eapply znth_lt; eauto|]. rewrite (D1 p Hp). cbn [bind].
      rewrite (oget_ok _ _ v) by (now rewrite (HH i p Hp)). cbn [then_]. now apply IH.
    + cbn. intros HC. exists s. rewrite D2; auto using kept_refl. apply znth_none. intros HR. rewrite HZ in HR. destruct (znth_some (M r) i HR). congruence.
  - destruct (nth_error ps x) as [[r i]|] eqn:EX; [|exact I]. destruct (var_of_ok _ _ _ _ HF EX) as (w & -> & HA). cbn [bind].
    pose proof HA as (HU & _). pose proof (HL r HU) as (HS & HB & (HZ & HH) & HX). unfold at_place.
    destruct (near (zlen (M r)) (i + n)) eqn:EN; [|exact I]. rewrite <- HZ, znth_way_len in EN. destruct (index_ok w r i n HA EN HS) as [D1 D2].
    destruct (znth (M r) (i + n)) as [v|] eqn:EV.
    + destruct (znth_some (way ix r) (i + n)) as [p Hp]; [rewrite HZ; eapply znth_lt; eauto|]. rewrite (D1 p Hp). cbn [bind].
      rewrite (oget_ok _ _ v) by (now rewrite (HH _ p Hp)). cbn [then_]. now apply IH.
    + cbn. intros HC. exists s. rewrite D2; auto using kept_refl. apply znth_none. intros HR. rewrite HZ in HR. destruct (znth_some (M r) (i + n) HR). congruence.
  - destruct (nth_error ps x) as [[r i]|] eqn:EX; [|exact I]. destruct (var_of_ok _ _ _ _ HF EX) as (w & -> & HA). cbn [bind].
    pose proof HA as (HU & _). pose proof (HL r HU) as (HS & HB & (HZ & HH) & HX). destruct (ref_ok w r i HA HS) as [D1 D2]. destruct (writable r) eqn:EW; [|exact I]. unfold at_place.
    destruct (near (zlen (M r)) i); [|exact I]. destruct (znth (M r) i) as [v'|] eqn:EV.
    + destruct (znth_some (way ix r) i) as [p Hp]; [rewrite HZ; eapply znth_lt; eauto|]. rewrite (D1 p Hp). cbn [bind].
      destruct (put_ok s M r i p v HL HU EW Hp) as (HP & HL' & HK). rewrite oset_ok by assumption. cbn [then_].
      eapply agree_step; [exact HK|]. now apply IH.
    + cbn. intros HC. exists s. rewrite D2; auto using kept_refl. apply znth_none. intros HR. rewrite HZ in HR. destruct (znth_some (M r) i HR). congruence.
  - destruct (nth_error ps x) as [[r i]|] eqn:EX; [|exact I]. destruct (var_of_ok _ _ _ _ HF EX) as (w & -> & HA). cbn [bind].
    pose proof HA as (HU & _). pose proof (HL r HU) as (HS & HB & (HZ & HH) & HX). destruct (writable r) eqn:EW; [|exact I]. unfold at_place.
    destruct (near (zlen (M r)) (i + n)) eqn:EN; [|exact I]. rewrite <- HZ, znth_way_len in EN. destruct (index_ok w r i n HA EN HS) as [D1 D2].
    destruct (znth (M r) (i + n)) as [v'|] eqn:EV.
    + destruct (znth_some (way ix r) (i + n)) as [p Hp]; [rewrite HZ; eapply znth_lt; eauto|]. rewrite (D1 p Hp). cbn [bind].
      destruct (put_ok s M r (i + n) p v HL HU EW Hp) as (HP & HL' & HK). rewrite oset_ok by assumption. cbn [then_].
      eapply agree_step; [exact HK|]. now apply IH.
    + cbn. intros HC. exists s. rewrite D2; auto using kept_refl. apply znth_none. intros HR. rewrite HZ in HR. destruct (znth_some (M r) (i + n) HR). congruence.
  - destruct (nth_error ps x) as [[r i]|] eqn:EX; [|exact I]. destruct (var_of_ok _ _ _ _ HF EX) as (w & -> & HA). cbn [bind].
    pose proof HA as (HU & _). pose proof (HL r HU) as (HS & HB & (HZ & HH) & HX).
    destruct (near (zlen (M r)) (moved m i n)) eqn:EN; [|exact I]. rewrite <- HZ, znth_way_len in EN. destruct (move_ok m w r i n HA EN) as (w' & -> & HA').
    cbn [then_]. apply IH; [assumption|]. apply Forall2_app; auto.
  - destruct (nth_error ps x) as [[r i]|] eqn:EX; [|exact I]. destruct (nth_error ps y) as [[q j]|] eqn:EY; [|exact I].
    destruct (var_of_ok _ _ _ _ HF EX) as (w & -> & HA). destruct (var_of_ok _ _ _ _ HF EY) as (u & -> & HB). cbn [bind].
    unfold compared. destruct (Bool.eqb (snd r) (snd q)) eqn:ED; [|exact I]. apply Bool.eqb_prop in ED. destruct (diff_ok w u r q i j HA HB ED) as [D1 D2].
    destruct (Z.eqb_spec (fst r) (fst q)) as [EF|EF].
    + destruct (in_long (i - j)) eqn:EI; [|exact I]. rewrite D1 by auto. cbn [then_]. now apply IH.
    + cbn. intros HC. exists s. rewrite D2; auto using kept_refl.
  - destruct (nth_error ps x) as [[r i]|] eqn:EX; [|exact I]. destruct (nth_error ps y) as [[q j]|] eqn:EY; [|exact I].
    destruct (var_of_ok _ _ _ _ HF EX) as (w & -> & HA). destruct (var_of_ok _ _ _ _ HF EY) as (u & -> & HB). cbn [bind].
    unfold compared. destruct (Bool.eqb (snd r) (snd q)) eqn:ED; [|exact I]. apply Bool.eqb_prop in ED. destruct (comp_ok o w u r q i j HA HB ED) as [D1 D2].
    destruct (Z.eqb_spec (fst r) (fst q)) as [EF|EF].
    + rewrite D1 by auto. cbn [then_]. now apply IH.
    + cbn. intros HC. exists s. rewrite D2; auto using kept_refl.
Qed.
End C.

(** Plain pointers and positions. *)
Lemma put_len {V} (M : memory V) r i v q : zlen (put M r i v q) = zlen (M q).
Proof. unfold put. destruct (same_range r q) eqn:EQ; [|reflexivity]. apply same_range_spec in EQ. subst. apply zlen_zupd. Qed.

Section P.
Context {V R : Type}.
Variables (writable : range -> bool) (fits : range -> Prop).
Implicit Types (M : memory V) (ps : list place).
Definition inside M (w : place) : Prop := fits (fst w) /\ 0 <= snd w <= zlen (M (fst w)).
Lemma near_in n i : 0 <= i <= n -> n <= LONG_MAX -> near n i = true.
Proof. intros. apply near_spec. unfold is_long, LONG_MIN, LONG_MAX in *. lia. Qed.
Lemma inside_put M r i v w : inside M w -> inside (put M r i v) w.
Proof. unfold inside. now rewrite put_len. Qed.
Lemma nth_forall {A} (P : A -> Prop) l k x : Forall P l -> nth_error l k = Some x -> P x.
Proof. intros HF HX. eapply Forall_forall; eauto. eapply nth_error_In; eauto. Qed.

Theorem pointers_positions (a : algo V R) : forall ps M r M', (forall q, fits q -> zlen (M q) <= LONG_MAX) -> Forall (inside M) ps ->
  pointers writable a ps M = Some (r, M') -> positions writable a ps M = Done r M'.
Proof.
  induction a as [r0|x k IH|x n k IH|x v k IH|x n v k IH|m x n k IH|x y k IH|o x y k IH]; intros ps M r M' HM HI HP; cbn [positions pointers] in *.
  - injection HP as -> ->. reflexivity.
  - destruct (nth_error ps x) as [[q i]|] eqn:EX; [|discriminate]. destruct (nth_forall _ _ _ _ HI EX) as [HU HR]. cbn [fst snd] in *. unfold at_place.
    destruct (znth (M q) i) as [v|] eqn:EV; [|discriminate]. rewrite near_in by auto. eauto.
  - destruct (nth_error ps x) as [[q i]|] eqn:EX; [|discriminate]. destruct (nth_forall _ _ _ _ HI EX) as [HU HR]. cbn [fst snd] in *. unfold at_place.
    destruct (znth (M q) (i + n)) as [v|] eqn:EV; [|discriminate]. pose proof (znth_lt _ _ _ EV). rewrite near_in by (auto; lia). eauto.
  - destruct (nth_error ps x) as [[q i]|] eqn:EX; [|discriminate]. destruct (nth_forall _ _ _ _ HI EX) as [HU HR]. cbn [fst snd] in *. unfold at_place.
    destruct (writable q); cbn [andb] in HP; [|discriminate]. destruct ((0 <=? i) && (i <? zlen (M q))) eqn:EB; [|discriminate].
    destruct (znth_some (M q) i) as [v' Hv']; [lia|]. rewrite near_in, Hv' by (auto; lia).
    apply IH; auto. { intros; rewrite put_len; auto. } { eapply Forall_impl; [|exact HI]. intros; now apply inside_put. }
  - destruct (nth_error ps x) as [[q i]|] eqn:EX; [|discriminate]. destruct (nth_forall _ _ _ _ HI EX) as [HU HR]. cbn [fst snd] in *. unfold at_place.
    destruct (writable q); cbn [andb] in HP; [|discriminate]. destruct ((0 <=? i + n) && (i + n <? zlen (M q))) eqn:EB; [|discriminate].
    destruct (znth_some (M q) (i + n)) as [v' Hv']; [lia|]. rewrite near_in, Hv' by (auto; lia).
    apply IH; auto. { intros; rewrite put_len; auto. } { eapply Forall_impl; [|exact HI]. intros; now apply inside_put. }
  - destruct (nth_error ps x) as [[q i]|] eqn:EX; [|discriminate]. destruct (nth_forall _ _ _ _ HI EX) as [HU HR]. cbn [fst snd] in *.
    destruct ((0 <=? moved m i n) && (moved m i n <=? zlen (M q))) eqn:EB; [|discriminate]. rewrite near_in by (auto; lia).
    apply IH; auto. apply Forall_app. split; [assumption|]. repeat constructor; cbn [fst snd]; auto; lia.
  - destruct (nth_error ps x) as [[q i]|] eqn:EX; [|discriminate]. destruct (nth_error ps y) as [[q2 j]|] eqn:EY; [|discriminate].
    destruct (nth_forall _ _ _ _ HI EX) as [HU HR]. destruct (nth_forall _ _ _ _ HI EY) as [HU2 HR2]. cbn [fst snd] in *.
    destruct (same_range q q2) eqn:ES; [|discriminate]. apply same_range_spec in ES. subst q2. unfold compared. rewrite Bool.eqb_reflx, Z.eqb_refl.
    rewrite (proj2 (in_long_spec (i - j))); [eauto|]. specialize (HM q HU). unfold LONG_MIN, LONG_MAX in *. lia.
  - destruct (nth_error ps x) as [[q i]|] eqn:EX; [|discriminate]. destruct (nth_error ps y) as [[q2 j]|] eqn:EY; [|discriminate].
    destruct (same_range q q2) eqn:ES; [|discriminate]. apply same_range_spec in ES. subst q2. unfold compared. rewrite Bool.eqb_reflx, Z.eqb_refl. eauto.
Qed.
End P.

Theorem any_thm c E ix used writable {V R} (a : algo V R) xs ps s M r M' :
  laid_out E used writable ix s M -> Forall2 (at_ ix used) xs ps -> Forall (fun w => 0 <= snd w <= zlen (M (fst w))) ps ->
  pointers writable a ps M = Some (r, M') ->
  exists s', run c E a xs s = RDone r s' /\ laid_out E used writable ix s' M' /\ rest_kept used writable ix s s'.
Proof.
  intros HL HF HI HP. pose proof (run_agrees c E ix used writable a xs ps s M HL HF) as HA.
  rewrite (pointers_positions writable used a ps M r M') in HA; [exact HA| | |exact HP].
  - intros q HQ. destruct (HL q HQ) as ((HB & _) & _ & (HZ & _) & _). rewrite <- HZ, znth_way_len. exact HB.
  - clear - HF HI. induction HF as [|x [q i] xs ps HA HF IH]; constructor.
    + inversion HI; subst. split; [apply HA|assumption].
    + apply IH. now inversion HI.
Qed.

Theorem starts_thm E ix (used : range -> Prop) p : shows (E p) (ix p) ->
  (used (p, false) -> at_ ix used (v_begin p) ((p, false), 0) /\ exists e, v_end E p = Ok e /\ at_ ix used e ((p, false), zlen (ix p))) /\
  (used (p, true) -> (exists b, v_rbegin E p = Ok b /\ at_ ix used b ((p, true), 0)) /\ at_ ix used (v_rend p) ((p, true), zlen (ix p))).
Proof.
  intros (HB & HN & _). pose proof (zlen_nonneg (ix p)). split; intros HU; split.
  - repeat split; auto. apply near_in; cbn [fst]; lia.
  - unfold v_end, it_end. rewrite HN. eexists. split; [reflexivity|]. repeat split; auto. apply near_in; cbn [fst]; lia.
  - unfold v_rbegin, it_end. rewrite HN. eexists. split; [reflexivity|]. repeat split; auto.
    + cbn. unfold it_make. do 2 f_equal. lia.
    + apply near_in; cbn [fst]; lia.
  - repeat split; auto.
    + cbn. unfold it_begin, it_make. do 2 f_equal. lia.
    + apply near_in; cbn [fst]; lia.
Qed.

Lemma gather_some {V} (s : list V) ps : (forall p, In p ps -> 0 <= p < zlen s) -> exists l, holds s ps l.
Proof.
  induction ps as [|p ps IH]; intros H.
  - exists []. split; [reflexivity|]. intros i q Hq. rewrite znth_nil in Hq. discriminate.
  - destruct IH as (l & HL & HH); [intros; apply H; now right|]. destruct (znth_some s p) as [v Hv]; [apply H; now left|].
    exists (v :: l). split; [rewrite !zlen_cons; lia|]. intros i q Hq. pose proof (znth_lt _ _ _ Hq) as Hi.
    destruct (Z.eq_dec i 0) as [->|].
    + rewrite znth_cons_0 in Hq. rewrite znth_cons_0. congruence.
    + rewrite znth_cons_pos in Hq by lia. rewrite znth_cons_pos by lia. auto.
Qed.
Lemma nodup_znth {A} (l : list A) i j x : NoDup l -> znth l i = Some x -> znth l j = Some x -> i = j.
Proof.
  intros HN Hi Hj. pose proof (znth_lt _ _ _ Hi) as Bi. pose proof (znth_lt _ _ _ Hj) as Bj.
  unfold znth in *. replace (i <? 0) with false in Hi by lia. replace (j <? 0) with false in Hj by lia.
  assert (Z.to_nat i = Z.to_nat j); [|lia]. eapply NoDup_nth_error; eauto; [|congruence]. unfold zlen in *. lia.
Qed.

(** One view of an array, forwards or backwards. *)
Theorem view_thm c N o {V} (s : list V) (d : bool) : is_view c N o -> zlen s = N ->
  exists ps vs first last, zlen ps = zlen vs /\ o_size o = Ok (zlen ps) /\
    (forall i p, znth ps i = Some p -> o_lin c o (if d then zlen ps - 1 - i else i) = Ok p /\ 0 <= p < N /\ znth s p = znth vs i) /\
    (if d then v_rbegin (fun _ => flag_elems c o) 0 = Ok first /\ last = v_rend 0 else first = v_begin 0 /\ v_end (fun _ => flag_elems c o) 0 = Ok last) /\
    forall (R : Type) (writes : bool) (a : algo V R) r M', (writes = true -> NoDup ps) ->
      pointers (fun _ => writes) a [((0, d), 0); ((0, d), zlen vs)] (fun _ => vs) = Some (r, M') ->
      exists s', run c (fun _ => flag_elems c o) a [first; last] s = RDone r s' /\ holds s' ps (M' (0, d)) /\ zlen s' = N /\
        forall p, writes = false \/ ~ In p ps -> znth s' p = znth s p.
Proof.
  intros HV HS. destruct (elems_show c N o HV) as (n & l & HN & HL & HSh & HP). set (E := fun _ : Z => flag_elems c o).
  set (ix := fun _ : Z => l). set (used := fun r : range => r = (0, d)).
  assert (forall p, In p l -> 0 <= p < zlen s) as HB. { intros p Hp. apply in_znth in Hp as (i & Hi). rewrite HS. eapply HP; eauto. }
  destruct (gather_some s (way ix (0, d))) as (vs & HZ & HH). { intros p Hp. apply HB. unfold way, ix in Hp. cbn in Hp. destruct d; [now apply in_rev|assumption]. }
  assert (zlen (way ix (0, d)) = zlen l) as HW by apply znth_way_len.
  destruct (starts_thm E ix used 0 HSh) as [SF SR].
  assert (exists first last, (if d then v_rbegin E 0 = Ok first /\ last = v_rend 0 else first = v_begin 0 /\ v_end E 0 = Ok last) /\ at_ ix used first ((0, d), 0) /\ at_ ix used last ((0, d), zlen l)) as (first & last & HE & HA1 & HA2).
  { destruct d.
    - destruct (SR eq_refl) as ((b & Hb & Ab) & Ae). exists b, (v_rend 0). auto.
    - destruct (SF eq_refl) as (Ab & e & He & Ae). exists (v_begin 0), e. auto. }
  exists (way ix (0, d)), vs, first, last. split; [assumption|]. split; [rewrite HN, HW, HL; reflexivity|]. split; [|split; [exact HE|]].
  - intros i p Hi. split; [|split].
    + rewrite HW. rewrite znth_way in Hi. cbn [fst snd] in Hi. unfold ix in Hi. destruct d; eapply HP; eauto.
    + assert (In p l). { apply znth_in in Hi. unfold way, ix in Hi. cbn in Hi. destruct d; [now apply in_rev|assumption]. } rewrite <- HS. auto.
    + now apply HH.
  - intros R writes a r M' HND HPt.
    destruct (any_thm c E ix used (fun _ => writes) a [first; last] [((0, d), 0); ((0, d), zlen vs)] s (fun _ => vs) r M') as (s' & HR & HL' & HK1 & HK2); auto.
    + intros q ->. split; [exact HSh|]. split; [exact HB|]. split; [split; [exact HZ|exact HH]|].
      intros HWr q -> i j p Hi Hj. split; [reflexivity|]. eapply nodup_znth; eauto.
    + constructor; [exact HA1|]. constructor; [|constructor]. rewrite <- HZ, HW. exact HA2.
    + pose proof (zlen_nonneg vs). repeat constructor; cbn; lia.
    + exists s'. split; [exact HR|]. destruct (HL' (0, d) eq_refl) as (_ & _ & HH' & _). split; [exact HH'|]. split; [congruence|].
      intros p Hp. apply HK2. intros q -> HWr. cbn in HWr. destruct Hp as [Hp|Hp]; [congruence|assumption].
Qed.

Lemma debug_unchecked c b : checked c = false -> check_debug c (Ok b) = Ok tt.
Proof. unfold checked, check_debug, check_always. destruct (dbg c), (exc c), (ndbg c), b; cbn; congruence. Qed.
(** Pointers to the elements of owning arrays. *)
Theorem address_thm c o n i : owner o n -> 0 <= i < n -> n <= LONG_MAX ->
  exists it, it_plus c (it_begin 0) i = Ok it /\ to_address c (fun _ => flag_elems c o) it = Ok i /\
    it_deref c (fun _ => flag_elems c o) it = Ok i /\ o_data n = Some 0.
Proof.
  intros HO Hi HN. exists (mkit (Some 0) i). split; [apply plus_ok; unfold is_long, LONG_MIN, LONG_MAX in *; lia|].
  unfold to_address, it_arrow, it_deref. rewrite somewhere_some. cbn [bind target it_ptr it_pos f_size f_at flag_elems].
  assert (o_size o = Ok n /\ o_lin c o i = Ok i) as [-> ->] by (destruct HO as [->|(m & k & ->)]; split; reflexivity). cbn [bind].
  replace ((-1 <? i) && (i <? n)) with true by lia. rewrite check_debug_true. cbn. unfold o_data. replace (n =? 0) with false by lia. auto.
Qed.
Theorem end_address_thm c o n : owner o n -> 0 <= n <= LONG_MAX ->
  exists e, it_end (fun _ => flag_elems c o) 0 = Ok e /\
    (checked c = true -> to_address c (fun _ => flag_elems c o) e = noexcept (Fail (report c))) /\
    (checked c = false -> to_address c (fun _ => flag_elems c o) e = Ok n) /\
    span_of c (fun _ => flag_elems c o) (it_begin 0) e = if checked c && (n =? 0) then noexcept (Fail (report c)) else Ok (0, n).
Proof.
  intros HO Hn. assert (o_size o = Ok n /\ forall i, o_lin c o i = Ok i) as [HS HL] by (destruct HO as [->|(m & k & ->)]; split; reflexivity).
  unfold it_end. cbn [flag_elems f_size]. rewrite HS. cbn [bind]. exists (mkit (Some 0) n). split; [reflexivity|].
  assert (forall i, it_arrow c (fun _ => flag_elems c o) (mkit (Some 0) i) = check_debug c (Ok ((-1 <? i) && (i <? n))) ;;; Ok i) as HA.
  { intros i. unfold it_arrow. rewrite somewhere_some. cbn [bind target it_ptr it_pos f_size f_at flag_elems]. rewrite HS, HL. reflexivity. }
  unfold to_address, span_of, to_address. unfold it_begin, it_make. rewrite !HA. split; [|split].
  - intros HC. replace ((-1 <? n) && (n <? n)) with false by lia. now rewrite check_debug_false.
  - intros HC. rewrite debug_unchecked by assumption. reflexivity.
  - assert (it_diff c (mkit (Some 0) n) (mkit (Some 0) 0) = Ok n) as HD.
    { destruct (order_thm c 0 n 0) as [-> _]; [unfold is_long, LONG_MIN, LONG_MAX in *; lia|f_equal; lia]. }
    destruct (Z.eqb_spec n 0) as [->|].
    + destruct (checked c) eqn:HC; cbn [andb].
      * rewrite check_debug_false by assumption. cbn [bind noexcept]. destruct (report c); reflexivity.
      * rewrite debug_unchecked by assumption. cbn [bind noexcept]. rewrite HD. reflexivity.
    + replace ((-1 <? 0) && (0 <? n)) with true by lia. rewrite check_debug_true, andb_false_r. cbn [bind noexcept]. now rewrite HD.
Qed.
Theorem span_thm c o n i j : owner o n -> 0 <= i < n -> i <= j <= n -> n <= LONG_MAX ->
  exists a b, it_plus c (it_begin 0) i = Ok a /\ it_plus c (it_begin 0) j = Ok b /\ span_of c (fun _ => flag_elems c o) a b = Ok (i, j - i).
Proof.
  intros HO Hi Hj HN. destruct (address_thm c o n i HO Hi HN) as (a & Ha & Hp & _). exists a, (mkit (Some 0) j).
  assert (it_plus c (it_begin 0) j = Ok (mkit (Some 0) j)) as Hb by (apply plus_ok; unfold is_long, LONG_MIN, LONG_MAX in *; lia).
  assert (it_plus c (it_begin 0) i = Ok (mkit (Some 0) i)) as Ha' by (apply plus_ok; unfold is_long, LONG_MIN, LONG_MAX in *; lia).
  split; [exact Ha|]. split; [exact Hb|]. assert (a = mkit (Some 0) i) as -> by congruence. unfold span_of. rewrite Hp. cbn [bind].
  destruct (order_thm c 0 j i) as [-> _]; [unfold is_long, LONG_MIN, LONG_MAX in *; lia|]. reflexivity.
Qed.
Theorem null_equal_thm c : it_cmp c IEq it_null it_null = if checked c then Fail (report c) else Ok true.
Proof. unfold it_cmp, somewhere. cbn [it_somewhere it_null it_ptr same_ptr]. destruct (checked c) eqn:HC; [now rewrite check_debug_false|now rewrite !debug_unchecked]. Qed.
