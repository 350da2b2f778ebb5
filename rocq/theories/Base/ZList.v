(** Lists indexed by Z: the storage of arrays. *)
From Verif Require Import Base.Outcome.

Section ZList.
Context {V : Type}.
Implicit Types (l : list V).

Definition zlen l : Z := Z.of_nat (length l).
(** The integers lo, lo+1, ..., hi-1. *)
Fixpoint zseq (lo : Z) (k : nat) : list Z :=
  match k with O => [] | S k' => lo :: zseq (lo + 1) k' end.
Definition znth l (i : Z) : option V := if i <? 0 then None else nth_error l (Z.to_nat i).

Fixpoint upd l (k : nat) (v : V) : list V :=
  match l, k with
  | [], _ => []
  | _ :: t, O => v :: t
  | h :: t, S k' => h :: upd t k' v
  end.
Definition zupd l (i : Z) (v : V) : list V := if i <? 0 then l else upd l (Z.to_nat i) v.

(** Reading and writing storage through a pointer: out of bounds is UB. *)
Definition oget l (i : Z) : outcome V := match znth l i with Some v => Ok v | None => UB end.
Definition oset l (i : Z) (v : V) : outcome (list V) :=
  if (0 <=? i) && (i <? zlen l) then Ok (zupd l i v) else UB.

Lemma zlen_nonneg l : 0 <= zlen l.
Proof. unfold zlen. lia. Qed.

Lemma zlen_nil : zlen [] = 0.
Proof. reflexivity. Qed.
Lemma zlen_cons v l : zlen (v :: l) = 1 + zlen l.
Proof. unfold zlen. simpl length. lia. Qed.
Lemma zlen_app l1 l2 : zlen (l1 ++ l2) = zlen l1 + zlen l2.
Proof. unfold zlen. rewrite app_length. lia. Qed.
Lemma zlen_zero l : zlen l = 0 -> l = [].
Proof. destruct l; [reflexivity|]. unfold zlen. simpl. lia. Qed.

Lemma upd_length l k v : length (upd l k v) = length l.
Proof. revert k; induction l as [|h t IH]; intros [|k]; simpl; auto. Qed.
Lemma zupd_length l i v : length (zupd l i v) = length l.
Proof. unfold zupd. destruct (i <? 0); auto. apply upd_length. Qed.
Lemma zlen_zupd l i v : zlen (zupd l i v) = zlen l.
Proof. unfold zlen. now rewrite zupd_length. Qed.

Lemma znth_none l i : ~ (0 <= i < zlen l) -> znth l i = None.
Proof.
  unfold znth, zlen. intros H. destruct (Z.ltb_spec i 0); auto. apply nth_error_None. lia.
Qed.
Lemma znth_lt l i v : znth l i = Some v -> 0 <= i < zlen l.
Proof.
  unfold znth, zlen. destruct (Z.ltb_spec i 0); [discriminate|]. intros E.
  assert (nth_error l (Z.to_nat i) <> None) as H1 by congruence.
  apply nth_error_Some in H1. lia.
Qed.
Lemma znth_some l i : 0 <= i < zlen l -> exists v, znth l i = Some v.
Proof.
  intros H. destruct (znth l i) eqn:E; eauto. exfalso.
  unfold znth, zlen in *. destruct (Z.ltb_spec i 0); [lia|]. apply nth_error_None in E. lia.
Qed.
Lemma znth_neg l i : i < 0 -> znth l i = None.
Proof. intros. apply znth_none. lia. Qed.

Lemma znth_cons_0 v l : znth (v :: l) 0 = Some v.
Proof. reflexivity. Qed.
Lemma znth_cons_pos v l i : 0 < i -> znth (v :: l) i = znth l (i - 1).
Proof.
  intros H. unfold znth. replace (i <? 0) with false by lia. replace (i - 1 <? 0) with false by lia.
  replace (Z.to_nat i) with (S (Z.to_nat (i - 1))) by lia. reflexivity.
Qed.
Lemma znth_nil i : znth [] i = None.
Proof. apply znth_none. rewrite zlen_nil. lia. Qed.

Lemma list_ext_znth l1 l2 : (forall i, 0 <= i -> znth l1 i = znth l2 i) -> l1 = l2.
Proof.
  revert l2. induction l1 as [|x l1 IH]; intros [|y l2] H.
  - reflexivity.
  - specialize (H 0). discriminate H. lia.
  - specialize (H 0). discriminate H. lia.
  - f_equal.
    + specialize (H 0 ltac:(lia)). unfold znth in H. simpl in H. congruence.
    + apply IH. intros i Hi. specialize (H (i + 1) ltac:(lia)).
      rewrite !znth_cons_pos in H by lia. now replace (i + 1 - 1) with i in H by lia.
Qed.

Lemma list_ext_zlen l1 l2 :
  zlen l1 = zlen l2 -> (forall i, 0 <= i < zlen l1 -> znth l1 i = znth l2 i) -> l1 = l2.
Proof.
  intros HL H. apply list_ext_znth. intros i Hi.
  destruct (Z.ltb_spec i (zlen l1)); [apply H; lia|].
  rewrite !znth_none by lia. reflexivity.
Qed.

Lemma znth_app l1 l2 i : 0 <= i -> znth (l1 ++ l2) i = if i <? zlen l1 then znth l1 i else znth l2 (i - zlen l1).
Proof.
  intros Hi. unfold znth, zlen. replace (i <? 0) with false by lia.
  destruct (Z.ltb_spec i (Z.of_nat (length l1))).
  - apply nth_error_app1. lia.
  - replace (i - Z.of_nat (length l1) <? 0) with false by lia.
    rewrite nth_error_app2 by lia. f_equal. lia.
Qed.

Lemma znth_app_l l1 l2 i : i < zlen l1 -> znth (l1 ++ l2) i = znth l1 i.
Proof.
  intros H. destruct (Z.ltb_spec i 0); [rewrite !znth_neg by lia; reflexivity|].
  rewrite znth_app by lia. now replace (i <? zlen l1) with true by lia.
Qed.
Lemma znth_app_r l1 l2 i : zlen l1 <= i -> znth (l1 ++ l2) i = znth l2 (i - zlen l1).
Proof. intros H. pose proof (zlen_nonneg l1). rewrite znth_app by lia. now replace (i <? zlen l1) with false by lia. Qed.
Lemma nth_error_upd_same l k v : (k < length l)%nat -> nth_error (upd l k v) k = Some v.
Proof. revert k; induction l as [|h t IH]; intros [|k] H; simpl in *; try lia; auto. apply IH. lia. Qed.
Lemma nth_error_upd_other l k j v : k <> j -> nth_error (upd l k v) j = nth_error l j.
Proof. revert k j; induction l as [|h t IH]; intros [|k] [|j] H; simpl; auto; congruence || (apply IH; lia). Qed.

Lemma znth_zupd l i v j :
  0 <= i < zlen l -> znth (zupd l i v) j = if j =? i then Some v else znth l j.
Proof.
  intros Hi. unfold znth, zupd, zlen in *. replace (i <? 0) with false by lia.
  destruct (Z.ltb_spec j 0).
  - replace (j =? i) with false by lia. reflexivity.
  - destruct (Z.eqb_spec j i) as [->|Hne].
    + apply nth_error_upd_same. lia.
    + apply nth_error_upd_other. lia.
Qed.

Lemma oset_ok l i v : 0 <= i < zlen l -> oset l i v = Ok (zupd l i v).
Proof. intros H. unfold oset. now replace ((0 <=? i) && (i <? zlen l)) with true by lia. Qed.
Lemma oset_ub l i v : ~ (0 <= i < zlen l) -> oset l i v = UB.
Proof. intros H. unfold oset. destruct ((0 <=? i) && (i <? zlen l)) eqn:E; auto. exfalso. lia. Qed.
Lemma oget_ok l i v : znth l i = Some v -> oget l i = Ok v.
Proof. unfold oget. now intros ->. Qed.
Lemma oget_ub l i : ~ (0 <= i < zlen l) -> oget l i = UB.
Proof. intros H. unfold oget. now rewrite znth_none. Qed.

(** firstn / skipn with Z arguments *)
Lemma znth_firstn l k i : 0 <= k -> 0 <= i ->
  znth (firstn (Z.to_nat k) l) i = if i <? k then znth l i else None.
Proof.
  intros Hk Hi. destruct (Z.ltb_spec i k).
  - unfold znth. replace (i <? 0) with false by lia.
    revert k Hk H. revert i Hi. induction l as [|h t IH]; intros i Hi k Hk H.
    + now rewrite firstn_nil.
    + replace (Z.to_nat k) with (S (Z.to_nat (k - 1))) by lia. simpl firstn.
      destruct (Z.eqb_spec i 0) as [->|]; [reflexivity|].
      replace (Z.to_nat i) with (S (Z.to_nat (i - 1))) by lia. simpl.
      apply IH; lia.
  - apply znth_none. unfold zlen. rewrite firstn_length. lia.
Qed.
Lemma znth_skipn l k i : 0 <= k -> 0 <= i -> znth (skipn (Z.to_nat k) l) i = znth l (i + k).
Proof.
  intros Hk Hi. unfold znth. replace (i <? 0) with false by lia. replace (i + k <? 0) with false by lia.
  replace (Z.to_nat (i + k)) with (Z.to_nat k + Z.to_nat i)%nat by lia.
  generalize (Z.to_nat k) as a, (Z.to_nat i) as b. clear. intros a.
  revert l. induction a as [|a IH]; intros l b; simpl; [reflexivity|].
  destruct l; simpl; [now destruct b|]. apply IH.
Qed.
Lemma zlen_firstn l k : 0 <= k <= zlen l -> zlen (firstn (Z.to_nat k) l) = k.
Proof. unfold zlen. rewrite firstn_length. lia. Qed.
Lemma zlen_skipn l k : 0 <= k <= zlen l -> zlen (skipn (Z.to_nat k) l) = zlen l - k.
Proof. unfold zlen. rewrite skipn_length. lia. Qed.

Lemma zlen_repeat (v : V) k : 0 <= k -> zlen (repeat v (Z.to_nat k)) = k.
Proof. unfold zlen. rewrite repeat_length. lia. Qed.
Lemma znth_repeat (v : V) k i : 0 <= i < k -> znth (repeat v (Z.to_nat k)) i = Some v.
Proof.
  intros H. unfold znth. replace (i <? 0) with false by lia.
  assert (Z.to_nat i < Z.to_nat k)%nat as H1 by lia. clear H.
  revert H1. generalize (Z.to_nat i) (Z.to_nat k). intros a b. revert a.
  induction b; intros [|a] H; simpl; auto; try lia. apply IHb. lia.
Qed.

Lemma zupd_app_r l1 l2 i v : zlen l1 <= i -> zupd (l1 ++ l2) i v = l1 ++ zupd l2 (i - zlen l1) v.
Proof.
  intros H. pose proof (zlen_nonneg l1) as H0. unfold zupd. replace (i <? 0) with false by lia.
  replace (i - zlen l1 <? 0) with false by lia.
  replace (Z.to_nat i) with (length l1 + Z.to_nat (i - zlen l1))%nat by (unfold zlen in *; lia).
  generalize (Z.to_nat (i - zlen l1)). clear. intros k. induction l1; simpl; congruence.
Qed.
Lemma zupd_app_l l1 l2 i v : 0 <= i < zlen l1 -> zupd (l1 ++ l2) i v = zupd l1 i v ++ l2.
Proof.
  intros H. unfold zupd. replace (i <? 0) with false by lia.
  assert (Z.to_nat i < length l1)%nat as H1 by (unfold zlen in *; lia).
  revert H1. generalize (Z.to_nat i). clear. intros k. revert k.
  induction l1 as [|h t IH]; intros [|k] H; simpl in *; try lia; auto. f_equal. apply IH. lia.
Qed.

End ZList.

Lemma zseq_length lo k : length (zseq lo k) = k.
Proof. revert lo; induction k; simpl; auto. Qed.
Lemma zlen_zseq lo k : zlen (zseq lo k) = Z.of_nat k.
Proof. unfold zlen. now rewrite zseq_length. Qed.
Lemma znth_zseq lo k i : 0 <= i < Z.of_nat k -> znth (zseq lo k) i = Some (lo + i).
Proof.
  revert lo i. induction k as [|k IH]; intros lo i H; [lia|]. simpl zseq.
  destruct (Z.eqb_spec i 0) as [->|].
  - rewrite znth_cons_0. f_equal; lia.
  - rewrite znth_cons_pos by lia. rewrite IH by lia. f_equal; lia.
Qed.
Lemma in_zseq x lo k : In x (zseq lo k) <-> lo <= x < lo + Z.of_nat k.
Proof.
  revert lo. induction k as [|k IH]; intros lo; cbn [zseq In]; [lia|].
  rewrite IH. lia.
Qed.
Lemma zseq_app lo a b : zseq lo (a + b) = zseq lo a ++ zseq (lo + Z.of_nat a) b.
Proof.
  revert lo. induction a as [|a IH]; intros lo; cbn [zseq Nat.add app].
  - now replace (lo + Z.of_nat 0) with lo by lia.
  - rewrite IH. do 2 f_equal. f_equal. lia.
Qed.
Lemma zseq_S lo k : zseq lo (S k) = zseq lo k ++ [lo + Z.of_nat k].
Proof. replace (S k) with (k + 1)%nat by lia. now rewrite zseq_app. Qed.
Lemma NoDup_zseq lo k : NoDup (zseq lo k).
Proof.
  revert lo; induction k; intros lo; simpl; constructor; auto. rewrite in_zseq. lia.
Qed.
Lemma map_zseq_shift {B} (f : Z -> B) lo d k : map f (zseq (lo + d) k) = map (fun i => f (i + d)) (zseq lo k).
Proof.
  revert lo. induction k as [|k IH]; intros lo; simpl; [reflexivity|].
  f_equal. replace (lo + d + 1) with (lo + 1 + d) by lia. apply IH.
Qed.

Lemma zlen_map {A B} (f : A -> B) l : zlen (map f l) = zlen l.
Proof. unfold zlen. now rewrite map_length. Qed.
Lemma znth_map {A B} (f : A -> B) l i : znth (map f l) i = option_map f (znth l i).
Proof.
  unfold znth. destruct (i <? 0); [reflexivity|]. generalize (Z.to_nat i). clear i.
  induction l as [|a l IH]; intros [|k]; simpl; auto.
Qed.
Lemma znth_map_zseq {B} (f : Z -> B) lo k i : 0 <= i < Z.of_nat k -> znth (map f (zseq lo k)) i = Some (f (lo + i)).
Proof. intros H. rewrite znth_map, znth_zseq by assumption. reflexivity. Qed.

Lemma znth_in {V} (l : list V) i v : znth l i = Some v -> In v l.
Proof. unfold znth. destruct (i <? 0); [discriminate|]. apply nth_error_In. Qed.
Lemma in_znth {V} (l : list V) v : In v l -> exists i, znth l i = Some v.
Proof.
  intros H. apply In_nth_error in H as [k Hk]. exists (Z.of_nat k). unfold znth.
  replace (Z.of_nat k <? 0) with false by lia. now rewrite Nat2Z.id.
Qed.

Lemma map_zseq_ext {B} (f g : Z -> B) lo k :
  (forall i, lo <= i < lo + Z.of_nat k -> f i = g i) -> map f (zseq lo k) = map g (zseq lo k).
Proof. intros H. apply map_ext_in. intros a Ha. apply in_zseq in Ha. auto. Qed.

(** Every list is the table of its own elements. *)
Lemma list_as_map {V} (d : V) (l : list V) :
  l = map (fun i => match znth l i with Some v => v | None => d end) (zseq 0 (length l)).
Proof.
  apply list_ext_zlen.
  - rewrite zlen_map, zlen_zseq. reflexivity.
  - intros i Hi. rewrite znth_map_zseq by (unfold zlen in Hi; lia). simpl.
    destruct (znth_some l i Hi) as [v Hv]. now rewrite Hv.
Qed.

(** ** Filling a buffer in a loop

    [for(i = lo; i < hi; ++i) buf[i + off] = f(i)] where the source does not depend on the buffer. *)
Lemma for_fill {V} (f : Z -> outcome V) (g : Z -> V) lo hi off (buf : list V) :
  lo <= hi -> 0 <= lo + off -> hi + off <= zlen buf ->
  (forall i, lo <= i < hi -> f i = Ok (g i)) ->
  for_ lo hi (fun i b => v <- f i ;; oset b (i + off) v) buf =
  Ok (firstn (Z.to_nat (lo + off)) buf ++ map g (zseq lo (Z.to_nat (hi - lo))) ++ skipn (Z.to_nat (hi + off)) buf).
Proof.
  intros Hle Hlo Hhi Hf.
  destruct (for_inv
    (fun i b => b = firstn (Z.to_nat (lo + off)) buf ++ map g (zseq lo (Z.to_nat (i - lo))) ++
                    skipn (Z.to_nat (i + off)) buf)
    lo hi (fun i b => v <- f i ;; oset b (i + off) v) buf Hle) as (s & E & Hs).
  - replace (Z.to_nat (lo - lo)) with O by lia. simpl. now rewrite firstn_skipn.
  - intros i b Hi ->. rewrite Hf by assumption. cbn [bind].
    assert (zlen (firstn (Z.to_nat (lo + off)) buf) = lo + off) as L1 by (apply zlen_firstn; lia).
    assert (zlen (map g (zseq lo (Z.to_nat (i - lo)))) = i - lo) as L2 by (rewrite zlen_map, zlen_zseq; lia).
    assert (zlen (skipn (Z.to_nat (i + off)) buf) = zlen buf - (i + off)) as L3 by (apply zlen_skipn; lia).
    rewrite oset_ok by (rewrite !zlen_app; lia).
    eexists. split; [reflexivity|].
    rewrite zupd_app_r by lia. f_equal. rewrite zupd_app_r by lia.
    replace (Z.to_nat (i + 1 - lo)) with (S (Z.to_nat (i - lo))) by lia.
    rewrite zseq_S, map_app, <- app_assoc. f_equal. simpl.
    replace (i + off - zlen (firstn (Z.to_nat (lo + off)) buf) - zlen (map g (zseq lo (Z.to_nat (i - lo))))) with 0 by lia.
    destruct (skipn (Z.to_nat (i + off)) buf) as [|h t] eqn:ES.
    + rewrite zlen_nil in L3. lia.
    + unfold zupd. simpl. f_equal; [f_equal; lia|].
      replace (Z.to_nat (i + 1 + off)) with (S (Z.to_nat (i + off))) by lia.
      clear - ES. revert buf ES. induction (Z.to_nat (i + off)) as [|k IH]; intros buf ES.
      * simpl in ES. now rewrite ES.
      * destruct buf; [discriminate|]. simpl in ES. change (t = skipn (S k) buf). now apply IH.
  - rewrite E, Hs. reflexivity.
Qed.
