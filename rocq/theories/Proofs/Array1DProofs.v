From Verif Require Import Base.Outcome Base.ZList Model.IntModel Model.ScalarOps Model.Index Model.Array1D.
From Verif Require Import Proofs.ScalarProofs.
From Verif Require Import Spec.ArraySpec.
Ltac Zify.zify_post_hook ::= Z.div_mod_to_equations.

(** Resolve decided checks. *)
Ltac chk :=
  repeat first
    [ rewrite check_debug_true; cbn [bind]
    | rewrite ladd_ok by (unfold LONG_MIN, LONG_MAX in *; lia); cbn [bind]
    | rewrite lsub_ok by (unfold LONG_MIN, LONG_MAX in *; lia); cbn [bind] ].

Section P.
Context {V : Type} (zero : V).
Implicit Types (a : arr V) (A : src1 V) (l : list V) (c : cfg).


Lemma produces_arr a l : rep a l -> produces (src_of_arr a) l.
Proof. intros [E1 E]. split; [exact E|]. intros i _. simpl. now rewrite E1. Qed.
Lemma produces_list l : produces (src_of_list l) l.
Proof. now split. Qed.

Definition nthd l (i : Z) : V := match znth l i with Some v => v | None => zero end.
Lemma oget_nthd l i : 0 <= i < zlen l -> oget l i = Ok (nthd l i).
Proof. intros H. unfold oget, nthd. destruct (znth_some l i H) as [v ->]. reflexivity. Qed.
Lemma map_nthd_all l : map (nthd l) (zseq 0 (length l)) = l.
Proof. symmetry. apply (list_as_map zero). Qed.
Lemma map_nthd_sub l lo k : 0 <= lo -> 0 <= k -> lo + k <= zlen l ->
  map (nthd l) (zseq lo (Z.to_nat k)) = firstn (Z.to_nat k) (skipn (Z.to_nat lo) l).
Proof.
  intros H0 Hk Hl. apply list_ext_zlen.
  - rewrite zlen_map, zlen_zseq, zlen_firstn; [lia|]. rewrite zlen_skipn; lia.
  - intros i Hi. rewrite zlen_map, zlen_zseq in Hi.
    rewrite znth_map_zseq by lia. rewrite znth_firstn by lia. replace (i <? k) with true by lia.
    rewrite znth_skipn by lia. unfold nthd. rewrite (Z.add_comm lo i).
    destruct (znth_some l (i + lo)) as [v ->]; [lia|reflexivity].
Qed.

Lemma arr_new_ok c n : 0 <= n <= amax c -> arr_new zero c n = Ok (mkarr (repeat zero (Z.to_nat n)) n).
Proof.
  intros H. unfold arr_new, alloc. replace (-1 <? n) with true by lia. chk.
  destruct (Z.eqb_spec n 0) as [->|]; [reflexivity|].
  replace ((n <? 0) || (amax c <? n)) with false by lia. reflexivity.
Qed.
Lemma arr_new_neg c n : checked c = true -> n < 0 -> arr_new zero c n = Fail (report c).
Proof. intros Hc H. unfold arr_new. replace (-1 <? n) with false by lia. now rewrite check_debug_false. Qed.
Lemma arr_new_big c n : 0 <= amax c < n -> arr_new zero c n = Fail BadAlloc.
Proof.
  intros H. unfold arr_new, alloc. replace (-1 <? n) with true by lia. chk.
  replace (n =? 0) with false by lia. now replace ((n <? 0) || (amax c <? n)) with true by lia.
Qed.
(* In every configuration and for every n the result is a well-formed zero array or a failure. *)
Lemma arr_new_cases c n :
  arr_new zero c n = Ok (mkarr (repeat zero (Z.to_nat n)) n) /\ 0 <= n \/ exists f, arr_new zero c n = Fail f.
Proof.
  unfold arr_new, alloc. destruct (check_debug_cases c (-1 <? n)) as [[-> H]|[-> H]]; cbn [bind]; [|right; eauto].
  destruct (Z.eqb_spec n 0) as [->|]; [left; split; [reflexivity|lia]|].
  destruct ((n <? 0) || (amax c <? n)) eqn:E; cbn [bind]; [right; eauto|]. left. split; [reflexivity|lia].
Qed.

(** fills *)
Lemma fill_ok x l : fill x (zlen l) l = Ok (repeat x (length l)).
Proof.
  unfold fill. pose proof (zlen_nonneg l).
  rewrite (for_ext _ _ _ (fun i b => v <- Ok x ;; oset b (i + 0) v)).
  2:{ intros i s Hi. cbn [bind]. now replace (i + 0) with i by lia. }
  rewrite (for_fill (fun _ => Ok x) (fun _ => x)) by (try lia; auto).
  f_equal. simpl. rewrite skipn_all2 by (unfold zlen; lia). rewrite app_nil_r.
  replace (Z.to_nat (zlen l - 0)) with (length l) by (unfold zlen; lia).
  generalize 0. induction (length l) as [|k IH]; intros z; simpl; [reflexivity|]. now rewrite IH.
Qed.

(** copyn3 on a source that produces l *)
Lemma copyn3_ok A l b s1 s2 n :
  produces A l -> 0 <= s1 -> 0 <= s2 -> 0 <= n -> s1 + n <= zlen l -> s2 + n <= zlen b ->
  zlen l <= LONG_MAX -> zlen b <= LONG_MAX ->
  copyn3 A b s1 s2 n = Ok (firstn (Z.to_nat s2) b ++ firstn (Z.to_nat n) (skipn (Z.to_nat s1) l) ++ skipn (Z.to_nat (s2 + n)) b).
Proof.
  intros [_ HA] H1 H2 Hn Hl Hb Ll Lb. unfold copyn3.
  rewrite (for_ext _ _ _ (fun i b => v <- (fun i => Ok (nthd l (s1 + i))) i ;; oset b (i + s2) v)).
  2:{ intros i s Hi. rewrite ladd_ok by (unfold LONG_MIN; lia). cbn [bind].
      rewrite HA by lia. rewrite oget_nthd by lia. cbn [bind].
      rewrite ladd_ok by (unfold LONG_MIN; lia). cbn [bind]. f_equal; lia. }
  rewrite (for_fill (fun i => Ok (nthd l (s1 + i))) (fun i => nthd l (s1 + i))) by (try lia; auto).
  f_equal. rewrite <- map_nthd_sub by lia.
  replace (Z.to_nat (n - 0)) with (Z.to_nat n) by lia. replace (Z.to_nat (0 + s2)) with (Z.to_nat s2) by lia.
  replace (Z.to_nat (n + s2)) with (Z.to_nat (s2 + n)) by lia.
  f_equal. f_equal. rewrite (map_zseq_ext _ (fun i => nthd l (i + s1))) by (intros; f_equal; lia).
  rewrite <- (map_zseq_shift (nthd l) 0 s1). f_equal.
Qed.

Lemma copyn_ok A l b n :
  produces A l -> 0 <= n <= zlen l -> n <= zlen b ->
  copyn A b n = Ok (firstn (Z.to_nat n) l ++ skipn (Z.to_nat n) b).
Proof.
  intros [_ HA] Hl Hb. unfold copyn.
  rewrite (for_ext _ _ _ (fun i b => v <- (fun i => Ok (nthd l i)) i ;; oset b (i + 0) v)).
  2:{ intros i s Hi. rewrite HA by lia. rewrite oget_nthd by lia. cbn [bind]. f_equal; lia. }
  rewrite (for_fill (fun i => Ok (nthd l i)) (nthd l)) by (try lia; auto).
  f_equal. simpl. replace (Z.to_nat (n - 0)) with (Z.to_nat n) by lia.
  rewrite map_nthd_sub by lia. simpl. do 2 f_equal. lia.
Qed.

Lemma copy_ok A l b : produces A l -> zlen b = zlen l -> copy A b = Ok l.
Proof.
  intros HA Hb. change (copy A b) with (copyn A b (ssize A)). rewrite (proj1 HA).
  pose proof (zlen_nonneg l). rewrite (copyn_ok A l b) by (auto; lia).
  f_equal. rewrite firstn_all2 by (unfold zlen; lia). rewrite skipn_all2 by (unfold zlen in *; lia). apply app_nil_r.
Qed.

Lemma skipn_repeat' (x : V) (j k : nat) : skipn j (repeat x k) = repeat x (k - j).
Proof. revert k; induction j as [|j IH]; intros [|k]; simpl; auto. Qed.
Lemma firstn_repeat' (x : V) (j k : nat) : firstn j (repeat x k) = repeat x (Nat.min j k).
Proof. revert k; induction j as [|j IH]; intros [|k]; simpl; auto. now rewrite IH. Qed.

Definition fresh (n : Z) : list V := repeat zero (Z.to_nat n).
Lemma zlen_fresh n : 0 <= n -> zlen (fresh n) = n.
Proof. apply zlen_repeat. Qed.

(** ** Operations *)
Section Ops.
Variable c : cfg.
Hypothesis Hc : cfg_ok c.

Lemma arr_of_src_ok A l : produces A l -> zlen l <= amax c -> exists a, arr_of_src zero c A = Ok a /\ rep a l.
Proof.
  intros HA Hl. unfold arr_of_src. rewrite (proj1 HA). pose proof (zlen_nonneg l).
  rewrite arr_new_ok by lia. cbn [bind buf an]. rewrite (copy_ok A l) by (auto; apply zlen_repeat; lia).
  cbn [bind]. eexists. split; [reflexivity|]. now split.
Qed.
Lemma arr_of_src_big A l : produces A l -> amax c < zlen l -> arr_of_src zero c A = Fail BadAlloc.
Proof.
  intros HA Hl. unfold arr_of_src. rewrite (proj1 HA). rewrite arr_new_big by (unfold cfg_ok in Hc; lia). reflexivity.
Qed.

Lemma arr_new_fill_ok n x : 0 <= n <= amax c -> exists a, arr_new_fill zero c n x = Ok a /\ rep a (repeat x (Z.to_nat n)).
Proof.
  intros H. unfold arr_new_fill. rewrite arr_new_ok by lia. cbn [bind buf an].
  pose proof (fill_ok x (fresh n)) as E. rewrite zlen_fresh in E by lia. unfold fresh in E. rewrite E. cbn [bind]. rewrite repeat_length.
  eexists. split; [reflexivity|]. split; [reflexivity|]. simpl. rewrite zlen_repeat; lia.
Qed.

Lemma arr_set_all_ok a l x : rep a l -> exists a', arr_set_all x a = Ok a' /\ rep a' (repeat x (length l)).
Proof.
  intros [E1 E2]. unfold arr_set_all. rewrite E1, E2, fill_ok. cbn [bind]. eexists. split; [reflexivity|].
  split; [reflexivity|]. simpl. unfold zlen. now rewrite repeat_length.
Qed.

(* resize: common prefix kept, rest zero *)
Lemma arr_resize_ok a l n pr : rep a l -> 0 <= n <= amax c \/ n = zlen l ->
  exists a', arr_resize zero c n pr a = Ok a' /\
    rep a' (if (n =? zlen l) then l else if pr then firstn (Z.to_nat n) l ++ repeat zero (Z.to_nat n - length l)
            else repeat zero (Z.to_nat n)).
Proof.
  intros Hr Hn. pose proof Hr as [E1 E2]. unfold arr_resize. pose proof (zlen_nonneg l).
  replace (-1 <? n) with true by lia. chk. rewrite E2.
  destruct (Z.eqb_spec n (zlen l)) as [->|Hne]; [eexists; split; [reflexivity|assumption]|].
  rewrite arr_new_ok by lia. cbn [bind buf an]. destruct pr.
  - rewrite mins_min. rewrite (copyn_ok _ l) by (try (apply produces_arr; assumption); try lia; rewrite zlen_repeat by lia; lia).
    cbn [bind]. eexists. split; [reflexivity|].
    rewrite skipn_repeat'.
    assert (firstn (Z.to_nat (Z.min (zlen l) n)) l ++ repeat zero (Z.to_nat n - Z.to_nat (Z.min (zlen l) n))
            = firstn (Z.to_nat n) l ++ repeat zero (Z.to_nat n - length l)) as E.
    { destruct (Z.le_gt_cases n (zlen l)).
      - rewrite Z.min_r by lia. f_equal. f_equal. unfold zlen in *. lia.
      - rewrite Z.min_l by lia. rewrite !firstn_all2 by (unfold zlen in *; lia). f_equal. f_equal. unfold zlen in *. lia. }
    rewrite E. split; [reflexivity|]. simpl. rewrite zlen_app. unfold zlen in *. rewrite firstn_length, repeat_length. lia.
  - eexists. split; [reflexivity|]. split; [reflexivity|]. simpl. rewrite zlen_repeat; lia.
Qed.
Lemma arr_resize_neg a l n pr : rep a l -> checked c = true -> n < 0 -> arr_resize zero c n pr a = Fail (report c).
Proof. intros Hr Hk H. unfold arr_resize. replace (-1 <? n) with false by lia. now rewrite check_debug_false. Qed.
Lemma arr_resize_big a l n pr : rep a l -> amax c < n -> n <> zlen l -> arr_resize zero c n pr a = Fail BadAlloc.
Proof.
  intros [E1 E2] H Hne. unfold cfg_ok in Hc. unfold arr_resize. replace (-1 <? n) with true by lia. chk.
  replace (n =? an a) with false by lia. now rewrite arr_new_big by lia.
Qed.

(* insert *)
Lemma arr_insert_ok a l pos x : rep a l -> 0 <= pos <= zlen l -> zlen l + 1 <= amax c ->
  exists a', arr_insert zero c pos x a = Ok a' /\ rep a' (firstn (Z.to_nat pos) l ++ x :: skipn (Z.to_nat pos) l).
Proof.
  intros Hr Hp Hm. pose proof Hr as [E1 E2]. unfold cfg_ok in Hc. unfold arr_insert. rewrite E2.
  replace ((0 <=? pos) && (pos <=? zlen l)) with true by lia. chk.
  rewrite arr_new_ok by lia. cbn [bind buf an].
  rewrite (copyn_ok _ l) by (try (apply produces_arr; assumption); try lia; rewrite zlen_repeat by lia; lia). cbn [bind].
  set (b1 := firstn _ _ ++ skipn _ _).
  assert (zlen b1 = zlen l + 1) as Lb1.
  { unfold b1. rewrite zlen_app, zlen_firstn, zlen_skipn, zlen_repeat by (rewrite ?zlen_repeat; lia). lia. }
  rewrite oset_ok by lia. cbn [bind]. chk.
  rewrite (copyn3_ok _ l) by (try (apply produces_arr; assumption); try lia; rewrite zlen_zupd; lia).
  cbn [bind]. eexists. split; [reflexivity|].
  assert (forall b : list V, zlen b = zlen l + 1 -> skipn (Z.to_nat (pos + 1 + (zlen l - pos))) b = []) as ES.
  { intros b Hb. apply skipn_all2. unfold zlen in *. lia. }
  rewrite ES by now rewrite zlen_zupd.
  rewrite app_nil_r. rewrite firstn_all2 with (l := skipn _ l) by (rewrite skipn_length; unfold zlen; lia).
  assert (firstn (Z.to_nat (pos + 1)) (zupd b1 pos x) = firstn (Z.to_nat pos) l ++ [x]) as EF.
  { unfold b1. rewrite zupd_app_r by (rewrite zlen_firstn; lia). rewrite zlen_firstn by lia.
    replace (pos - pos) with 0 by lia.
    rewrite skipn_repeat'. destruct (Z.to_nat (zlen l + 1) - Z.to_nat pos)%nat eqn:EN; [lia|].
    simpl repeat. unfold zupd. simpl. rewrite firstn_app.
    rewrite firstn_length. unfold zlen in *.
    replace (Nat.min (Z.to_nat pos) (length l)) with (Z.to_nat pos) by lia.
    replace (Z.to_nat (pos + 1) - Z.to_nat pos)%nat with 1%nat by lia.
    rewrite firstn_all2 by (rewrite firstn_length; lia). reflexivity. }
  rewrite EF, <- app_assoc. split; [reflexivity|]. simpl.
  rewrite zlen_app, zlen_cons, zlen_firstn, zlen_skipn by lia. lia.
Qed.
Lemma arr_insert_bad a l pos x : rep a l -> checked c = true -> ~ 0 <= pos <= zlen l -> arr_insert zero c pos x a = Fail (report c).
Proof.
  intros [E1 E2] Hk H. unfold arr_insert. rewrite E2. replace ((0 <=? pos) && (pos <=? zlen l)) with false by lia.
  now rewrite check_debug_false.
Qed.
Lemma arr_insert_big a l pos x : rep a l -> 0 <= pos <= zlen l -> zlen l < LONG_MAX -> amax c < zlen l + 1 ->
  arr_insert zero c pos x a = Fail BadAlloc.
Proof.
  intros [E1 E2] H HL Hm. unfold cfg_ok in Hc. unfold arr_insert. rewrite E2.
  replace ((0 <=? pos) && (pos <=? zlen l)) with true by lia. chk. now rewrite arr_new_big by lia.
Qed.

Lemma arr_insert_arr_ok a l A m pos : rep a l -> produces A m -> 0 <= pos <= zlen l -> zlen l + zlen m <= amax c ->
  exists a', arr_insert_arr zero c pos A a = Ok a' /\ rep a' (firstn (Z.to_nat pos) l ++ m ++ skipn (Z.to_nat pos) l).
Proof.
  intros Hr HA Hp Hm. pose proof Hr as [E1 E2]. unfold cfg_ok in Hc. pose proof (zlen_nonneg m). unfold arr_insert_arr. rewrite E2, (proj1 HA).
  replace ((0 <=? pos) && (pos <=? zlen l)) with true by lia. chk.
  rewrite arr_new_ok by lia. cbn [bind buf an].
  rewrite (copyn_ok _ l) by (try (apply produces_arr; assumption); try lia; rewrite zlen_repeat by lia; lia). cbn [bind].
  set (b1 := firstn _ _ ++ skipn _ _).
  assert (zlen b1 = zlen l + zlen m) as Lb1.
  { unfold b1. rewrite zlen_app, zlen_firstn, zlen_skipn, zlen_repeat by (rewrite ?zlen_repeat; lia). lia. }
  rewrite (copyn3_ok _ m) by (auto; lia). cbn [bind]. chk.
  set (b2 := firstn _ b1 ++ _ ++ _).
  assert (b2 = firstn (Z.to_nat pos) l ++ m ++ repeat zero (Z.to_nat (zlen l - pos))) as Eb2.
  { unfold b2. f_equal.
    - unfold b1. rewrite firstn_app. rewrite firstn_firstn, Nat.min_id.
      rewrite firstn_length. unfold zlen in *.
      replace (Z.to_nat pos - Nat.min (Z.to_nat pos) (length l))%nat with O by lia. simpl. apply app_nil_r.
    - simpl skipn. f_equal; [apply firstn_all2; unfold zlen; lia|].
      unfold b1. rewrite skipn_app, firstn_length. rewrite skipn_all2 by (rewrite firstn_length; lia).
      rewrite !skipn_repeat'. simpl. f_equal. unfold zlen in *. lia. }
  assert (zlen b2 = zlen l + zlen m) as Lb2.
  { rewrite Eb2, !zlen_app, zlen_firstn, zlen_repeat by lia. lia. }
  rewrite (copyn3_ok _ l) by (try (apply produces_arr; assumption); lia). cbn [bind].
  eexists. split; [reflexivity|].
  rewrite skipn_all2 with (l := b2) by (unfold zlen in *; lia). rewrite app_nil_r.
  rewrite firstn_all2 with (l := skipn _ l) by (rewrite skipn_length; unfold zlen; lia).
  assert (firstn (Z.to_nat (pos + zlen m)) b2 = firstn (Z.to_nat pos) l ++ m) as EF.
  { rewrite Eb2, app_assoc. rewrite firstn_app. rewrite app_length, firstn_length. unfold zlen in *.
    replace (Z.to_nat (pos + Z.of_nat (length m)) - (Nat.min (Z.to_nat pos) (length l) + length m))%nat with O by lia.
    simpl. rewrite app_nil_r. apply firstn_all2. rewrite app_length, firstn_length. lia. }
  rewrite EF, <- app_assoc. split; [reflexivity|]. simpl.
  rewrite !zlen_app, zlen_firstn, zlen_skipn by lia. lia.
Qed.
Lemma arr_insert_arr_bad a l A m pos : rep a l -> produces A m -> checked c = true -> ~ 0 <= pos <= zlen l ->
  arr_insert_arr zero c pos A a = Fail (report c).
Proof.
  intros [E1 E2] HA Hk H. unfold arr_insert_arr. rewrite E2. replace ((0 <=? pos) && (pos <=? zlen l)) with false by lia.
  now rewrite check_debug_false.
Qed.
Lemma arr_insert_arr_big a l A m pos : rep a l -> produces A m -> 0 <= pos <= zlen l -> zlen l + zlen m <= LONG_MAX ->
  amax c < zlen l + zlen m -> arr_insert_arr zero c pos A a = Fail BadAlloc.
Proof.
  intros [E1 E2] HA H HL Hm. unfold cfg_ok in Hc. pose proof (zlen_nonneg m). unfold arr_insert_arr. rewrite E2, (proj1 HA).
  replace ((0 <=? pos) && (pos <=? zlen l)) with true by lia. chk. now rewrite arr_new_big by lia.
Qed.

(* remove *)
Lemma arr_remove_ok a l pos count : rep a l -> zlen l <= amax c -> 0 < count -> 0 <= pos -> pos + count <= zlen l ->
  exists a', arr_remove zero c pos count a = Ok a' /\
    rep a' (firstn (Z.to_nat pos) l ++ skipn (Z.to_nat (pos + count)) l).
Proof.
  intros Hr Hm H1 H2 H3. pose proof Hr as [E1 E2]. unfold cfg_ok in Hc. unfold arr_remove. rewrite E2.
  replace (0 <? count) with true by lia. unfold valid_index.
  replace ((-1 <? pos) && (pos <? zlen l)) with true by lia. chk.
  replace ((-1 <? pos + count - 1) && (pos + count - 1 <? zlen l)) with true by lia. chk.
  rewrite arr_new_ok by lia. cbn [bind buf an].
  rewrite (copyn_ok _ l) by (try (apply produces_arr; assumption); try lia; rewrite zlen_repeat by lia; lia). cbn [bind].
  chk.
  set (b1 := firstn _ _ ++ skipn _ _).
  assert (zlen b1 = zlen l - count) as Lb1.
  { unfold b1. rewrite zlen_app, zlen_firstn, zlen_skipn, zlen_repeat by (rewrite ?zlen_repeat; lia). lia. }
  rewrite (copyn3_ok _ l) by (try (apply produces_arr; assumption); lia). cbn [bind].
  eexists. split; [reflexivity|].
  rewrite skipn_all2 with (l := b1) by (unfold zlen in *; lia). rewrite app_nil_r.
  rewrite firstn_all2 with (l := skipn _ l) by (rewrite skipn_length; unfold zlen; lia).
  assert (firstn (Z.to_nat pos) b1 = firstn (Z.to_nat pos) l) as EF.
  { unfold b1. rewrite firstn_app. rewrite firstn_firstn, Nat.min_id, firstn_length. unfold zlen in *.
    replace (Z.to_nat pos - Nat.min (Z.to_nat pos) (length l))%nat with O by lia. simpl. apply app_nil_r. }
  rewrite EF. split; [reflexivity|]. simpl. rewrite zlen_app, zlen_firstn, zlen_skipn by lia. lia.
Qed.
Lemma arr_remove_bad a l pos count : rep a l -> checked c = true -> zlen l <= LONG_MAX ->
  LONG_MIN <= pos <= LONG_MAX -> LONG_MIN <= count <= LONG_MAX ->
  ~ (0 < count /\ 0 <= pos /\ pos + count <= zlen l) ->
  arr_remove zero c pos count a =
    if (0 <? count) && (0 <=? pos) && (pos <? zlen l) && (LONG_MAX <? pos + count) then UB else Fail (report c).
Proof.
  intros [E1 E2] Hk HL Lp Lc H. pose proof (zlen_nonneg l). unfold arr_remove. rewrite E2.
  destruct (Z.ltb_spec 0 count); [chk|now rewrite check_debug_false].
  unfold valid_index. destruct ((-1 <? pos) && (pos <? zlen l)) eqn:Ev.
  - chk. replace (0 <=? pos) with true by lia. replace (pos <? zlen l) with true by lia. cbn [andb].
    destruct (Z.ltb_spec LONG_MAX (pos + count)).
    + unfold ladd at 1. rewrite lret_ub by lia. cbn [bind]. now rewrite check_debug_ub.
    + rewrite ladd_ok by (unfold LONG_MIN in *; lia). cbn [bind].
      rewrite lsub_ok by (unfold LONG_MIN in *; lia). cbn [bind].
      replace ((-1 <? pos + count - 1) && (pos + count - 1 <? zlen l)) with false by lia.
      now rewrite check_debug_false.
  - rewrite check_debug_false by assumption. cbn [bind].
    replace ((0 <=? pos) && (pos <? zlen l)) with false by lia.
    destruct (true && (0 <=? pos) && (pos <? zlen l) && (LONG_MAX <? pos + count)) eqn:E; [exfalso; lia|reflexivity].
Qed.

(* remove by index list *)
Lemma for_table (f : Z -> outcome V) (g : Z -> V) n b :
  0 <= n -> zlen b = n -> (forall i, 0 <= i < n -> f i = Ok (g i)) ->
  for_ 0 n (fun i b => v <- f i ;; oset b i v) b = Ok (map g (zseq 0 (Z.to_nat n))).
Proof.
  intros Hn Hb Hf.
  rewrite (for_ext _ _ _ (fun i b => v <- f i ;; oset b (i + 0) v)) by (intros; now rewrite Z.add_0_r).
  rewrite (for_fill f g) by (auto; lia). f_equal. simpl.
  rewrite skipn_all2 by (unfold zlen in *; lia). rewrite app_nil_r. do 2 f_equal. lia.
Qed.
End Ops.
End P.
