(** The loops of the stable reductions as folds over the elements. *)
From Verif Require Import Base.Outcome Base.ZList Model.IntModel Model.Index Model.Slice Model.Array1D Model.Array2D Model.View2D Model.Expr Model.Reduce Model.StableOps.
From Verif Require Import Spec.ArraySpec Spec.SliceSpec Spec.ExprSpec Spec.ReduceSpec.
From Verif Require Import Proofs.Array1DProofs Proofs.SliceProofs Proofs.ExprProofs Proofs.ExprMore Proofs.ReduceProofs.
Ltac Zify.zify_post_hook ::= Z.div_mod_to_equations.

Lemma sun_ok {V} (A : src1 V) l i v : yields A (map Ok l) -> znth l i = Some v -> sun A i = Ok v.
Proof.
  intros (E & HL & HU) Hi. rewrite HU by (rewrite zlen_map; now apply znth_lt in Hi). unfold elt. rewrite znth_map, Hi. reflexivity.
Qed.
Lemma firstn_snoc {V} (l : list V) i x : znth l i = Some x -> firstn (Z.to_nat (i + 1)) l = firstn (Z.to_nat i) l ++ [x].
Proof.
  intros H. pose proof (znth_lt _ _ _ H) as B. unfold znth in H. replace (i <? 0) with false in H by lia.
  replace (Z.to_nat (i + 1)) with (S (Z.to_nat i)) by lia. clear B. revert H. generalize (Z.to_nat i). intros k. revert l.
  induction k as [|k IH]; intros [|y l] H; cbn in *; try discriminate; [congruence|]. f_equal. now apply IH.
Qed.
(** A loop whose i-th step depends on the state and on the i-th element of a list. *)
Lemma for_list {V S} (k : list V) lo (body : Z -> S -> outcome S) (g : S -> V -> S) s :
  (forall i x s, znth k i = Some x -> body (lo + i) s = Ok (g s x)) ->
  for_ lo (lo + zlen k) body s = Ok (fold_left g k s).
Proof.
  revert lo s. induction k as [|x k IH]; intros lo s H.
  - rewrite for_empty by (rewrite zlen_nil; lia). reflexivity.
  - pose proof (zlen_nonneg k). rewrite zlen_cons, for_step by lia.
    pose proof (H 0 x s (znth_cons_0 x k)) as HH. rewrite Z.add_0_r in HH. rewrite HH. cbn [bind fold_left].
    replace (lo + (1 + zlen k)) with (lo + 1 + zlen k) by lia. apply IH. intros i y t Hi.
    pose proof (znth_lt _ _ _ Hi). replace (lo + 1 + i) with (lo + (i + 1)) by lia. apply H.
    rewrite znth_cons_pos by lia. now replace (i + 1 - 1) with i by lia.
Qed.
Lemma for_list0 {V S} (k : list V) n (body : Z -> S -> outcome S) (g : S -> V -> S) s :
  n = zlen k -> (forall i x s, znth k i = Some x -> body i s = Ok (g s x)) -> for_ 0 n body s = Ok (fold_left g k s).
Proof. intros -> H. pose proof (for_list k 0 body g s) as F. rewrite Z.add_0_l in F. apply F. intros i x t. rewrite Z.add_0_l. apply H. Qed.
Lemma znth_combine {U V} (l : list U) (k : list V) i p : znth (combine l k) i = Some p -> znth l i = Some (fst p) /\ znth k i = Some (snd p).
Proof.
  unfold znth. destruct (i <? 0); [discriminate|]. generalize (Z.to_nat i). intros j. revert k j.
  induction l as [|x l IH]; intros [|y k] [|j]; cbn; try discriminate; [intros [= <-]; now split|apply IH].
Qed.
Lemma zlen_combine {U V} (l : list U) (k : list V) : zlen l = zlen k -> zlen (combine l k) = zlen l.
Proof. unfold zlen. rewrite combine_length. lia. Qed.
Lemma zupd_zupd {V} (l : list V) i x y : zupd (zupd l i x) i y = zupd l i y.
Proof.
  unfold zupd. destruct (i <? 0); [reflexivity|]. generalize (Z.to_nat i). intros k. revert k. induction l as [|z l IH]; intros [|k]; cbn; try reflexivity. now rewrite IH.
Qed.
Lemma zupd_same {V} (l : list V) i x : znth l i = Some x -> zupd l i x = l.
Proof.
  unfold zupd, znth. destruct (i <? 0); [reflexivity|]. generalize (Z.to_nat i). intros k. revert k. induction l as [|z l IH]; intros [|k]; cbn; try discriminate; try congruence. intros H. now rewrite IH.
Qed.

Section LOOPS.
Context {V : Type} (N : num V) (c : cfg).
Implicit Types (l k : list V) (A B : src1 V).

Definition fin (sc : V * V) : V := nadd N (fst sc) (snd sc).
Lemma stable_sum_empty A d : yields A [] -> stable_sum N A d = Ok d.
Proof. intros (E & _). unfold stable_sum. rewrite E. reflexivity. Qed.
Lemma stable_sum_loop A l d : yields A (map Ok l) -> l <> [] ->
  stable_sum N A d = Ok (fin (fold_left (sum_step N) l (nzero N, nzero N))).
Proof.
  intros HA HN. pose proof HA as (E & _). rewrite zlen_map in E. unfold stable_sum. rewrite E.
  destruct l as [|x l]; [contradiction|]. pose proof (zlen_nonneg l). rewrite zlen_cons at 1. replace (1 + zlen l =? 0) with false by lia.
  rewrite (for_list0 (x :: l) _ _ (sum_step N)); [reflexivity|reflexivity|]. intros i y s Hi. now rewrite (sun_ok A _ i y HA Hi).
Qed.

Definition dot_step (ps : V * V) (ab : V * V) : V * V :=
  let (h, r) := two_prods N (fst ab) (snd ab) in let (p, q) := two_sums N (fst ps) h in (p, nadd N (snd ps) (nadd N q r)).
Lemma stable_dot_loop A B a b l k d : yields A (map Ok (a :: l)) -> yields B (map Ok (b :: k)) -> zlen l = zlen k ->
  stable_dot N c true A B d = Ok (fin (fold_left dot_step (combine l k) (two_prods N a b))).
Proof.
  intros HA HB HL. pose proof HA as (E & _). rewrite zlen_map in E. unfold stable_dot. rewrite check_debug_true, E. cbn [bind].
  pose proof (zlen_nonneg l). rewrite zlen_cons at 1. replace (1 + zlen l =? 0) with false by lia.
  rewrite (sun_ok A _ 0 a HA (znth_cons_0 _ _)). cbn [bind]. rewrite (sun_ok B _ 0 b HB (znth_cons_0 _ _)). cbn [bind].
  rewrite zlen_cons. rewrite <- (zlen_combine l k HL). rewrite (for_list (combine l k) 1 _ dot_step); [reflexivity|].
  intros i ab s Hi. pose proof (znth_lt _ _ _ Hi). apply znth_combine in Hi. destruct Hi as [H1 H2].
  rewrite (sun_ok A _ (1 + i) (fst ab) HA) by (rewrite znth_cons_pos by lia; now replace (1 + i - 1) with i by lia). cbn [bind].
  rewrite (sun_ok B _ (1 + i) (snd ab) HB) by (rewrite znth_cons_pos by lia; now replace (1 + i - 1) with i by lia). cbn [bind].
  unfold dot_step. destruct (two_prods N (fst ab) (snd ab)), (two_sums N (fst s) v). reflexivity.
Qed.
Lemma stable_dot_empty A B d : yields A [] -> stable_dot N c true A B d = Ok d.
Proof. intros (E & _). unfold stable_dot. rewrite check_debug_true, E. reflexivity. Qed.

(** Residues of the products p * x0, p * x0 * x1, ... *)
Fixpoint prod_res (p : V) l : list V :=
  match l with [] => [] | x :: l' => snd (two_prods N p x) :: prod_res (nmul N p x) l' end.
Lemma prod_res_snoc p l x : prod_res p (l ++ [x]) = prod_res p l ++ [snd (two_prods N (fold_left (nmul N) l p) x)].
Proof. revert p. induction l as [|y l IH]; intros p; cbn; [reflexivity|]. now rewrite IH. Qed.
Lemma zlen_prod_res p l : zlen (prod_res p l) = zlen l.
Proof. revert p. induction l as [|y l IH]; intros p; cbn [prod_res]; [reflexivity|]. now rewrite !zlen_cons, IH. Qed.
(** One evaluation of the lambda of stable_prod inside stable_sum: state ((s, c), prod_temp), argument (residue, element). *)
Definition off_step (st : V * V * V) (ra : V * V) : V * V * V :=
  (sum_step N (fst st) (nmul N (snd st) (fst ra)), nmul N (snd st) (snd ra)).
Definition prod_offset (x : V) l : V :=
  match l with
  | [] => nzero N
  | _ => fin (fst (fold_left off_step (rev (combine (prod_res x l) l)) ((nzero N, nzero N), none_ N)))
  end.
Lemma stable_prod_loop A x l d : zlen l <= amax c -> yields A (map Ok (x :: l)) ->
  stable_prod N c A d = Ok (nadd N (fold_left (nmul N) l x) (prod_offset x l)).
Proof.
  intros HM HA. pose proof HA as (E & HL & _). rewrite zlen_map in E, HL. rewrite zlen_cons in E, HL. pose proof (zlen_nonneg l) as HP.
  unfold stable_prod. rewrite E. replace (1 + zlen l =? 0) with false by lia. rewrite lsub_ok by (unfold LONG_MIN; lia). cbn [bind].
  replace (1 + zlen l - 1) with (zlen l) by lia. rewrite arr_new_ok by lia. cbn [bind]. rewrite (sun_ok A _ 0 x HA (znth_cons_0 _ _)). cbn [bind].
  destruct (for_inv (fun i (rp : arr V * V) => fst rp = mkarr (prod_res x (firstn (Z.to_nat (i - 1)) l) ++ repeat (nzero N) (Z.to_nat (zlen l - (i - 1)))) (zlen l) /\
                               snd rp = fold_left (nmul N) (firstn (Z.to_nat (i - 1)) l) x)
    1 (1 + zlen l) (fun i rp => a <- sun A i ;; k <- lsub i 1 ;; b <- oset (buf (fst rp)) k (snd (two_prods N (snd rp) a)) ;;
              a' <- sun A i ;; Ok (mkarr b (an (fst rp)), nmul N (snd rp) a')) (mkarr (repeat (nzero N) (Z.to_nat (zlen l))) (zlen l), x))
    as ((res & p) & -> & HI1 & HI2).
  - lia.
  - cbn [fst snd]. replace (Z.to_nat (1 - 1)) with O by lia. cbn. split; [|reflexivity]. now replace (zlen l - 0) with (zlen l) by lia.
  - intros i [res p] Hi [H1 H2]. cbn [fst snd] in *. subst res p.
    destruct (znth_some l (i - 1)) as (v & Hv); [lia|].
    assert (SV : sun A i = Ok v). { apply (sun_ok A _ i v HA). now rewrite znth_cons_pos by lia. }
    rewrite !SV. cbn [bind]. rewrite lsub_ok by (unfold LONG_MIN, LONG_MAX in *; lia). cbn [bind buf an].
    assert (L1 : zlen (prod_res x (firstn (Z.to_nat (i - 1)) l)) = i - 1) by (rewrite zlen_prod_res; apply zlen_firstn; lia).
    rewrite oset_ok by (rewrite zlen_app, L1, zlen_repeat by lia; lia). cbn [bind]. eexists. split; [reflexivity|]. cbn [fst snd].
    replace (i + 1 - 1) with (i - 1 + 1) by lia. rewrite (firstn_snoc l (i - 1) v Hv), prod_res_snoc, fold_left_app. cbn [fold_left].
    split; [|reflexivity]. f_equal. rewrite zupd_app_r by lia. rewrite <- app_assoc. f_equal. rewrite L1.
    replace (i - 1 - (i - 1)) with 0 by lia. replace (Z.to_nat (zlen l - (i - 1))) with (S (Z.to_nat (zlen l - (i - 1 + 1)))) by lia. reflexivity.
  - cbn [fst snd] in HI1, HI2. replace (1 + zlen l - 1) with (zlen l) in * by lia. replace (Z.to_nat (zlen l - zlen l)) with O in * by lia.
    rewrite firstn_all2 in HI1, HI2 by (unfold zlen; lia). cbn [repeat] in HI1. rewrite app_nil_r in HI1. subst res p. cbn [bind buf an].
    destruct (irange_ok c (zlen l)) as (R & -> & _); [unfold LONG_MAX in *; lia|]. cbn [bind].
    unfold prod_offset. destruct l as [|y l']; [reflexivity|]. set (l := y :: l') in *.
    replace (zlen l =? 0) with false by (subst l; rewrite zlen_cons; pose proof (zlen_nonneg l'); lia).
    rewrite (for_list0 (rev (combine (prod_res x l) l)) _ _ off_step); [reflexivity| |].
    + rewrite zlen_rev, zlen_combine by apply zlen_prod_res. now rewrite zlen_prod_res.
    + intros i ra st Hi. pose proof (znth_lt _ _ _ Hi) as HB. rewrite zlen_rev, zlen_combine, zlen_prod_res in HB by apply zlen_prod_res.
      rewrite znth_rev in Hi by (rewrite zlen_combine, zlen_prod_res by apply zlen_prod_res; lia).
      rewrite zlen_combine, zlen_prod_res in Hi by apply zlen_prod_res. apply znth_combine in Hi. destruct Hi as [H1 H2].
      rewrite lsub_ok by (unfold LONG_MIN, LONG_MAX in *; lia). cbn [bind]. rewrite lsub_ok by (unfold LONG_MIN, LONG_MAX in *; lia). cbn [bind].
      rewrite (oget_ok _ _ _ H1). cbn [bind]. rewrite lsub_ok by (unfold LONG_MIN, LONG_MAX in *; lia). cbn [bind]. 
      rewrite (sun_ok A _ (zlen l - i) (snd ra) HA).
      2:{ rewrite znth_cons_pos by lia. now replace (zlen l - i - 1) with (zlen l - 1 - i) by lia. }
      reflexivity.
Qed.
Lemma stable_prod_empty A d : yields A [] -> stable_prod N c A d = Ok d.
Proof. intros (E & _). unfold stable_prod. rewrite E. reflexivity. Qed.

(** Blocks of 64 and the remainder, read from the end. *)
Definition block l (i : Z) : list V := firstn 64 (skipn (Z.to_nat (64 * i)) l).
Definition bsum l (i : Z) : V := fold_left (nadd N) (block l i) (nzero N).
Lemma znth_block l i j v : 0 <= i -> 0 <= j -> znth (block l i) j = Some v -> znth l (i * 64 + j) = Some v.
Proof.
  intros Hi Hj H. unfold block in H. change 64%nat with (Z.to_nat 64) in H. rewrite znth_firstn in H by lia. destruct (j <? 64); [|discriminate].
  rewrite znth_skipn in H by lia. now replace (i * 64 + j) with (j + 64 * i) by lia.
Qed.
Lemma zlen_block l i : 0 <= i -> 64 * (i + 1) <= zlen l -> zlen (block l i) = 64.
Proof. intros Hi H. unfold block. change 64%nat with (Z.to_nat 64). apply zlen_firstn. rewrite zlen_skipn by lia. lia. Qed.
Lemma block_loop A l i b n v : yields A (map Ok l) -> 0 <= i < n -> 64 * n <= zlen l -> zlen b = n -> znth b i = Some v ->
  for_ 0 block_size (fun j sb =>
              check_debug c (Ok (valid_index (an sb) i)) ;;;
              p <- lmul i block_size ;; q <- ladd p j ;; a <- sun A q ;;
              v <- oget (buf sb) i ;; b <- oset (buf sb) i (nadd N v a) ;; Ok (mkarr b (an sb))) (mkarr b n) =
  Ok (mkarr (zupd b i (fold_left (nadd N) (block l i) v)) n).
Proof.
  intros HA Hi HN HB Hv. pose proof HA as (_ & HL & _). rewrite zlen_map in HL.
  destruct (for_inv (fun j sb => sb = mkarr (zupd b i (fold_left (nadd N) (firstn (Z.to_nat j) (block l i)) v)) n) 0 block_size (fun j sb =>
              check_debug c (Ok (valid_index (an sb) i)) ;;;
              p <- lmul i block_size ;; q <- ladd p j ;; a <- sun A q ;;
              v <- oget (buf sb) i ;; b <- oset (buf sb) i (nadd N v a) ;; Ok (mkarr b (an sb))) (mkarr b n)) as (sb & -> & ->).
  - unfold block_size. lia.
  - cbn. now rewrite zupd_same.
  - intros j sb Hj ->. unfold block_size in Hj. cbn [an buf]. unfold valid_index. replace ((-1 <? i) && (i <? n)) with true by lia. rewrite check_debug_true. cbn [bind].
    unfold block_size. rewrite lmul_ok by (unfold LONG_MIN, LONG_MAX in *; lia). cbn [bind]. rewrite ladd_ok by (unfold LONG_MIN, LONG_MAX in *; lia). cbn [bind].
    destruct (znth_some (block l i) j) as (a & Ha); [rewrite zlen_block by lia; lia|].
    rewrite (sun_ok A _ (i * 64 + j) a HA) by (apply znth_block; [lia|lia|assumption]). cbn [bind].
    rewrite (oget_ok _ i (fold_left (nadd N) (firstn (Z.to_nat j) (block l i)) v)).
    2:{ rewrite znth_zupd by lia. replace (i =? i) with true by lia. reflexivity. }
    cbn [bind]. rewrite oset_ok by (rewrite zlen_zupd; lia). cbn [bind]. eexists. split; [reflexivity|].
    rewrite zupd_zupd, (firstn_snoc _ j a Ha), fold_left_app. reflexivity.
  - rewrite firstn_all2; [reflexivity|]. pose proof (zlen_block l i ltac:(lia) ltac:(lia)) as Z64. unfold zlen in Z64. unfold block_size. lia.
Qed.
Definition semi_value l : V :=
  let nb := zlen l / 64 in
  let r := fold_left (nadd N) (firstn (Z.to_nat (zlen l mod 64)) (rev l)) (nzero N) in
  if nb =? 0 then r
  else nadd N (fin (fold_left (sum_step N) (map (bsum l) (zseq 0 (Z.to_nat nb))) (nzero N, nzero N))) r.
Lemma semi_stable_loop A l d : yields A (map Ok l) -> l <> [] -> zlen l / 64 <= amax c ->
  semi_stable_sum N c A d = Ok (semi_value l).
Proof.
  intros HA HN HM. pose proof HA as (E & HL & _). rewrite zlen_map in E, HL. pose proof (zlen_nonneg l) as HP.
  assert (HZ : zlen l <> 0) by (intros H0; apply HN, zlen_zero; exact H0).
  unfold semi_stable_sum. rewrite E. replace (zlen l =? 0) with false by lia.
  assert (QD : Z.quot (zlen l) 64 = zlen l / 64) by (apply Z.quot_div_nonneg; lia).
  assert (RM : Z.rem (zlen l) 64 = zlen l mod 64) by (apply Z.rem_mod_nonneg; lia).
  unfold block_size at 1 2. rewrite ldiv_ok by (try rewrite QD; unfold LONG_MIN, LONG_MAX in *; lia). cbn [bind].
  rewrite lmod_ok by (try rewrite QD; unfold LONG_MIN, LONG_MAX in *; lia). cbn [bind]. rewrite QD, RM.
  set (nb := zlen l / 64) in *. set (rm := zlen l mod 64) in *. assert (D : zlen l = 64 * nb + rm /\ 0 <= rm < 64) by (subst nb rm; lia). clearbody nb rm. destruct D as [D1 D2].
  rewrite arr_new_ok by lia. cbn [bind].
  match goal with |- bind (for_ 0 nb ?body ?s0) _ = _ =>
    destruct (for_inv (fun i sb => sb = mkarr (map (bsum l) (zseq 0 (Z.to_nat i)) ++ repeat (nzero N) (Z.to_nat (nb - i))) nb) 0 nb body s0) as (sb & -> & ->) end.
  - lia.
  - cbn. now replace (nb - 0) with nb by lia.
  - intros i sb Hi ->. assert (L1 : zlen (map (bsum l) (zseq 0 (Z.to_nat i))) = i) by (rewrite zlen_map, zlen_zseq; lia).
    rewrite (block_loop A l i _ nb (nzero N) HA); [|lia|lia|rewrite zlen_app, L1, zlen_repeat by lia; lia|].
    2:{ rewrite znth_app_r by lia. rewrite L1. apply znth_repeat. lia. }
    eexists. split; [reflexivity|]. f_equal. rewrite zupd_app_r by lia. rewrite L1. replace (i - i) with 0 by lia.
    replace (Z.to_nat (nb - i)) with (S (Z.to_nat (nb - (i + 1)))) by lia. replace (Z.to_nat (i + 1)) with (S (Z.to_nat i)) by lia.
    rewrite zseq_S, map_app, <- app_assoc. f_equal. cbn [repeat map app]. unfold zupd. cbn [Z.ltb Z.compare Z.to_nat upd]. f_equal. rewrite Z2Nat.id by lia. reflexivity.
  - replace (Z.to_nat (nb - nb)) with O by lia. cbn [repeat bind]. rewrite app_nil_r.
    set (r := firstn (Z.to_nat rm) (rev l)).
    assert (LR : rm = zlen r) by (subst r; rewrite zlen_firstn; [reflexivity|rewrite zlen_rev; lia]).
    rewrite (for_list0 r rm _ (nadd N)); [|exact LR|].
    2:{ intros i x s Hi. pose proof (znth_lt _ _ _ Hi) as HB. rewrite lsub_ok by (unfold LONG_MIN, LONG_MAX in *; lia). cbn [bind]. rewrite lsub_ok by (unfold LONG_MIN, LONG_MAX in *; lia). cbn [bind].
        subst r. rewrite znth_firstn in Hi by lia. destruct (i <? rm); [|discriminate]. rewrite znth_rev in Hi by lia. now rewrite (sun_ok A _ _ x HA Hi). }
    cbn [bind an]. unfold semi_value. replace (zlen l / 64) with nb by lia. replace (zlen l mod 64) with rm by lia. fold r.
    destruct (Z.eqb_spec nb 0) as [E0|E0]; [reflexivity|].
    rewrite (stable_sum_loop _ (map (bsum l) (zseq 0 (Z.to_nat nb)))); [reflexivity| |].
    + unfold yields. cbn [src_of_arr ssize sun an buf]. rewrite !zlen_map, zlen_zseq. split; [lia|]. split; [lia|]. intros i Hi. unfold elt, oget. rewrite (znth_map Ok).
      destruct (znth (map (bsum l) (zseq 0 (Z.to_nat nb))) i); reflexivity.
    + intros H0. apply (f_equal (@length V)) in H0. rewrite map_length, zseq_length in H0. cbn in H0. lia.
Qed.
Lemma semi_stable_empty A d : yields A [] -> semi_stable_sum N c A d = Ok d.
Proof. intros (E & _). unfold semi_stable_sum. rewrite E. reflexivity. Qed.
End LOOPS.
Lemma stable_dot_mismatch {V} (N : num V) (c : cfg) (A B : src1 V) d : checked c = true -> ssize A <> ssize B -> stable_dot_prod N c A B d = Fail (report c).
Proof. intros HC HN. unfold stable_dot_prod, stable_dot. replace (ssize A =? ssize B) with false by lia. now rewrite check_debug_false. Qed.
