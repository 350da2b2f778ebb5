(** Two-dimensional arrays: the functions on the heap compute what the functions on values compute, and free what they no longer need. *)
From Verif Require Import Base.Outcome Base.ZList Model.IntModel Model.ScalarOps Model.Index Model.Slice Model.Array1D Model.Array2D Model.Store1D Model.Store2D Model.Heap Model.Heap2D.
From Verif Require Import Spec.ArraySpec Spec.MatrixSpec Spec.Store1DSpec Spec.Store2DSpec Spec.HeapSpec Spec.Heap2DSpec Proofs.Store1DProofs Proofs.Store2DProofs Proofs.Array2DThms Proofs.HeapProofs.

Section HP2.
Context {V : Type} (zero : V) (al : Z).
Notation heap := (heap (V := V)).
Notation hm := (hm (V := V)).
Notation repr := (repr (V := V) al).
Notation repr2 := (repr2 (V := V) al).
Notation made2 := (made2 (V := V) al).
Notation changes2 := (changes2 (V := V) al).
Notation holds := (holds (V := V) al).
Notation sim := (sim (V := V) al).
Notation msim := (msim (V := V) al).
Notation "x <-- m ;; k" := (hbind m (fun x => k)) (at level 61, m at next level, right associativity).
Implicit Types (h : heap) (o t : hobj2) (b : list V) (a : arr2 V).

(** ** Reading and writing *)
Definition reads2 (q : option Z) h (r : Z -> Z -> hm V) (g : Z -> Z -> outcome V) : Prop := forall h', only q h h' -> forall i j, r i j h' = lift (g i j) h'.
Lemma reads2_later q h h' r g : reads2 q h r g -> only q h h' -> reads2 q h' r g.
Proof. intros R O h2 O2 i j. apply R. eapply only_trans; eauto. Qed.
Lemma sim_read2 (t : hobj) h b r g i j k r' : holds h t b -> reads2 (optr t) h r g -> (forall v, sim t h b (k v) (r' v)) -> sim t h b (v <-- r i j ;; k v) (bind (g i j) r').
Proof.
  intros H R K. assert (E : r i j h = lift (g i j) h) by (apply R; apply only_refl).
  pose proof (sim_lift al t h b (g i j) k r' H (fun v _ => K v)) as S. unfold HeapProofs.sim, hbind in *. rewrite E. exact S.
Qed.
Lemma sim_store2 t h b i j v : holds h (odat t) b -> sim (odat t) h b (h2_store t i j v) (set2 (ocols t) b i j v).
Proof. intros H. unfold h2_store, set2. apply sim_lift; [exact H|]. intros p _. apply sim_lift; [exact H|]. intros q _. now apply sim_store. Qed.
Lemma sees2_reads h h1 (t : hobj) r g : sees2 h r g -> built h h1 t -> reads2 (optr t) h1 r g.
Proof. intros S B h' O i j. apply S. intros p x L. assert (N : optr t <> Some p) by (intros Q; apply B in Q; congruence). rewrite O by exact N. rewrite (proj2 B) by exact N. exact L. Qed.
Lemma sees2_load h o a : repr2 h o a -> sees2 h (h2_load o) (un2 a).
Proof.
  intros (_ & C & R) h' K i j. unfold h2_load, un2, hbind. rewrite C. destruct (lmul i (dcols a)) as [p|f|]; cbn [lift bind]; try reflexivity.
  destruct (ladd p j) as [q|f|]; cbn [lift bind]; try reflexivity. now apply (sees_load al h (odat o) (dat a) R).
Qed.

(** ** Copies *)
Lemma sim_copy2 t h b r g m n : holds h (odat t) b -> reads2 (optr (odat t)) h r g ->
  sim (odat t) h b (h2_copy m n r t) (for_ 0 m (fun i b => for_ 0 n (fun j b => v <- g i j ;; set2 (ocols t) b i j v) b) b).
Proof.
  intros H R. apply sim_for; [exact H|]. intros i h1 b1 O1 H1. apply sim_for; [exact H1|]. intros j h2 b2 O2 H2.
  apply sim_read2; [exact H2|eapply reads2_later; [exact R|eapply only_trans; eauto]|]. intros v. now apply sim_store2.
Qed.
Lemma sim_copy_rows t h b r A s1 s2 n : holds h (odat t) b -> reads2 (optr (odat t)) h r (s2un A) ->
  sim (odat t) h b (h2_copy_rows (s2cols A) r t s1 s2 n) (copy_rows3 A (ocols t) s1 s2 n b).
Proof.
  intros H R. apply sim_for; [exact H|]. intros i h1 b1 O1 H1. apply sim_for; [exact H1|]. intros j h2 b2 O2 H2.
  apply sim_lift; [exact H2|]. intros i1 _. apply sim_read2; [exact H2|eapply reads2_later; [exact R|eapply only_trans; eauto]|]. intros v. apply sim_lift; [exact H2|]. intros i2 _. now apply sim_store2.
Qed.
Lemma sim_copy_cols t h b r A s1 s2 n : holds h (odat t) b -> reads2 (optr (odat t)) h r (s2un A) ->
  sim (odat t) h b (h2_copy_cols (s2rows A) r t s1 s2 n) (copy_cols3 A (ocols t) s1 s2 n b).
Proof.
  intros H R. apply sim_for; [exact H|]. intros i h1 b1 O1 H1. apply sim_for; [exact H1|]. intros j h2 b2 O2 H2.
  apply sim_lift; [exact H2|]. intros i1 _. apply sim_read2; [exact H2|eapply reads2_later; [exact R|eapply only_trans; eauto]|]. intros v. apply sim_lift; [exact H2|]. intros i2 _. now apply sim_store2.
Qed.
Lemma sim_ret (t : hobj) h b : holds h t b -> sim t h b (hret tt) (Ok b).
Proof. intros H. exists h. repeat split; auto using only_refl. Qed.
Lemma sim_list_row t r l : forall cc h b, holds h (odat t) b -> sim (odat t) h b (h2_copy_list_row t r cc l) (copy_list_row (ocols t) r cc l b).
Proof.
  induction l as [|x l IH]; intros cc h b H; cbn [h2_copy_list_row copy_list_row]; [now apply sim_ret|].
  apply sim_bind; [now apply sim_store2|]. intros h' b' _ H'. now apply IH.
Qed.
Lemma sim_list t L : forall r h b, holds h (odat t) b -> sim (odat t) h b (h2_copy_list t r L) (copy_list2 (ocols t) r L b).
Proof.
  induction L as [|l L IH]; intros r h b H; cbn [h2_copy_list copy_list2]; [now apply sim_ret|].
  apply sim_bind; [now apply sim_list_row|]. intros h' b' _ H'. now apply IH.
Qed.
(** A loop with a counter. *)
Definition csim (t : hobj) h b (m : hm Z) (r : outcome (list V * Z)) : Prop :=
  match r with
  | Ok s => exists h', m h = HOk (snd s) h' /\ holds h' t (fst s) /\ only (optr t) h h'
  | Fail f => exists h' b', m h = HFail f h' /\ holds h' t b' /\ only (optr t) h h'
  | UB => m h = HUB
  end.
Lemma csim_loop (t : hobj) body vb k : forall i h b q, holds h t b ->
  (forall j h' b' q', only (optr t) h h' -> holds h' t b' -> csim t h' b' (body j q') (vb j (b', q'))) -> csim t h b (hfor_count_loop k i body q) (for_loop k i vb (b, q)).
Proof.
  induction k as [|k IH]; intros i h b q H B; cbn [hfor_count_loop for_loop].
  - exists h. repeat split; auto using only_refl.
  - pose proof (B i h b q (only_refl _ _) H) as S. unfold csim in S. destruct (vb i (b, q)) as [[b1 q1]|f|]; cbn [bind fst snd] in *.
    + destruct S as (h1 & E1 & H1 & O1). specialize (IH (i + 1) h1 b1 q1 H1). assert (B' : forall j h' b' q', only (optr t) h1 h' -> holds h' t b' -> csim t h' b' (body j q') (vb j (b', q'))) by (intros; apply B; eauto using only_trans).
      specialize (IH B'). unfold csim in *. unfold hbind. rewrite E1. destruct (for_loop k (i + 1) vb (b1, q1)) as [s|f|].
      * destruct IH as (h2 & E2 & H2 & O2). exists h2. repeat split; eauto using only_trans.
      * destruct IH as (h2 & b2 & E2 & H2 & O2). exists h2, b2. repeat split; eauto using only_trans.
      * exact IH.
    + destruct S as (h1 & b1 & E1 & H1 & O1). exists h1, b1. unfold hbind. now rewrite E1.
    + unfold csim, hbind. now rewrite S.
Qed.
Lemma csim_drop (t : hobj) h b m r : csim t h b m r -> sim t h b (_ <-- m ;; hret tt) (s <- r ;; Ok (fst s)).
Proof.
  intros S. unfold csim in S. destruct r as [s|f|]; cbn [bind].
  - destruct S as (h' & E & H & O). exists h'. unfold hbind. rewrite E. auto.
  - destruct S as (h' & b' & E & H & O). exists h', b'. unfold hbind. rewrite E. auto.
  - unfold HeapProofs.sim, hbind. now rewrite S.
Qed.
Lemma csim_of (t : hobj) h b m r (x : outcome Z) : sim t h b m r -> csim t h b (_ <-- m ;; lift x) (b' <- r ;; k <- x ;; Ok (b', k)).
Proof.
  intros S. unfold HeapProofs.sim in S. destruct r as [b'|f|]; cbn [bind].
  - destruct S as (h' & E & H & O). destruct x as [k|f|]; cbn [bind].
    + exists h'. unfold hbind. rewrite E. auto.
    + exists h', b'. unfold hbind. rewrite E. auto.
    + unfold csim, hbind. now rewrite E.
  - destruct S as (h' & b' & E & H & O). exists h', b'. unfold hbind. rewrite E. auto.
  - unfold csim, hbind. now rewrite S.
Qed.
Lemma csim_read (t : hobj) h b (m : hm V) (x : outcome V) k r' : holds h t b -> m h = lift x h -> (forall v, csim t h b (k v) (r' v)) -> csim t h b (v <-- m ;; k v) (bind x r').
Proof.
  intros H E K. unfold csim, hbind. rewrite E. destruct x as [v|f|]; cbn [bind lift]; [apply K| |reflexivity]. exists h, b. repeat split; auto using only_refl.
Qed.

(** ** New arrays *)
Lemma unwind_kept h h1 h2 (t : hobj) b {A} (m : hm A) f : built h h1 t -> m h1 = HFail f h2 -> holds h2 t b -> only (optr t) h1 h2 ->
  exists h', unwind al t m h1 = HFail f h' /\ kept h f h'.
Proof.
  intros BU E2 H2 O2. unfold unwind. rewrite E2. destruct (fatal f) eqn:F.
  - exists h2. split; [reflexivity|]. split; [|congruence]. intros p x L. assert (NE : optr t <> Some p) by (intros Q; apply BU in Q; congruence). rewrite O2 by exact NE. rewrite (proj2 BU) by exact NE. exact L.
  - destruct (delete_sim al h2 t b H2) as (h3 & E3 & L3). rewrite E3. exists h3. split; [reflexivity|].
    assert (SM : same_memory h h3). { intros p. rewrite L3. destruct (optr t) as [q|] eqn:Q.
      - destruct (p =? q) eqn:PQ; [apply Z.eqb_eq in PQ; subst; symmetry; now apply (proj1 BU)|]. apply Z.eqb_neq in PQ. rewrite O2 by congruence. apply (proj2 BU). congruence.
      - rewrite O2 by congruence. apply (proj2 BU). congruence. }
    split; [|intros _; exact SM]. intros p x L. now rewrite SM.
Qed.
Lemma kept_refl h f : kept h f h. Proof. split; [auto|]. now intros _ p. Qed.
Lemma new2_sim c m n h : match arr2_new zero c m n with
  | Ok a => exists d h', h2_new zero al c m n h = HOk (mkobj2 m n d) h' /\ drows a = m /\ dcols a = n /\ on d = an (dat a) /\ holds h' d (buf (dat a)) /\ built h h' d
  | Fail f => exists h', h2_new zero al c m n h = HFail f h' /\ kept h f h'
  | UB => h2_new zero al c m n h = HUB
  end.
Proof.
  unfold arr2_new, h2_new, hbind. destruct (lmul m n) as [p|f|]; cbn [bind lift]; [|exists h; split; [reflexivity|apply kept_refl]|reflexivity].
  pose proof (new_sim zero al c p h) as N. destruct (arr_new zero c p) as [a|f|]; cbn [bind]; [|exists h; rewrite N; split; [reflexivity|apply kept_refl]|now rewrite N].
  destruct N as (d & h1 & E1 & ON & AN & H1 & BU). rewrite E1.
  assert (X : forall (u : outcome unit) , match (u ;;; Ok (mkarr2 m n a)) with
    | Ok a0 => exists d' h', match unwind al d (lift u) h1 with HOk _ h' => hret (mkobj2 m n d) h' | HFail f h' => HFail f h' | HUB => HUB end = HOk (mkobj2 m n d') h' /\ drows a0 = m /\ dcols a0 = n /\ on d' = an (dat a0) /\ holds h' d' (buf (dat a0)) /\ built h h' d'
    | Fail f => exists h', match unwind al d (lift u) h1 with HOk _ h' => hret (mkobj2 m n d) h' | HFail f h' => HFail f h' | HUB => HUB end = HFail f h' /\ kept h f h'
    | UB => match unwind al d (lift u) h1 with HOk _ h' => hret (mkobj2 m n d) h' | HFail f h' => HFail f h' | HUB => HUB end = HUB end).
  { intros [[]|f|]; cbn [bind].
    - exists d, h1. cbn. repeat split; auto; try congruence; apply BU.
    - destruct (unwind_kept h h1 h1 d (buf a) (lift (@Fail unit f)) f BU eq_refl H1 (only_refl _ _)) as (h' & E & K). rewrite E. now exists h'.
    - reflexivity. }
  specialize (X (check_debug c (Ok (0 <=? m)) ;;; check_debug c (Ok (0 <=? n)) ;;; check_debug c (Ok (semi_valid m n)))). rewrite !bind_assoc in X.
  exact X.
Qed.
Lemma made2_new c m n h : made2 h (h2_new zero al c m n) (arr2_new zero c m n).
Proof.
  pose proof (new2_sim c m n h) as N. unfold Heap2DSpec.made2. destruct (arr2_new zero c m n) as [a|f|]; [|exact N|exact N].
  destruct N as (d & h' & E & R & C & S & H & B). exists (mkobj2 m n d), h'. split; [exact E|]. split; [split; [cbn; congruence|split; [cbn; congruence|split; assumption]]|exact B].
Qed.
Lemma build2_sim c m n h body vbody :
  (forall t h1 a, orows t = m -> ocols t = n -> drows a = orows t -> dcols a = ocols t -> on (odat t) = an (dat a) -> built h h1 (odat t) -> holds h1 (odat t) (buf (dat a)) -> sim (odat t) h1 (buf (dat a)) (body t) (vbody a)) ->
  made2 h (h2_build zero al c m n body) (a <- arr2_new zero c m n ;; b <- vbody a ;; Ok (mkarr2 (drows a) (dcols a) (mkarr b (an (dat a))))).
Proof.
  intros B. pose proof (new2_sim c m n h) as N. unfold Heap2DSpec.made2, h2_build. destruct (arr2_new zero c m n) as [a|f|] eqn:E; cbn [bind].
  - destruct N as (d & h1 & E1 & R & C & S & H1 & BU). specialize (B (mkobj2 m n d) h1 a eq_refl eq_refl R C S BU H1). cbn [odat] in B. unfold HeapProofs.sim in B. destruct (vbody a) as [b|f|]; cbn [bind].
    + destruct B as (h2 & E2 & H2 & O2). exists (mkobj2 m n d), h2. unfold hbind. rewrite E1. unfold unwind. cbn [odat]. rewrite E2. split; [reflexivity|]. split.
      * split; [cbn; congruence|]. split; [cbn; congruence|]. split; [exact S|exact H2].
      * split; [apply BU|]. eapply only_trans; [apply BU|exact O2].
    + destruct B as (h2 & b & E2 & H2 & O2). destruct (unwind_kept h h1 h2 d b _ f BU E2 H2 O2) as (h' & E3 & K). exists h'. unfold hbind. rewrite E1. cbn [odat]. rewrite E3. auto.
    + unfold hbind. rewrite E1. unfold unwind. cbn [odat]. now rewrite B.
  - destruct N as (h' & E1 & K). exists h'. unfold hbind. rewrite E1. auto.
  - unfold hbind. now rewrite N.
Qed.
Lemma made2_eq h m r r' : r = r' -> made2 h m r -> made2 h m r'. Proof. now intros ->. Qed.
Lemma made2_fill c m n x h : made2 h (h2_new_fill zero al c m n x) (arr2_new_fill zero c m n x).
Proof.
  eapply made2_eq; [|apply (build2_sim c m n h _ (fun a => fill x (an (dat a)) (buf (dat a))))].
  - unfold arr2_new_fill, arr_set_all. apply bind_ext. intros a _. now rewrite bind_assoc.
  - intros t h1 a _ _ _ _ S _ H. rewrite <- S. now apply sim_fill.
Qed.
Lemma made2_list c L h : made2 h (h2_of_list zero al c L) (arr2_of_list zero c L).
Proof.
  eapply made2_eq; [|apply (build2_sim c (fst (list2_sizes L)) (snd (list2_sizes L)) h _ (fun a => check_debug c (Ok (valid_list2 L)) ;;; copy_list2 (dcols a) 0 L (buf (dat a))))].
  - unfold arr2_of_list. destruct (list2_sizes L) as [m n]. cbn [fst snd]. apply bind_ext. intros a _. now rewrite bind_assoc.
  - intros t h1 a _ _ _ C _ _ H. apply sim_lift; [exact H|]. intros _ _. rewrite C. now apply sim_list.
Qed.
Theorem made2_src c A r h : sees2 h r (s2un A) -> made2 h (h2_of_src zero al c (s2rows A) (s2cols A) r) (arr2_of_src zero c A).
Proof.
  intros S. apply (build2_sim c (s2rows A) (s2cols A) h _ (fun a => copy2 A (dcols a) (buf (dat a)))). intros t h1 a _ _ _ C _ B H. rewrite C.
  apply sim_copy2; [exact H|]. eapply sees2_reads; eauto.
Qed.
Lemma made2_arr c h o a : repr2 h o a -> made2 h (h2_of_arr zero al c o) (arr2_of_arr zero c a).
Proof.
  intros (R & C & D). unfold h2_of_arr, arr2_of_arr. rewrite <- R, <- C. apply (build2_sim c (orows o) (ocols o) h _ (fun t : arr2 V => copy (src_of_arr (dat a)) (buf (dat t)))). intros d h1 t _ _ _ _ _ B H.
  rewrite (proj1 D). apply (sim_copyn al (odat d) h1 (buf (dat t)) (h_load (odat o)) (src_of_arr (dat a)) (an (dat a))); [exact H|]. eapply sees_reads; [exact (sees_load al h (odat o) (dat a) D)|exact B].
Qed.
Lemma made2_copy c h o a : repr2 h o a -> made2 h (h2_copy_of zero al c o) (arr2_copy zero c a).
Proof.
  intros (R & C & D). pose proof (made_src zero al c (src_of_arr (dat a)) (h_load (odat o)) h (sees_load al _ _ _ D)) as M. unfold h2_copy_of, arr2_copy. rewrite (proj1 D). unfold HeapSpec.made, Heap2DSpec.made2 in *. cbn [ssize src_of_arr] in M.
  destruct (arr_of_src zero c (src_of_arr (dat a))) as [d|f|]; cbn [bind].
  - destruct M as (t & h' & E & Rd & B). exists (mkobj2 (orows o) (ocols o) t), h'. unfold hbind. rewrite E. split; [reflexivity|]. split; [|exact B]. split; [exact R|]. split; [exact C|exact Rd].
  - destruct M as (h' & E & K). exists h'. unfold hbind. rewrite E. auto.
  - unfold hbind. now rewrite M.
Qed.

(** ** Replacing *)
Definition moves2 h o (m : hm hobj2) (r : outcome (arr2 V)) : Prop :=
  match r with
  | Ok a => exists t h', m h = HOk t h' /\ repr2 h' t a /\ moved h (odat o) h' (odat t)
  | Fail f => exists h', m h = HFail f h' /\ kept h f h'
  | UB => m h = HUB
  end.
Lemma moves_changes h o m r : moves2 h o m r -> changes2 h o m r.
Proof. unfold moves2, Heap2DSpec.changes2. destruct r as [a|f|]; auto. intros (t & h' & E & R & M). exists t, h'. auto. Qed.
Lemma replace2_moves h o a m r : repr2 h o a -> made2 h m r -> moves2 h o (t <-- m ;; h2_replace al o t) r.
Proof.
  intros (_ & _ & R) M. unfold Heap2DSpec.made2, moves2 in *. destruct r as [a'|f|].
  - destruct M as (t & h1 & E1 & (R1 & C1 & D1) & B1).
    assert (MM : HeapSpec.made al h (fun _ => HOk (odat t) h1) (Ok (dat a'))). { exists (odat t), h1. split; [reflexivity|]. split; assumption. }
    pose proof (replace_sim al h (odat o) (dat a) _ _ R MM) as X. destruct X as (t' & h2 & E2 & R2 & D2). unfold hbind, h_replace in E2. unfold hbind, h2_replace. rewrite E1. unfold hbind in *.
    destruct (h_delete al (optr (odat o)) h1) as [u h3|f h3|]; [|discriminate|discriminate]. injection E2 as <- <-.
    exists t, h3. split; [reflexivity|]. split; [split; [exact R1|split; [exact C1|exact R2]]|]. destruct D2 as [D2|[D2 D3]]; [exact D2|].
    assert (NP : optr (odat o) = None). { destruct (optr (odat o)) as [p|] eqn:P; [|reflexivity]. pose proof (repr_live al _ _ _ _ R P) as L. rewrite <- D2 in P. apply B1 in P. congruence. }
    split; [|split]; intros p; rewrite ?D2, ?NP; try discriminate. now intros; rewrite D3.
  - destruct M as (h1 & E1 & K). exists h1. unfold hbind. rewrite E1. auto.
  - unfold hbind. now rewrite M.
Qed.
Lemma replace2_sim h o a m r : repr2 h o a -> made2 h m r -> changes2 h o (t <-- m ;; h2_replace al o t) r.
Proof. intros R M. apply moves_changes. eapply replace2_moves; eauto. Qed.
Lemma changes2_lift {A} h o (x : outcome A) k r' : (forall y, x = Ok y -> changes2 h o (k y) (r' y)) -> changes2 h o (y <-- lift x ;; k y) (bind x r').
Proof.
  intros K. destruct x as [y|f|]; cbn [bind].
  - specialize (K y eq_refl). exact K.
  - exists h. split; [reflexivity|apply kept_refl].
  - reflexivity.
Qed.
Lemma changes2_eq h o m r r' : r = r' -> changes2 h o m r -> changes2 h o m r'. Proof. now intros ->. Qed.
Lemma changes2_same h o a : repr2 h o a -> changes2 h o (hret o) (Ok a).
Proof. intros R. exists o, h. split; [reflexivity|]. split; [exact R|]. right. auto. Qed.
Lemma build2_replace c m n h o a body vbody r : repr2 h o a ->
  r = (a <- arr2_new zero c m n ;; b <- vbody a ;; Ok (mkarr2 (drows a) (dcols a) (mkarr b (an (dat a))))) ->
  (forall t h1 a, orows t = m -> ocols t = n -> drows a = orows t -> dcols a = ocols t -> on (odat t) = an (dat a) -> built h h1 (odat t) -> holds h1 (odat t) (buf (dat a)) -> sim (odat t) h1 (buf (dat a)) (body t) (vbody a)) ->
  changes2 h o (t <-- h2_build zero al c m n body ;; h2_replace al o t) r.
Proof. intros R -> B. eapply replace2_sim; [exact R|]. now apply build2_sim. Qed.
Theorem resize2_sim c m n pr h o a : repr2 h o a -> changes2 h o (h2_resize zero al c m n pr o) (arr2_resize zero c m n pr a).
Proof.
  intros R. pose proof (sees2_load h o a R) as SL. unfold h2_resize, arr2_resize. destruct R as (Rr & Rc & Rd). pose proof (conj Rr (conj Rc Rd) : repr2 h o a) as R.
  match goal with |- changes2 _ _ (hbind (lift ?u) ?k) _ => apply (changes2_eq h o _ (bind u (fun _ : unit => if (m =? drows a) && (n =? dcols a) then Ok a else if pr then tmp <- arr2_new zero c m n ;;
         b <- for_ 0 (mins (drows a) m) (fun i b => for_ 0 (mins (dcols a) n) (fun j b => v <- un2 a i j ;; set2 n b i j v) b) (buf (dat tmp)) ;;
         Ok (mkarr2 m n (mkarr b (an (dat tmp))))
         else p <- lmul m n ;; q <- lmul (drows a) (dcols a) ;; if p =? q then Ok (mkarr2 m n (dat a)) else arr2_new zero c m n))) end.
  { rewrite !bind_assoc. apply bind_ext. intros _ _. apply bind_ext. intros _ _. apply bind_ext. intros _ _. destruct pr, ((m =? drows a) && (n =? dcols a)); reflexivity. }
  apply changes2_lift. intros _ _. rewrite Rr, Rc. destruct ((m =? drows a) && (n =? dcols a)); [now apply changes2_same|]. destruct pr.
  - eapply (build2_replace c m n h o a _ (fun t : arr2 V => for_ 0 (mins (drows a) m) (fun i b => for_ 0 (mins (dcols a) n) (fun j b => v <- un2 a i j ;; set2 n b i j v) b) (buf (dat t)))); [exact R| |].
    + apply bind_ext. intros t E. apply bind_ext. intros b _. pose proof (new2_sim c m n h) as N. rewrite E in N. destruct N as (d & h' & _ & N1 & N2 & _). now rewrite N1, N2.
    + intros t h1 a' _ <- _ _ _ B H. apply sim_copy2; [exact H|]. eapply sees2_reads; eauto.
  - apply changes2_lift. intros p _. apply changes2_lift. intros q _. destruct (p =? q).
    + exists (mkobj2 m n (odat o)), h. split; [reflexivity|]. split; [|right; auto]. split; [reflexivity|]. split; [reflexivity|exact Rd].
    + eapply replace2_sim; [exact R|apply made2_new].
Qed.
Theorem resize_and_assign2_sim c A r h o a : repr2 h o a -> sees2 h r (s2un A) -> changes2 h o (h2_resize_and_assign zero al c (s2rows A) (s2cols A) r o) (arr2_resize_and_assign zero c A).
Proof. intros R S. eapply replace2_sim; [exact R|]. now apply made2_src. Qed.
Theorem resize_and_assign_arr2_sim c h o a o' a' : repr2 h o a -> repr2 h o' a' -> changes2 h o (h2_resize_and_assign_arr zero al c o' o) (arr2_resize_and_assign_arr zero c a').
Proof. intros R S. eapply replace2_sim; [exact R|]. now apply made2_arr. Qed.

Ltac binds := repeat (rewrite ?bind_assoc; first [reflexivity | apply bind_ext; intros ? _]).
Theorem remove_rows_sim c pos count h o a : repr2 h o a -> changes2 h o (h2_remove_rows zero al c pos count o) (arr2_remove_rows zero c pos count a).
Proof.
  intros R. pose proof (sees2_load h o a R) as SL. unfold h2_remove_rows, arr2_remove_rows. rewrite (proj1 R), (proj1 (proj2 R)). do 3 (apply changes2_lift; intros _ _). apply changes2_lift. intros nr _.
  eapply (build2_replace c _ _ h o a _ (fun t : arr2 V => b1 <- copy_rows (src_of_arr2 a) (dcols t) pos (buf (dat t)) ;; s <- ladd pos count ;; d <- lsub (drows a) pos ;; k <- lsub d count ;; copy_rows3 (src_of_arr2 a) (dcols t) s pos k b1)); [exact R|binds|].
  intros T h1 t _ _ _ Ct _ B H. rewrite Ct. pose proof (sees2_reads _ _ _ _ _ SL B) as RL.
  apply sim_bind; [now apply sim_copy2|]. intros h2 b2 O2 H2. do 3 (apply sim_lift; [exact H2|]; intros ? _). apply (sim_copy_rows T h2 b2 (h2_load o) (src_of_arr2 a)); [exact H2|]. eapply reads2_later; eauto.
Qed.
Theorem remove_cols_sim c pos count h o a : repr2 h o a -> changes2 h o (h2_remove_cols zero al c pos count o) (arr2_remove_cols zero c pos count a).
Proof.
  intros R. pose proof (sees2_load h o a R) as SL. unfold h2_remove_cols, arr2_remove_cols. rewrite (proj1 R), (proj1 (proj2 R)). do 3 (apply changes2_lift; intros _ _). apply changes2_lift. intros nr _.
  eapply (build2_replace c _ _ h o a _ (fun t : arr2 V => b1 <- copy_cols (src_of_arr2 a) (dcols t) pos (buf (dat t)) ;; s <- ladd pos count ;; d <- lsub (dcols a) pos ;; k <- lsub d count ;; copy_cols3 (src_of_arr2 a) (dcols t) s pos k b1)); [exact R|binds|].
  intros T h1 t _ _ _ Ct _ B H. rewrite Ct. pose proof (sees2_reads _ _ _ _ _ SL B) as RL.
  apply sim_bind; [now apply sim_copy2|]. intros h2 b2 O2 H2. do 3 (apply sim_lift; [exact H2|]; intros ? _). apply (sim_copy_cols T h2 b2 (h2_load o) (src_of_arr2 a)); [exact H2|]. eapply reads2_later; eauto.
Qed.
Theorem remove_rows_idx_sim c v h o a : repr2 h o a -> changes2 h o (h2_remove_rows_idx zero al c v o) (arr2_remove_rows_idx zero c v a).
Proof.
  intros R. pose proof (sees2_load h o a R) as SL. unfold h2_remove_rows_idx, arr2_remove_rows_idx. destruct v as [|v0 v]; [now apply changes2_same|]. rewrite (proj1 R), (proj1 (proj2 R)). apply changes2_lift. intros ci _.
  eapply (build2_replace c _ _ h o a _ (fun tmp : arr2 V => for_ 0 (drows tmp) (fun i b => for_ 0 (dcols tmp) (fun j b => p <- oget ci i ;; v <- un2 a p j ;; set2 (dcols tmp) b i j v) b) (buf (dat tmp)))); [exact R|binds|].
  intros T h1 t _ _ Rt Ct _ B H. rewrite Ct, Rt. pose proof (sees2_reads _ _ _ _ _ SL B) as RL.
  apply sim_for; [exact H|]. intros i h2 b2 O2 H2. apply sim_for; [exact H2|]. intros j h3 b3 O3 H3. apply sim_lift; [exact H3|]. intros p _. apply sim_read2; [exact H3|eapply reads2_later; [exact RL|eapply only_trans; eauto]|]. intros x. now apply sim_store2.
Qed.
Theorem remove_cols_idx_sim c v h o a : repr2 h o a -> changes2 h o (h2_remove_cols_idx zero al c v o) (arr2_remove_cols_idx zero c v a).
Proof.
  intros R. pose proof (sees2_load h o a R) as SL. unfold h2_remove_cols_idx, arr2_remove_cols_idx. destruct v as [|v0 v]; [now apply changes2_same|]. rewrite (proj1 R), (proj1 (proj2 R)). apply changes2_lift. intros ci _.
  eapply (build2_replace c _ _ h o a _ (fun tmp : arr2 V => for_ 0 (drows tmp) (fun i b => for_ 0 (dcols tmp) (fun j b => p <- oget ci j ;; v <- un2 a i p ;; set2 (dcols tmp) b i j v) b) (buf (dat tmp)))); [exact R|binds|].
  intros T h1 t _ _ Rt Ct _ B H. rewrite Ct, Rt. pose proof (sees2_reads _ _ _ _ _ SL B) as RL.
  apply sim_for; [exact H|]. intros i h2 b2 O2 H2. apply sim_for; [exact H2|]. intros j h3 b3 O3 H3. apply sim_lift; [exact H3|]. intros p _. apply sim_read2; [exact H3|eapply reads2_later; [exact RL|eapply only_trans; eauto]|]. intros x. now apply sim_store2.
Qed.
Theorem insert_rows_sim c pos A r h o a fr vfr : repr2 h o a -> sees2 h r (s2un A) -> changes2 h o fr vfr ->
  changes2 h o (h2_insert_rows zero al c fr pos (s2rows A) (s2cols A) r o) (arr2_insert_rows_gen zero c vfr pos A a).
Proof.
  intros R S F. pose proof (sees2_load h o a R) as SL. unfold h2_insert_rows, arr2_insert_rows_gen. rewrite (proj1 R), (proj1 (proj2 R)). apply changes2_lift. intros _ _. destruct ((drows a =? 0) && (dcols a =? 0)); [exact F|].
  apply changes2_lift. intros _ _. apply changes2_lift. intros nr _.
  eapply (build2_replace c _ _ h o a _ (fun t : arr2 V => b1 <- copy_rows (src_of_arr2 a) (dcols t) pos (buf (dat t)) ;; b2 <- copy_rows3 A (dcols t) 0 pos (s2rows A) b1 ;;
    p <- ladd pos (s2rows A) ;; k <- lsub (drows a) pos ;; copy_rows3 (src_of_arr2 a) (dcols t) pos p k b2)); [exact R|binds|].
  intros T h1 t _ _ _ Ct _ B H. rewrite Ct. pose proof (sees2_reads _ _ _ _ _ SL B) as RL. pose proof (sees2_reads _ _ _ _ _ S B) as RA.
  apply sim_bind; [now apply sim_copy2|]. intros h2 b2 O2 H2. apply sim_bind; [apply sim_copy_rows; [exact H2|eapply reads2_later; eauto]|]. intros h3 b3 O3 H3. do 2 (apply sim_lift; [exact H3|]; intros ? _).
  apply (sim_copy_rows T h3 b3 (h2_load o) (src_of_arr2 a)); [exact H3|]. eapply reads2_later; [exact RL|eapply only_trans; eauto].
Qed.
Theorem insert_cols_sim c pos A r h o a fr vfr : repr2 h o a -> sees2 h r (s2un A) -> changes2 h o fr vfr ->
  changes2 h o (h2_insert_cols zero al c fr pos (s2rows A) (s2cols A) r o) (arr2_insert_cols_gen zero c vfr pos A a).
Proof.
  intros R S F. pose proof (sees2_load h o a R) as SL. unfold h2_insert_cols, arr2_insert_cols_gen. rewrite (proj1 R), (proj1 (proj2 R)). apply changes2_lift. intros _ _. destruct ((drows a =? 0) && (dcols a =? 0)); [exact F|].
  apply changes2_lift. intros _ _. apply changes2_lift. intros nc _.
  eapply (build2_replace c _ _ h o a _ (fun t : arr2 V => b1 <- copy_cols (src_of_arr2 a) (dcols t) pos (buf (dat t)) ;; b2 <- copy_cols3 A (dcols t) 0 pos (s2cols A) b1 ;;
    p <- ladd pos (s2cols A) ;; k <- lsub (dcols a) pos ;; copy_cols3 (src_of_arr2 a) (dcols t) pos p k b2)); [exact R|binds|].
  intros T h1 t _ _ _ Ct _ B H. rewrite Ct. pose proof (sees2_reads _ _ _ _ _ SL B) as RL. pose proof (sees2_reads _ _ _ _ _ S B) as RA.
  apply sim_bind; [now apply sim_copy2|]. intros h2 b2 O2 H2. apply sim_bind; [apply sim_copy_cols; [exact H2|eapply reads2_later; eauto]|]. intros h3 b3 O3 H3. do 2 (apply sim_lift; [exact H3|]; intros ? _).
  apply (sim_copy_cols T h3 b3 (h2_load o) (src_of_arr2 a)); [exact H3|]. eapply reads2_later; [exact RL|eapply only_trans; eauto].
Qed.

(** A list inserted into an empty array: the array is resized, then the elements are copied in place. *)
Lemma copyn_list_nofail (l : list V) b n f : copyn (src_of_list l) b n <> Fail f.
Proof.
  unfold copyn, for_. generalize (Z.to_nat (n - 0)). generalize 0. intros i k. revert i b. induction k as [|k IH]; intros i b; cbn [for_loop]; [discriminate|].
  unfold src_of_list at 1. cbn [sun]. unfold oget. destruct (znth l i) as [v|]; cbn [bind]; [|discriminate]. destruct (oset b i v) as [b'|f'|] eqn:E; cbn [bind]; [apply IH|now apply oset_nofail in E|discriminate].
Qed.
Lemma moves2_then h o m r l n : moves2 h o m r ->
  moves2 h o (t <-- m ;; _ <-- h_copyn (fun i => lift (oget l i)) (odat t) n ;; hret t) (t <- r ;; b <- copyn (src_of_list l) (buf (dat t)) n ;; Ok (mkarr2 (drows t) (dcols t) (mkarr b (an (dat t))))).
Proof.
  intros M. unfold moves2 in *. destruct r as [a|f|]; cbn [bind].
  - destruct M as (t & h1 & E & (R & C & N & H) & MV). pose proof (sim_copyn al (odat t) h1 (buf (dat a)) (fun i => lift (oget l i)) (src_of_list l) n H (fun _ _ _ => eq_refl)) as S. unfold HeapProofs.sim in S.
    destruct (copyn (src_of_list l) (buf (dat a)) n) as [b|f|] eqn:F; cbn [bind]; [|now apply copyn_list_nofail in F|unfold hbind; now rewrite E, S].
    destruct S as (h2 & E2 & H2 & O2). exists t, h2. unfold hbind. rewrite E, E2. split; [reflexivity|]. split; [split; [exact R|split; [exact C|split; [exact N|exact H2]]]|].
    destruct MV as (M1 & M2 & M3). split; [exact M1|]. split.
    + intros p P. rewrite O2; [now apply M2|]. intros Q. pose proof (M2 p P) as L. rewrite Q in H. congruence.
    + intros p P Q. rewrite O2 by exact Q. now apply M3.
  - destruct M as (h1 & E & K). exists h1. unfold hbind. rewrite E. auto.
  - unfold hbind. now rewrite M.
Qed.
Lemma moves2_lift {A} h o (x : outcome A) k r' : (forall y, x = Ok y -> moves2 h o (k y) (r' y)) -> moves2 h o (y <-- lift x ;; k y) (bind x r').
Proof. intros K. destruct x as [y|f|]; cbn [bind]; [exact (K y eq_refl)| |reflexivity]. exists h. split; [reflexivity|apply kept_refl]. Qed.
Lemma resize2_moves c m n h o a : repr2 h o a -> (m =? drows a) && (n =? dcols a) = false -> moves2 h o (h2_resize zero al c m n true o) (arr2_resize zero c m n true a).
Proof.
  intros R D. pose proof (sees2_load h o a R) as SL. unfold h2_resize, arr2_resize. rewrite (proj1 R), (proj1 (proj2 R)), D.
  match goal with |- moves2 _ _ (hbind (lift ?u) ?k) ?r => replace r with (bind u (fun _ : unit => tmp <- arr2_new zero c m n ;;
         b <- for_ 0 (mins (drows a) m) (fun i b => for_ 0 (mins (dcols a) n) (fun j b => v <- un2 a i j ;; set2 n b i j v) b) (buf (dat tmp)) ;;
         Ok (mkarr2 m n (mkarr b (an (dat tmp)))))) by (now rewrite !bind_assoc) end.
  apply moves2_lift. intros _ _. eapply replace2_moves; [exact R|].
  eapply made2_eq; [|eapply (build2_sim c m n h _ (fun t : arr2 V => for_ 0 (mins (drows a) m) (fun i b => for_ 0 (mins (dcols a) n) (fun j b => v <- un2 a i j ;; set2 n b i j v) b) (buf (dat t))))].
  - apply bind_ext. intros t E. apply bind_ext. intros b _. pose proof (new2_sim c m n h) as N. rewrite E in N. destruct N as (d & h' & _ & N1 & N2 & _). now rewrite N1, N2.
  - intros t h1 a' _ <- _ _ _ B H. apply sim_copy2; [exact H|]. eapply sees2_reads; eauto.
Qed.
Theorem insert_row_sim c pos l h o a : repr2 h o a -> changes2 h o (h2_insert_row zero al c pos l o) (arr2_insert_row zero c pos (src_of_list l) a).
Proof.
  intros R. pose proof (sees2_load h o a R) as SL. unfold h2_insert_row, arr2_insert_row. cbn [ssize src_of_list]. rewrite (proj1 R), (proj1 (proj2 R)). apply changes2_lift. intros _ _.
  destruct ((drows a =? 0) && (dcols a =? 0) && negb (zlen l =? 0)) eqn:G.
  - apply moves_changes. apply moves2_then. apply resize2_moves; [exact R|]. apply andb_true_iff in G. destruct G as [G _]. apply andb_true_iff in G. destruct G as [G _]. apply Z.eqb_eq in G. now rewrite G.
  - apply changes2_lift. intros _ _. apply changes2_lift. intros nr _.
    eapply (build2_replace c _ _ h o a _ (fun tmp : arr2 V => s <- for_ 0 (drows tmp) (fun i s =>
           if i =? pos
           then b <- for_ 0 (zlen l) (fun j b => v <- sun (src_of_list l) j ;; set2 (dcols tmp) b i j v) (fst s) ;; Ok (b, snd s)
           else b <- for_ 0 (zlen l) (fun j b => v <- un2 a (snd s) j ;; set2 (dcols tmp) b i j v) (fst s) ;;
                k <- ladd (snd s) 1 ;; Ok (b, k)) (buf (dat tmp), 0) ;; Ok (fst s))); [exact R|binds|].
    intros T h1 t _ _ Rt Ct _ B H. rewrite Ct, Rt. pose proof (sees2_reads _ _ _ _ _ SL B) as RL. apply csim_drop. unfold hfor_count, for_. apply csim_loop; [exact H|]. intros i h2 b2 q O2 H2. cbn [fst snd]. destruct (i =? pos).
    + apply (csim_of (odat T) h2 b2 _ _ (Ok q)). apply sim_for; [exact H2|]. intros j h3 b3 _ H3. apply sim_lift; [exact H3|]. intros v _. now apply sim_store2.
    + apply csim_of. apply sim_for; [exact H2|]. intros j h3 b3 O3 H3. apply sim_read2; [exact H3|eapply reads2_later; [exact RL|eapply only_trans; eauto]|]. intros v. now apply sim_store2.
Qed.
Theorem insert_col_sim c pos l h o a : repr2 h o a -> changes2 h o (h2_insert_col zero al c pos l o) (arr2_insert_col zero c pos (src_of_list l) a).
Proof.
  intros R. pose proof (sees2_load h o a R) as SL. unfold h2_insert_col, arr2_insert_col. cbn [ssize src_of_list]. rewrite (proj1 R), (proj1 (proj2 R)). apply changes2_lift. intros _ _.
  destruct ((drows a =? 0) && (dcols a =? 0) && negb (zlen l =? 0)) eqn:G.
  - apply moves_changes. apply moves2_then. apply resize2_moves; [exact R|]. apply andb_true_iff in G. destruct G as [G _]. apply andb_true_iff in G. destruct G as [_ G]. apply Z.eqb_eq in G. rewrite G. now rewrite andb_false_r.
  - apply changes2_lift. intros _ _. apply changes2_lift. intros nc _.
    eapply (build2_replace c _ _ h o a _ (fun tmp : arr2 V => for_ 0 (zlen l) (fun i b =>
           s <- for_ 0 (dcols tmp) (fun j s =>
                  if j =? pos
                  then v <- sun (src_of_list l) i ;; b <- set2 (dcols tmp) (fst s) i j v ;; Ok (b, snd s)
                  else v <- un2 a i (snd s) ;; b <- set2 (dcols tmp) (fst s) i j v ;; k <- ladd (snd s) 1 ;; Ok (b, k)) (b, 0) ;;
           Ok (fst s)) (buf (dat tmp)))); [exact R|binds|].
    intros T h1 t _ _ Rt Ct _ B H. rewrite Ct. pose proof (sees2_reads _ _ _ _ _ SL B) as RL. apply sim_for; [exact H|]. intros i h2 b2 O2 H2. apply csim_drop. unfold hfor_count, for_. apply csim_loop; [exact H2|]. intros j h3 b3 q O3 H3. cbn [fst snd]. destruct (j =? pos).
    + apply csim_read; [exact H3|reflexivity|]. intros v. apply (csim_of (odat T) h3 b3 _ _ (Ok q)). now apply sim_store2.
    + apply csim_read; [exact H3|apply RL; eapply only_trans; eauto|]. intros v. apply csim_of. now apply sim_store2.
Qed.
Theorem assign_list_sim c L h o a : repr2 h o a -> changes2 h o (h2_assign_list zero al c L o) (arr2_assign_list zero c L a).
Proof.
  intros R. pose proof (made2_list c L h) as M. unfold h2_assign_list, arr2_assign_list, Heap2DSpec.made2, Heap2DSpec.changes2 in *. destruct (arr2_of_list zero c L) as [t|f|]; cbn [bind].
  - destruct M as (t' & h1 & E & Rt & B). destruct R as (Rr & Rc & Rd). pose proof Rt as (Tr & Tc & Tn & Th).
    assert (KB : forall p x, lk h p = Some x -> lk h1 p = Some x). { intros p x Lp. rewrite (proj2 B); [exact Lp|]. intros Q. apply B in Q. congruence. }
    unfold hbind. rewrite E. rewrite Rr, Rc, Tr, Tc.
    destruct (check_debug c (Ok (same_size2 (drows a) (dcols a) (drows t) (dcols t)))) as [[]|f|]; cbn [bind].
    + cbn. unfold h2_move_assign, arr2_move_assign, arr_move_assign, hbind. rewrite Rr, Rc, Tr, Tc, (proj1 Rd), Tn.
      destruct (check_normal c (Ok (same_size2 (drows a) (dcols a) (drows t) (dcols t)))) as [[]|f|]; cbn [bind noexcept].
      * destruct (check_normal c (Ok (an (dat a) =? an (dat t)))) as [[]|f|]; cbn [bind noexcept lift].
        -- cbn. pose proof (replace2_moves h o a (fun _ => HOk t' h1) (Ok t) (conj Rr (conj Rc Rd)) (ex_intro _ t' (ex_intro _ h1 (conj eq_refl (conj Rt B))))) as X. unfold moves2 in X. destruct X as (t2 & h2 & E2 & (_ & _ & R2) & MV). unfold hbind, h2_replace in E2. unfold hbind in E2.
           destruct (h_delete al (optr (odat o)) h1) as [u h3|f h3|]; [|discriminate|discriminate]. injection E2 as <- <-. exists (mkobj2 (drows a) (dcols a) (odat t')), h3. split; [reflexivity|]. split; [|left; exact MV]. split; [reflexivity|]. split; [reflexivity|exact R2].
        -- destruct f; cbn; exists h1; (split; [reflexivity|split; [exact KB|discriminate]]).
        -- reflexivity.
      * destruct f; cbn; exists h1; (split; [reflexivity|split; [exact KB|discriminate]]).
      * reflexivity.
    + destruct (unwind_kept h h1 h1 (odat t') (buf (dat t)) (lift (@Fail unit f)) f B eq_refl Th (only_refl _ _)) as (h' & E' & K). rewrite E'. exists h'. auto.
    + reflexivity.
  - destruct M as (h1 & E & K). exists h1. unfold hbind. rewrite E. auto.
  - unfold hbind. now rewrite M.
Qed.

(** ** Assigning in place *)
Lemma msim_loop (t : hobj) body vb k : forall i h b, holds h t b ->
  (forall j h' b', only (optr t) h h' -> holds h' t b' -> msim t h' (body j h') (vb j b')) -> msim t h (hfor_loop k i body h) (mfor_loop k i vb b).
Proof.
  induction k as [|k IH]; intros i h b H B; cbn [hfor_loop mfor_loop].
  - exists h. repeat split; auto using only_refl.
  - pose proof (B i h b (only_refl _ _) H) as S. unfold HeapProofs.msim in S. unfold hbind, mseq. destruct (vb i b) as [b1|f b1|]; cbn [mbind].
    + destruct S as (h1 & E1 & H1 & O1). rewrite E1. specialize (IH (i + 1) h1 b1 H1). assert (B' : forall j h' b', only (optr t) h1 h' -> holds h' t b' -> msim t h' (body j h') (vb j b')) by (intros; apply B; eauto using only_trans).
      specialize (IH B'). unfold HeapProofs.msim in *. destruct (mfor_loop k (i + 1) vb b1) as [b2|f b2|].
      * destruct IH as (h2 & E2 & H2 & O2). exists h2. repeat split; eauto using only_trans.
      * destruct IH as (h2 & E2 & H2 & O2). exists h2. repeat split; eauto using only_trans.
      * exact IH.
    + destruct S as (h1 & E1 & H1 & O1). rewrite E1. exists h1. auto.
    + unfold HeapProofs.msim. now rewrite S.
Qed.
Lemma set2_nofail n b i j v f : set2 n b i j v <> Fail f.
Proof. unfold set2, lmul, ladd, lret. destruct (in_long _); cbn [bind]; [|discriminate]. destruct (in_long _); cbn [bind]; [|discriminate]. apply oset_nofail. Qed.
Lemma assign2_sim t r A h b : holds h (odat t) b -> reads2 (optr (odat t)) h r (s2un A) ->
  msim (odat t) h (h2_copy (s2rows A) (s2cols A) r t h) (mfor 0 (s2rows A) (fun i b => mfor 0 (s2cols A) (fun j b => commit b (v <- s2un A i j ;; set2 (ocols t) b i j v)) b) b).
Proof.
  intros H R. unfold h2_copy, hfor, mfor. apply msim_loop; [exact H|]. intros i h1 b1 O1 H1. apply msim_loop; [exact H1|]. intros j h2 b2 O2 H2.
  assert (E : r i j h2 = lift (s2un A i j) h2) by (apply R; eapply only_trans; eauto). unfold hbind. rewrite E. destruct (s2un A i j) as [v|f|]; cbn [bind lift commit]; [|exists h2; repeat split; auto using only_refl|reflexivity].
  pose proof (sim_store2 t h2 b2 i j v H2) as S. unfold HeapProofs.sim in S. unfold hret. destruct (set2 (ocols t) b2 i j v) as [b3|f|] eqn:F; cbn [commit]; [exact S|now apply set2_nofail in F|exact S].
Qed.

(** ** Programs *)
Notation memory_ok := (memory_ok (V := V) al).
Notation memory_ok2 := (memory_ok2 (V := V) al).
Notation holds_all2 := (holds_all2 (V := V) al).
Lemma map_zupd {A B} (f : A -> B) l i x : map f (zupd l i x) = zupd (map f l) i (f x).
Proof. unfold zupd. destruct (i <? 0); [reflexivity|]. generalize (Z.to_nat i). induction l as [|y l IH]; intros [|k]; cbn; try reflexivity. now rewrite IH. Qed.
Definition dims o a := orows o = drows a /\ ocols o = dcols a.
Definition same_dims (l : list hobj2) (st : list (arr2 V)) := zlen l = zlen st /\ forall i o a, znth l i = Some o -> znth st i = Some a -> dims o a.
Lemma holds2_iff h l st : holds_all2 h l st <-> holds_all al h (map odat l) (map dat st) /\ same_dims l st.
Proof.
  unfold Heap2DSpec.holds_all2, holds_all, same_dims, Heap2DSpec.repr2, dims. rewrite !zlen_map. split.
  - intros [L H]. split; split; auto.
    + intros i o a Eo Ea. rewrite znth_map in Eo. rewrite znth_map in Ea. destruct (znth l i) as [o2|] eqn:E1; [|discriminate]. destruct (znth st i) as [a2|] eqn:E2; [|discriminate]. injection Eo as <-. injection Ea as <-. now apply (H i).
    + intros i o a Eo Ea. destruct (H i o a Eo Ea) as (A & B & _). auto.
  - intros [[L H] [_ D]]. split; [exact L|]. intros i o a Eo Ea. destruct (D i o a Eo Ea) as [D1 D2]. split; [exact D1|]. split; [exact D2|]. apply (H i); rewrite znth_map; [now rewrite Eo|now rewrite Ea].
Qed.
Lemma mem2_iff h l st : memory_ok2 h l st <-> memory_ok h (map odat l) (map dat st) /\ same_dims l st.
Proof. unfold Heap2DSpec.memory_ok2, HeapSpec.memory_ok. rewrite holds2_iff. tauto. Qed.
Lemma dims_upd l st i t a : same_dims l st -> dims t a -> same_dims (zupd l i t) (zupd st i a).
Proof.
  intros [L D] T. split; [now rewrite !zlen_zupd|]. intros j o a' Eo Ea. destruct (znth l i) as [o0|] eqn:E0.
  - pose proof (znth_lt _ _ _ E0) as B. rewrite znth_zupd in Eo by exact B. rewrite znth_zupd in Ea by (rewrite <- L; exact B). destruct (j =? i); [congruence|]. now apply (D j).
  - rewrite zupd_out in Eo by exact E0. destruct (znth st i) as [a0|] eqn:E1; [|rewrite zupd_out in Ea by exact E1; now apply (D j)].
    pose proof (znth_lt _ _ _ E1) as B. rewrite <- L in B. exfalso. destruct (znth_some l i B) as [x X]. congruence.
Qed.
Lemma dims_push l st t a : same_dims l st -> dims t a -> same_dims (l ++ [t]) (st ++ [a]).
Proof.
  intros [L D] T. split; [rewrite !zlen_app, L; reflexivity|]. intros j o a' Eo Ea. apply znth_snoc in Eo. apply znth_snoc in Ea. destruct Eo as [Eo|[J ->]], Ea as [Ea|[J' ->]].
  - now apply (D j).
  - apply znth_lt in Eo. lia.
  - apply znth_lt in Ea. lia.
  - exact T.
Qed.
Definition agrees2 (x : res (hstate2 (V := V)) V) (y : res (list (arr2 V)) V) : Prop :=
  match y with
  | Next st' ob => exists h' l', x = Next (h', l') ob /\ holds_all2 h' l' st' /\ ((forall f, ob = Failed f -> fatal f = false) -> memory_ok2 h' l' st')
  | Crash => x = Crash
  end.
Lemma agrees2_next h' l' st' ob : memory_ok2 h' l' st' -> agrees2 (Next (h', l') ob) (Next st' ob).
Proof. intros M. exists h', l'. split; [reflexivity|]. split; [apply M|]. intros _. exact M. Qed.
Lemma agrees2_kept h l st f h' : memory_ok2 h l st -> kept h f h' -> agrees2 (Next (h', l) (Failed f)) (Next st (Failed f)).
Proof.
  intros M [K F]. apply mem2_iff in M. destruct M as [M D]. exists h', l. split; [reflexivity|]. split.
  - apply holds2_iff. split; [|exact D]. eapply holds_kept; [exact K|apply M].
  - intros NF. apply mem2_iff. split; [|exact D]. eapply memory_same; [apply F; now apply NF|exact M].
Qed.
Lemma push2_agrees h l st m r : memory_ok2 h l st -> made2 h m r -> agrees2 (h2_push (h, l) m) (push st r).
Proof.
  intros M D. unfold h2_push, push, Heap2DSpec.made2 in *. cbn [fst snd]. destruct r as [a|f|].
  - destruct D as (t & h' & E & (Rr & Rc & Rd) & B). rewrite E. apply agrees2_next. apply mem2_iff in M. destruct M as [M DD]. apply mem2_iff. split; [|now apply dims_push]. rewrite !map_app. cbn [map]. eapply memory_push; eauto.
  - destruct D as (h' & E & K). rewrite E. eapply agrees2_kept; eauto.
  - now rewrite D.
Qed.
Lemma zmap {A B} (f : A -> B) l i x : znth l i = Some x -> znth (map f l) i = Some (f x). Proof. intros E. now rewrite znth_map, E. Qed.
Lemma put2_agrees h l st i o a m r : memory_ok2 h l st -> znth l i = Some o -> znth st i = Some a -> changes2 h o m r -> agrees2 (h2_put (h, l) i m) (put st i r).
Proof.
  intros M Ei Ea D. unfold h2_put, put, Heap2DSpec.changes2 in *. cbn [fst snd]. destruct r as [a'|f|].
  - destruct D as (t & h' & E & (Rr & Rc & Rd) & X). rewrite E. apply agrees2_next. apply mem2_iff in M. destruct M as [M DD]. apply mem2_iff. split; [|now apply dims_upd]. rewrite !map_zupd. destruct X as [B|[Q ->]].
    + eapply memory_put; eauto using zmap.
    + rewrite Q in *. eapply memory_stay; eauto using zmap.
  - destruct D as (h' & E & K). rewrite E. eapply agrees2_kept; eauto.
  - now rewrite D.
Qed.
Lemma memory2_inplace h l st h' i o a b : memory_ok2 h l st -> znth l i = Some o -> znth st i = Some a -> only (optr (odat o)) h h' -> holds h' (odat o) b ->
  memory_ok2 h' l (zupd st i (mkarr2 (drows a) (dcols a) (mkarr b (an (dat a))))).
Proof.
  intros M Ei Ea O H. apply mem2_iff in M. destruct M as [M D]. apply mem2_iff. split.
  - rewrite map_zupd. cbn [dat]. eapply (memory_inplace al h (map odat l) (map dat st) h' i (odat o) (dat a)); eauto using zmap.
  - rewrite <- (zupd_id l i o Ei). apply dims_upd; [exact D|]. apply (proj2 D i o a Ei Ea).
Qed.
Lemma reads2_other h l st i j o o' a' : memory_ok2 h l st -> znth l i = Some o -> znth l j = Some o' -> i <> j -> repr2 h o' a' -> reads (V := V) (optr (odat o)) h (h_load (odat o')) (oget (buf (dat a'))).
Proof. intros M Ei Ej NE R. apply mem2_iff in M. eapply (reads_other al h (map odat l) (map dat st) i j); eauto using zmap; [apply M|apply R]. Qed.
Lemma take_mem h lm stm i j oi oj ai aj : memory_ok h lm stm -> znth lm i = Some oi -> znth lm j = Some oj -> znth stm i = Some ai -> znth stm j = Some aj ->
  exists h', h_delete al (optr oi) h = HOk tt h' /\ memory_ok h' (zupd (zupd lm i oj) j h_empty) (zupd (zupd stm i aj) j arr_empty).
Proof.
  intros M Ei Ej Ai Aj. pose proof (swap_clear al h lm stm i j oi oj ai aj M Ei Ej Ai Aj) as S. rewrite (swap_is lm i j oi oj) in S by assumption. unfold h_clear, h_with in S. cbn [fst snd] in S.
  rewrite znth_zupd in S by (rewrite zlen_zupd; eapply znth_lt; eauto). rewrite Z.eqb_refl in S. destruct S as (h' & l' & E & _ & K).
  destruct (h_delete al (optr oi) h) as [[] h1|f h1|]; [|discriminate|discriminate]. injection E as <- <-. exists h1. split; [reflexivity|]. rewrite zupd_twice in K. apply K. discriminate.
Qed.
Theorem assign2_keeps c A r h l st i o a : memory_ok2 h l st -> znth l i = Some o -> znth st i = Some a ->
  (forall h', only (optr (odat o)) h h' -> forall p q, r p q h' = lift (s2un A p q) h') ->
  match arr2_assign c A a with
  | MOk a' => exists h', h2_assign c (s2rows A) (s2cols A) r o h = HOk tt h' /\ memory_ok2 h' l (zupd st i a')
  | MFail f a' => exists h', h2_assign c (s2rows A) (s2cols A) r o h = HFail f h' /\ memory_ok2 h' l (zupd st i a')
  | MUB => h2_assign c (s2rows A) (s2cols A) r o h = HUB
  end.
Proof.
  intros M Ei Ea R. destruct (proj2 (proj1 M) i o a Ei Ea) as (Rr & Rc & Nn & Hb). unfold arr2_assign, arr2_assign_rd, h2_assign, hbind. rewrite Rr, Rc.
  destruct (check_debug c (Ok (same_size2 (drows a) (dcols a) (s2rows A) (s2cols A)))) as [[]|f|] eqn:E; cbn [lift].
  - cbn [hret]. unfold hret. pose proof (assign2_sim o r A h (buf (dat a)) Hb R) as S. rewrite Rc in S. unfold HeapProofs.msim in S.
    destruct (mfor 0 (s2rows A) _ (buf (dat a))) as [b|f b|]; cbn [mbind]; [| |exact S]; destruct S as (h' & E' & H' & O'); exists h'; (split; [exact E'|]); eapply memory2_inplace; eauto.
  - exists h. split; [reflexivity|]. now rewrite (zupd_id st i a Ea).
  - reflexivity.
Qed.
Theorem step2_agrees c h l st op : memory_ok2 h l st -> agrees2 (hstep2 zero al c (h, l) op) (step2 zero c st op).
Proof.
  intros M. pose proof (proj1 M) as H.
  assert (W : forall i k k', (forall o a, znth l i = Some o -> znth st i = Some a -> repr2 h o a -> agrees2 (k o) (k' a)) -> agrees2 (h2_with (h, l) i k) (with1 st i k')).
  { intros i k k' K. unfold h2_with, with1. cbn [snd]. destruct (znth st i) as [a|] eqn:Ea.
    - destruct (znth_some l i) as [o Eo]; [rewrite (proj1 H); eapply znth_lt; eauto|]. rewrite Eo. apply K; auto. eapply (proj2 H); eauto.
    - destruct (znth l i) as [o|] eqn:Eo; [|now apply agrees2_next]. destruct (znth_some st i) as [a A]; [rewrite <- (proj1 H); eapply znth_lt; eauto|congruence]. }
  destruct op; cbn [hstep2 step2]; unfold with2.
  - apply push2_agrees; [exact M|apply made2_new].
  - apply push2_agrees; [exact M|apply made2_fill].
  - apply push2_agrees; [exact M|apply made2_list].
  - apply W. intros o a Eo Ea R. apply push2_agrees; [exact M|]. now apply made2_copy.
  - apply W. intros o a Eo Ea R. cbn [arr2_move fst snd]. apply agrees2_next. apply mem2_iff in M. destruct M as [M D]. apply mem2_iff. split.
    + rewrite !map_app, !map_zupd. cbn [map odat h2_empty dat arr2_empty]. eapply memory_move; eauto using zmap.
    + apply dims_push; [apply dims_upd; [exact D|split; reflexivity]|apply (proj2 D j o a Eo Ea)].
  - apply W. intros o a Eo Ea R. pose proof (sim_fill al (odat o) h (buf (dat a)) x (proj2 (proj2 (proj2 R)))) as S. unfold arr2_set_all, arr_set_all, put, h2_done, h2_see, HeapProofs.sim in *. cbn [fst snd]. rewrite (proj1 (proj2 (proj2 R))) in S. destruct (fill x (an (dat a)) (buf (dat a))) as [b|f|] eqn:F; cbn [bind].
    + destruct S as (h' & E & Hb & O). rewrite E. apply agrees2_next. eapply memory2_inplace; eauto.
    + now apply fill_nofail in F.
    + rewrite S. reflexivity.
  - apply W. intros o a Eo Ea R. eapply put2_agrees; eauto. now apply assign_list_sim.
  - apply W. intros o a Eo Ea R. apply W. intros o' a' Eo' Ea' R'. destruct (i =? j) eqn:IJ; [now apply agrees2_next|]. unfold h2_assign_arr, arr2_assign_arr, h2_done, h2_see, hbind, put_mut. cbn [fst snd]. rewrite (proj1 R), (proj1 R'), (proj1 (proj2 R)), (proj1 (proj2 R')).
    destruct (check_debug c (Ok (same_size2 (drows a) (dcols a) (drows a') (dcols a')))) as [[]|f|]; cbn [lift]; [|rewrite (zupd_id st i a Ea); now apply agrees2_next|reflexivity]. unfold hret.
    assert (RD : reads (V := V) (optr (odat o)) h (h_load (odat o')) (oget (buf (dat a')))) by (eapply (reads2_other h l st i j); eauto; lia). apply mem2_iff in M. destruct M as [M D].
    pose proof (assign_keeps al c (src_of_arr (dat a')) (h_load (odat o')) h (map odat l) (map dat st) i (odat o) (dat a) M (zmap _ _ _ _ Eo) (zmap _ _ _ _ Ea) RD) as K. cbn [ssize src_of_arr] in K. rewrite (proj1 (proj2 (proj2 R'))). unfold arr_assign_arr.
    assert (DD : forall d, same_dims l (zupd st i (mkarr2 (drows a) (dcols a) d))). { intros d. rewrite <- (zupd_id l i o Eo). apply dims_upd; [exact D|]. apply (proj2 D i o a Eo Ea). }
    destruct (arr_assign c (src_of_arr (dat a')) (dat a)) as [d|f d|]; cbn [mbind]; [| |now rewrite K]; destruct K as (h' & E & K); rewrite E; apply agrees2_next; apply mem2_iff; (split; [rewrite map_zupd; exact K|apply DD]).
  - apply W. intros o a Eo Ea R. apply W. intros o' a' Eo' Ea' R'. destruct (i =? j) eqn:IJ.
    + apply agrees2_next. apply mem2_iff in M. destruct M as [M D]. apply mem2_iff. split; [|apply dims_upd; [exact D|split; reflexivity]]. rewrite !map_zupd. cbn [odat dat arr2_move_assign_self]. unfold arr2_move_assign_self, arr_move_assign_self. cbn [dat].
      rewrite (zupd_id (map odat l)), (zupd_id (map dat st)); auto using zmap.
    + unfold h2_move_assign, arr2_move_assign, arr_move_assign, hbind. cbn [fst snd]. destruct R as (Rr & Rc & Rd). destruct R' as (Rr' & Rc' & Rd'). rewrite Rr, Rc, Rr', Rc', (proj1 Rd), (proj1 Rd').
      destruct (check_normal c (Ok (same_size2 (drows a) (dcols a) (drows a') (dcols a')))) as [[]|f|]; cbn [bind noexcept]; [|destruct f; now apply agrees2_next|reflexivity].
      destruct (check_normal c (Ok (an (dat a) =? an (dat a')))) as [[]|f|]; cbn [bind noexcept]; [|destruct f; now apply agrees2_next|reflexivity]. cbn [lift]. unfold hret at 1.
      apply mem2_iff in M. destruct M as [M D]. destruct (take_mem h (map odat l) (map dat st) i j (odat o) (odat o') (dat a) (dat a') M) as (h' & E & K); auto using zmap. rewrite E. cbn [hret]. apply agrees2_next. apply mem2_iff. split; [rewrite !map_zupd; exact K|].
      apply dims_upd; [apply dims_upd; [exact D|split; reflexivity]|split; reflexivity].
  - apply W. intros o a Eo Ea R. apply W. intros o' a' Eo' Ea' R'. cbn [arr2_swap fst snd]. apply agrees2_next. apply mem2_iff in M. destruct M as [M D]. apply mem2_iff. split.
    + rewrite !map_zupd. eapply holds_perm; eauto using zmap.
    + apply dims_upd; [apply dims_upd; [exact D|apply (proj2 D j o' a' Eo' Ea')]|apply (proj2 D i o a Eo Ea)].
  - apply W. intros o a Eo Ea R. eapply put2_agrees; eauto. now apply resize2_sim.
  - apply W. intros o a Eo Ea R. apply W. intros o' a' Eo' Ea' R'. eapply put2_agrees; eauto. eapply resize_and_assign_arr2_sim; eauto.
  - apply W. intros o a Eo Ea R. apply W. intros o' a' Eo' Ea' R'. unfold h2_take. cbn [fst snd].
    apply mem2_iff in M. destruct M as [M D]. destruct (take_mem h (map odat l) (map dat st) i j (odat o) (odat o') (dat a) (dat a') M) as (h' & E & K); auto using zmap. rewrite E.
    assert (G : agrees2 (Next (h', zupd (zupd l i o') j h2_empty) Done) (Next (zupd (zupd st i a') j arr2_empty) Done)).
    { apply agrees2_next. apply mem2_iff. split; [rewrite !map_zupd; exact K|]. apply dims_upd; [apply dims_upd; [exact D|apply (proj2 D j o' a' Eo' Ea')]|split; reflexivity]. }
    destruct (i =? j) eqn:IJ; [|exact G]. apply Z.eqb_eq in IJ. subst j. unfold arr2_resize_and_assign_move_self. now rewrite <- (zupd_twice st i a' arr2_empty).
  - apply W. intros o a Eo Ea R. eapply put2_agrees; eauto. now apply remove_rows_sim.
  - apply W. intros o a Eo Ea R. eapply put2_agrees; eauto. now apply remove_cols_sim.
  - apply W. intros o a Eo Ea R. eapply put2_agrees; eauto. now apply remove_rows_sim.
  - apply W. intros o a Eo Ea R. eapply put2_agrees; eauto. now apply remove_cols_sim.
  - apply W. intros o a Eo Ea R. eapply put2_agrees; eauto. unfold h2_remove_row_last. rewrite (proj1 R). apply changes2_lift. intros p _. now apply remove_rows_sim.
  - apply W. intros o a Eo Ea R. eapply put2_agrees; eauto. unfold h2_remove_col_last. rewrite (proj1 (proj2 R)). apply changes2_lift. intros p _. now apply remove_cols_sim.
  - apply W. intros o a Eo Ea R. eapply put2_agrees; eauto. now apply remove_rows_sim.
  - apply W. intros o a Eo Ea R. eapply put2_agrees; eauto. unfold h2_remove_rows_back. rewrite (proj1 R). apply changes2_lift. intros p _. now apply remove_rows_sim.
  - apply W. intros o a Eo Ea R. eapply put2_agrees; eauto. now apply remove_cols_sim.
  - apply W. intros o a Eo Ea R. eapply put2_agrees; eauto. unfold h2_remove_cols_back. rewrite (proj1 (proj2 R)). apply changes2_lift. intros p _. now apply remove_cols_sim.
  - apply W. intros o a Eo Ea R. eapply put2_agrees; eauto. now apply remove_rows_idx_sim.
  - apply W. intros o a Eo Ea R. eapply put2_agrees; eauto. now apply remove_cols_idx_sim.
  - apply W. intros o a Eo Ea R. apply W. intros o' a' Eo' Ea' R'. eapply put2_agrees; eauto. rewrite (proj1 R'), (proj1 (proj2 R')). apply (insert_rows_sim c pos (src_of_arr2 a')); auto; [now apply sees2_load|eapply resize_and_assign_arr2_sim; eauto].
  - apply W. intros o a Eo Ea R. apply W. intros o' a' Eo' Ea' R'. eapply put2_agrees; eauto. rewrite (proj1 R'), (proj1 (proj2 R')). apply (insert_cols_sim c pos (src_of_arr2 a')); auto; [now apply sees2_load|eapply resize_and_assign_arr2_sim; eauto].
  - apply W. intros o a Eo Ea R. apply W. intros o' a' Eo' Ea' R'. eapply put2_agrees; eauto. rewrite (proj1 R'), (proj1 (proj2 R')). apply (insert_rows_sim c 0 (src_of_arr2 a')); auto; [now apply sees2_load|eapply resize_and_assign_arr2_sim; eauto].
  - apply W. intros o a Eo Ea R. apply W. intros o' a' Eo' Ea' R'. eapply put2_agrees; eauto. rewrite (proj1 R'), (proj1 (proj2 R')), (proj1 R). apply (insert_rows_sim c (drows a) (src_of_arr2 a')); auto; [now apply sees2_load|eapply resize_and_assign_arr2_sim; eauto].
  - apply W. intros o a Eo Ea R. apply W. intros o' a' Eo' Ea' R'. eapply put2_agrees; eauto. rewrite (proj1 R'), (proj1 (proj2 R')). apply (insert_cols_sim c 0 (src_of_arr2 a')); auto; [now apply sees2_load|eapply resize_and_assign_arr2_sim; eauto].
  - apply W. intros o a Eo Ea R. apply W. intros o' a' Eo' Ea' R'. eapply put2_agrees; eauto. rewrite (proj1 R'), (proj1 (proj2 R')), (proj1 (proj2 R)). apply (insert_cols_sim c (dcols a) (src_of_arr2 a')); auto; [now apply sees2_load|eapply resize_and_assign_arr2_sim; eauto].
  - apply W. intros o a Eo Ea R. eapply put2_agrees; eauto. now apply insert_row_sim.
  - apply W. intros o a Eo Ea R. eapply put2_agrees; eauto. now apply insert_col_sim.
  - apply W. intros o a Eo Ea R. eapply put2_agrees; eauto. now apply insert_row_sim.
  - apply W. intros o a Eo Ea R. eapply put2_agrees; eauto. rewrite (proj1 R). now apply insert_row_sim.
  - apply W. intros o a Eo Ea R. eapply put2_agrees; eauto. now apply insert_col_sim.
  - apply W. intros o a Eo Ea R. eapply put2_agrees; eauto. rewrite (proj1 (proj2 R)). now apply insert_col_sim.
  - apply W. intros o a Eo Ea R. unfold h2_write, arr2_write, h2_done, h2_see, put, hbind. cbn [fst snd]. rewrite (proj1 R), (proj1 (proj2 R)). destruct (idx_get (drows a) ix) as [p|f|]; cbn [lift bind]; [|now apply agrees2_next|reflexivity]. destruct (idx_get (dcols a) jx) as [q|f|]; cbn [lift bind]; [|now apply agrees2_next|reflexivity].
    destruct (check_debug c (Ok (valid_index2 (drows a) (dcols a) p q))) as [[]|f|]; cbn [lift bind]; [|now apply agrees2_next|reflexivity].
    pose proof (sim_store2 o h (buf (dat a)) p q x (proj2 (proj2 (proj2 R)))) as S. rewrite (proj1 (proj2 R)) in S. unfold HeapProofs.sim in S. destruct (set2 (dcols a) (buf (dat a)) p q x) as [b|f|] eqn:E; cbn [bind]; [|now apply set2_nofail in E|now rewrite S].
    destruct S as (h' & E' & Hb & O). rewrite E'. apply agrees2_next. eapply memory2_inplace; eauto.
  - apply W. intros o a Eo Ea R. unfold h2_read, sub2, h2_see, seen, hbind, src_of_arr2. cbn [fst snd s2rows s2cols s2un]. rewrite (proj1 R), (proj1 (proj2 R)). destruct (idx_get (drows a) ix) as [p|f|]; cbn [lift bind]; [|now apply agrees2_next|reflexivity]. destruct (idx_get (dcols a) jx) as [q|f|]; cbn [lift bind]; [|now apply agrees2_next|reflexivity].
    destruct (check_debug c (Ok (valid_index2 (drows a) (dcols a) p q))) as [[]|f|]; cbn [lift bind]; [|now apply agrees2_next|reflexivity].
    rewrite (sees2_load h o a R h (fun _ _ e => e) p q). destruct (un2 a p q); cbn [lift bind]; [now apply agrees2_next|now apply agrees2_next|reflexivity].
  - apply W. intros o a Eo Ea R. rewrite (proj1 R). now apply agrees2_next.
  - apply W. intros o a Eo Ea R. rewrite (proj1 (proj2 R)). now apply agrees2_next.
  - apply W. intros o a Eo Ea R. rewrite (proj1 (proj2 (proj2 R))). now apply agrees2_next.
Qed.
Theorem run2_agrees c ops : forall h l st, memory_ok2 h l st ->
  snd (run (hstep2 zero al c) (h, l) ops) = snd (run (step2 zero c) st ops) /\
  match fst (run (step2 zero c) st ops) with
  | Next st' ob => exists h' l', fst (run (hstep2 zero al c) (h, l) ops) = Next (h', l') ob /\ holds_all2 h' l' st' /\ (ob = Done -> memory_ok2 h' l' st')
  | Crash => fst (run (hstep2 zero al c) (h, l) ops) = Crash
  end.
Proof.
  induction ops as [|op ops IH]; intros h l st M; cbn [run].
  - split; [reflexivity|]. exists h, l. split; [reflexivity|]. split; [apply M|auto].
  - pose proof (step2_agrees c h l st op M) as A. unfold agrees2 in A. destruct (step2 zero c st op) as [st' ob|].
    + destruct A as (h' & l' & E & H & F). rewrite E.
      assert (G : (forall f, ob = Failed f -> fatal f = false) ->
        snd (let (r, t) := run (hstep2 zero al c) (h', l') ops in (r, ob :: t)) = snd (let (r, t) := run (step2 zero c) st' ops in (r, ob :: t)) /\
        match fst (let (r, t) := run (step2 zero c) st' ops in (r, ob :: t)) with
        | Next st2 ob2 => exists h2 l2, fst (let (r, t) := run (hstep2 zero al c) (h', l') ops in (r, ob :: t)) = Next (h2, l2) ob2 /\ holds_all2 h2 l2 st2 /\ (ob2 = Done -> memory_ok2 h2 l2 st2)
        | Crash => fst (let (r, t) := run (hstep2 zero al c) (h', l') ops in (r, ob :: t)) = Crash end).
      { intros NF. destruct (IH h' l' st' (F NF)) as [I1 I2]. destruct (run (hstep2 zero al c) (h', l') ops) as [r t], (run (step2 zero c) st' ops) as [r' t']. cbn [fst snd] in *. split; [congruence|exact I2]. }
      destruct ob as [|v|n|f]; try (apply G; congruence). destruct (fatal f) eqn:FF; [|apply G; congruence]. cbn [fst snd]. split; [reflexivity|]. exists h', l'. split; [reflexivity|]. split; [exact H|discriminate].
    + rewrite A. split; reflexivity.
Qed.
Lemma close2_sim l h st : memory_ok2 h l st -> exists h', h2_close al l h = HOk tt h' /\ forall p, lk h' p = None.
Proof. intros M. apply mem2_iff in M. unfold h2_close. eapply close_sim. apply M. Qed.
Lemma memory2_start : memory_ok2 [] [] [].
Proof. apply mem2_iff. split; [apply memory_start|]. split; [reflexivity|]. intros i o a E. rewrite znth_nil in E. discriminate. Qed.

(** ** Statements *)
Lemma contents2_all h l st w : holds_all2 h l st -> Forall2 rep2 st w -> Forall2 (contents2 al h) l w.
Proof.
  intros [L H] F. revert l L H. induction F as [|a x st w R F IH]; intros l L H.
  - rewrite (zlen_zero l) by (rewrite L; reflexivity). constructor.
  - destruct l as [|o l]; [unfold zlen in L; cbn [length] in L; lia|]. constructor.
    + destruct (H 0 o a) as (Hr & Hc & N & D); [apply znth_cons_0|apply znth_cons_0|]. destruct R as (W & R1 & R2 & R3 & R4). split; [exact W|]. split; [congruence|]. split; [congruence|]. split; [congruence|]. rewrite <- R3. destruct (optr (odat o)); assumption.
    + apply IH; [rewrite !zlen_cons in L; lia|]. intros i o' a' E1 E2. pose proof (znth_lt _ _ _ E1). apply (H (i + 1)); unfold znth in *; replace (i <? 0) with false in * by lia; replace (i + 1 <? 0) with false by lia; replace (Z.to_nat (i + 1)) with (S (Z.to_nat i)) by lia; assumption.
Qed.
Theorem run2_start c ops :
  snd (run (hstep2 zero al c) ([], []) ops) = snd (run (step2 zero c) [] ops) /\
  match fst (run (step2 zero c) [] ops) with
  | Next st ob => exists h l, fst (run (hstep2 zero al c) ([], []) ops) = Next (h, l) ob /\ holds_all2 h l st /\
      (ob = Done -> unshared (map odat l) /\ no_leak h (map odat l) /\ exists h', h2_close al l h = HOk tt h' /\ all_free h')
  | Crash => fst (run (hstep2 zero al c) ([], []) ops) = Crash
  end.
Proof.
  destruct (run2_agrees c ops [] [] [] memory2_start) as [A B]. split; [exact A|]. destruct (fst (run (step2 zero c) [] ops)) as [st ob|]; [|exact B].
  destruct B as (h & l & E & H & M). exists h, l. split; [exact E|]. split; [exact H|]. intros D. specialize (M D). split; [apply M|]. split; [apply M|]. eapply close2_sim; eauto.
Qed.
Theorem run2_list c ops : cfg_ok c -> checked c = true -> Forall op2_long ops -> tame zero c [] ops ->
  snd (run (hstep2 zero al c) ([], []) ops) = snd (run (spec_step2 zero c) [] ops) /\
  match fst (run (spec_step2 zero c) [] ops) with
  | Next w ob => exists h l, fst (run (hstep2 zero al c) ([], []) ops) = Next (h, l) ob /\ Forall2 (contents2 al h) l w /\
      (ob = Done -> exists h', h2_close al l h = HOk tt h' /\ all_free h')
  | Crash => fst (run (hstep2 zero al c) ([], []) ops) = Crash
  end.
Proof.
  intros C K L T. destruct (run2_agrees c ops [] [] [] memory2_start) as [A B]. destruct (run2_thm zero c ops C K L T) as [A2 B2]. split; [etransitivity; [exact A|exact A2]|].
  destruct (fst (run (spec_step2 zero c) [] ops)) as [w ob|].
  - destruct B2 as (st & E2 & F). rewrite E2 in B. destruct B as (h & l & E & H & M). exists h, l. split; [exact E|]. split; [eapply contents2_all; eauto|]. intros D. eapply close2_sim; eauto.
  - now rewrite B2 in B.
Qed.
Theorem run2_valid c ops : cfg_ok c -> Forall op2_long ops -> tame zero c [] ops -> valid_run (spec_step2 zero c) [] ops ->
  snd (run (hstep2 zero al c) ([], []) ops) = snd (run (spec_step2 zero c) [] ops) /\
  exists w ob h l, fst (run (spec_step2 zero c) [] ops) = Next w ob /\ fst (run (hstep2 zero al c) ([], []) ops) = Next (h, l) ob /\ Forall2 (contents2 al h) l w /\
    (ob = Done -> exists h', h2_close al l h = HOk tt h' /\ all_free h').
Proof.
  intros C L T R. destruct (run2_agrees c ops [] [] [] memory2_start) as [A B]. destruct (run2_any_thm zero c ops C L T R) as [A2 (w & ob & st & E1 & E2 & F)]. split; [etransitivity; [exact A|exact A2]|].
  rewrite E2 in B. destruct B as (h & l & E & H & M). exists w, ob, h, l. split; [exact E1|]. split; [exact E|]. split; [eapply contents2_all; eauto|]. intros D. eapply close2_sim; eauto.
Qed.
End HP2.
