(** The functions on the heap compute what the functions on values compute, and free what they no longer need. *)
From Verif Require Import Base.Outcome Base.ZList Model.IntModel Model.ScalarOps Model.Index Model.Slice Model.Array1D Model.Store1D Model.Heap.
From Verif Require Import Spec.ArraySpec Spec.Store1DSpec Spec.HeapSpec Proofs.Store1DProofs Proofs.Array1DThms.

Section HP.
Context {V : Type} (zero : V) (al : Z).
Notation heap := (heap (V := V)).
Notation hm := (hm (V := V)).
Notation repr := (repr (V := V) al).
Notation made := (made (V := V) al).
Notation changes := (changes (V := V) al).
Notation "x <-- m ;; k" := (hbind m (fun x => k)) (at level 61, m at next level, right associativity).
Implicit Types (h : heap) (o t : hobj) (b : list V) (a : arr V).

Definition holds h o b : Prop := match optr o with None => b = [] | Some p => lk h p = Some (al, b) end.
Lemma only_refl q h : only q h h. Proof. now intros p. Qed.
Lemma only_trans q h1 h2 h3 : only q h1 h2 -> only q h2 h3 -> only q h1 h3.
Proof. intros A B p N. now rewrite B, A. Qed.
Definition sim t h b (m : hm unit) (r : outcome (list V)) : Prop :=
  match r with
  | Ok b' => exists h', m h = HOk tt h' /\ holds h' t b' /\ only (optr t) h h'
  | Fail f => exists h' b', m h = HFail f h' /\ holds h' t b' /\ only (optr t) h h'
  | UB => m h = HUB
  end.
Definition reads (q : option Z) h (r : Z -> hm V) (g : Z -> outcome V) : Prop := forall h', only q h h' -> forall i, r i h' = lift (g i) h'.
Lemma reads_later q h h' r g : reads q h r g -> only q h h' -> reads q h' r g.
Proof. intros R O h2 O2 i. apply R. eapply only_trans; eauto. Qed.

Lemma sim_bind t h b m r k r' : sim t h b m r -> (forall h' b', only (optr t) h h' -> holds h' t b' -> sim t h' b' k (r' b')) ->
  sim t h b (_ <-- m ;; k) (bind r r').
Proof.
  intros M K. destruct r as [b'|f|]; cbn [sim bind] in *.
  - destruct M as (h' & E & H & O). specialize (K h' b' O H). unfold sim in *. destruct (r' b') as [b2|f|].
    + destruct K as (h2 & E2 & H2 & O2). exists h2. unfold hbind. rewrite E. repeat split; eauto using only_trans.
    + destruct K as (h2 & b2 & E2 & H2 & O2). exists h2, b2. unfold hbind. rewrite E. repeat split; eauto using only_trans.
    + unfold hbind. now rewrite E.
  - destruct M as (h' & b' & E & H & O). exists h', b'. unfold hbind. rewrite E. auto.
  - unfold hbind. now rewrite M.
Qed.
Lemma sim_lift {A} t h b (x : outcome A) k r' : holds h t b -> (forall y, x = Ok y -> sim t h b (k y) (r' y)) -> sim t h b (y <-- lift x ;; k y) (bind x r').
Proof.
  intros H K. destruct x as [y|f|]; cbn [bind].
  - specialize (K y eq_refl). exact K.
  - exists h, b. repeat split; auto using only_refl.
  - reflexivity.
Qed.
Lemma sim_read t h b r g i k r' : holds h t b -> reads (optr t) h r g -> (forall v, sim t h b (k v) (r' v)) -> sim t h b (v <-- r i ;; k v) (bind (g i) r').
Proof.
  intros H R K. assert (E : r i h = lift (g i) h) by (apply R; apply only_refl).
  pose proof (sim_lift t h b (g i) k r' H (fun v _ => K v)) as S. unfold sim, hbind in *. rewrite E. exact S.
Qed.
Lemma lk_range h p x : lk h p = Some x -> 0 <= p < zlen h.
Proof. unfold lk. destruct (znth h p) eqn:E; [|discriminate]. intros _. exact (znth_lt _ _ _ E). Qed.
Lemma lk_upd h p q x : lk h p <> None -> lk (zupd h p x) q = if q =? p then x else lk h q.
Proof.
  intros L. destruct (lk h p) as [y|] eqn:E; [|congruence]. apply lk_range in E. unfold lk. rewrite znth_zupd by exact E. destruct (q =? p); [now destruct x|reflexivity].
Qed.
Lemma oset_nofail b i v f : oset b i v <> Fail f. Proof. unfold oset. destruct (_ && _); discriminate. Qed.
Lemma sim_store t h b i v : holds h t b -> sim t h b (h_store t i v) (oset b i v).
Proof.
  intros H. unfold h_store, sim, holds in *. destruct (optr t) as [p|] eqn:P.
  - rewrite H. destruct (oset b i v) as [b'|f|] eqn:E; [|now apply oset_nofail in E|reflexivity]. eexists. split; [reflexivity|]. split.
    + rewrite lk_upd by congruence. now rewrite Z.eqb_refl.
    + intros q N. rewrite lk_upd by congruence. destruct (q =? p) eqn:Q; [|reflexivity]. apply Z.eqb_eq in Q. congruence.
  - subst b. rewrite oset_ub; [reflexivity|]. unfold zlen. cbn. lia.
Qed.
Lemma sim_loop t body vb k : forall i h b, holds h t b ->
  (forall j h' b', i <= j -> only (optr t) h h' -> holds h' t b' -> sim t h' b' (body j) (vb j b')) -> sim t h b (hfor_loop k i body) (for_loop k i vb b).
Proof.
  induction k as [|k IH]; intros i h b H B; cbn [hfor_loop for_loop].
  - exists h. repeat split; auto using only_refl.
  - apply sim_bind; [apply B; [lia|apply only_refl|assumption]|]. intros h' b' O H'. apply IH; [assumption|]. intros j h2 b2 Hj O2 H2. apply B; [lia|eapply only_trans; eauto|assumption].
Qed.
Lemma sim_for t h b lo hi body vb : holds h t b -> (forall j h' b', only (optr t) h h' -> holds h' t b' -> sim t h' b' (body j) (vb j b')) -> sim t h b (hfor lo hi body) (for_ lo hi vb b).
Proof. intros H B. apply sim_loop; auto. Qed.
Lemma sim_fill t h b x : holds h t b -> sim t h b (h_fill x t) (fill x (on t) b).
Proof. intros H. apply sim_for; auto. intros. now apply sim_store. Qed.
Lemma sim_copyn t h b r A n : holds h t b -> reads (optr t) h r (sun A) -> sim t h b (h_copyn r t n) (copyn A b n).
Proof. intros H R. apply sim_for; auto. intros j h' b' O H'. apply sim_read; [assumption|eapply reads_later; eauto|]. intros v. now apply sim_store. Qed.
Lemma sim_copyn3 t h b r A s1 s2 n : holds h t b -> reads (optr t) h r (sun A) -> sim t h b (h_copyn3 r t s1 s2 n) (copyn3 A b s1 s2 n).
Proof.
  intros H R. apply sim_for; auto. intros j h' b' O H'. apply sim_lift; [assumption|]. intros j1 _. apply sim_read; [assumption|eapply reads_later; eauto|]. intros v.
  apply sim_lift; [assumption|]. intros j2 _. now apply sim_store.
Qed.

(** ** Building *)
Lemma new_sim c n h : match arr_new zero c n with
  | Ok a => exists t h', h_new zero al c n h = HOk t h' /\ on t = n /\ an a = n /\ holds h' t (buf a) /\ built h h' t
  | Fail f => h_new zero al c n h = HFail f h
  | UB => h_new zero al c n h = HUB
  end.
Proof.
  unfold arr_new, h_new. destruct (check_debug c (Ok (-1 <? n))) as [[]|f|] eqn:E; cbn [bind]; unfold hbind; cbn [lift]; try reflexivity.
  destruct (n =? 0).
  - exists (mkobj None n), h. repeat split. discriminate.
  - unfold h_alloc. destruct (alloc zero c n) as [b|f|]; cbn [bind]; try reflexivity. exists (mkobj (Some (zlen h)) n), (h ++ [Some (al, b)]). pose proof (zlen_nonneg h) as Z0.
    assert (LN : lk h (zlen h) = None) by (unfold lk; rewrite znth_none by lia; reflexivity).
    repeat split; auto.
    + unfold holds, lk. cbn [optr]. rewrite znth_app_r by lia. rewrite Z.sub_diag. reflexivity.
    + cbn [optr]. intros p [= <-]. exact LN.
    + intros p N. cbn [optr] in N. unfold lk. destruct (Z_lt_dec p 0); [rewrite !znth_neg by assumption; reflexivity|]. rewrite znth_app by lia. destruct (p <? zlen h) eqn:Q; [reflexivity|]. rewrite (znth_none h) by lia.
      rewrite znth_none; [reflexivity|]. unfold zlen at 1. cbn. assert (p <> zlen h) by congruence. lia.
Qed.
Lemma delete_sim h t b : holds h t b -> exists h', h_delete al (optr t) h = HOk tt h' /\ forall p, lk h' p = if match optr t with Some q => p =? q | None => false end then None else lk h p.
Proof.
  unfold holds, h_delete. destruct (optr t) as [q|].
  - intros H. rewrite H, Z.eqb_refl. eexists. split; [reflexivity|]. intros p. rewrite lk_upd by congruence. reflexivity.
  - intros _. eexists. split; reflexivity.
Qed.
Lemma build_sim c n h body vbody :
  (forall t h1 a, arr_new zero c n = Ok a -> on t = n -> an a = n -> built h h1 t -> holds h1 t (buf a) -> sim t h1 (buf a) (body t) (vbody a)) ->
  made h (h_build zero al c n body) (a <- arr_new zero c n ;; b <- vbody a ;; Ok (mkarr b (an a))).
Proof.
  intros B. pose proof (new_sim c n h) as N. unfold made, h_build. destruct (arr_new zero c n) as [a|f|] eqn:E; cbn [bind].
  - destruct N as (t & h1 & E1 & OT & AN & H1 & BU). specialize (B t h1 a eq_refl OT AN BU H1). unfold sim in B. destruct (vbody a) as [b|f|]; cbn [bind].
    + destruct B as (h2 & E2 & H2 & O2). exists t, h2. unfold hbind. rewrite E1. unfold unwind. rewrite E2. split; [reflexivity|]. split; [split; [cbn; congruence|exact H2]|]. split; [apply BU|]. eapply only_trans; [apply BU|exact O2].
    + destruct B as (h2 & b & E2 & H2 & O2). unfold hbind. rewrite E1. unfold unwind. rewrite E2. destruct (fatal f) eqn:F.
      * exists h2. split; [reflexivity|]. split; [|congruence]. intros p x L. assert (NE : optr t <> Some p) by (intros Q; apply BU in Q; congruence). rewrite O2 by exact NE. rewrite (proj2 BU) by exact NE. exact L.
      * destruct (delete_sim h2 t b H2) as (h3 & E3 & L3). rewrite E3. exists h3. split; [reflexivity|].
        assert (SM : same_memory h h3). { intros p. rewrite L3. destruct (optr t) as [q|] eqn:Q.
          - destruct (p =? q) eqn:PQ; [apply Z.eqb_eq in PQ; subst; symmetry; now apply (proj1 BU)|]. apply Z.eqb_neq in PQ. rewrite O2 by congruence. apply (proj2 BU). congruence.
          - rewrite O2 by congruence. apply (proj2 BU). congruence. }
        split; [|intros _; exact SM]. intros p x L. now rewrite SM.
    + unfold hbind. rewrite E1. unfold unwind. now rewrite B.
  - unfold hbind. rewrite N. exists h. split; [reflexivity|]. split; [auto|]. intros _ p. reflexivity.
  - unfold hbind. now rewrite N.
Qed.
Lemma made_new c n h : made h (h_new zero al c n) (arr_new zero c n).
Proof.
  pose proof (new_sim c n h) as N. unfold made. destruct (arr_new zero c n) as [a|f|]; [|exists h; split; [exact N|split; [auto|intros _ p; reflexivity]]|exact N].
  destruct N as (t & h1 & E1 & OT & AN & H1 & BU). exists t, h1. split; [exact E1|]. split; [split; [congruence|exact H1]|exact BU].
Qed.
Lemma made_eq h m r r' : r = r' -> made h m r -> made h m r'. Proof. now intros ->. Qed.
Lemma made_fill c n x h : made h (h_new_fill zero al c n x) (arr_new_fill zero c n x).
Proof. apply (build_sim c n h (h_fill x) (fun a => fill x (an a) (buf a))). intros t h1 a _ OT AN _ H. rewrite AN, <- OT. now apply sim_fill. Qed.
Lemma sees_reads h h1 t r g : sees h r g -> built h h1 t -> reads (optr t) h1 r g.
Proof. intros S B h' O i. apply S. intros p x L. assert (N : optr t <> Some p) by (intros Q; apply B in Q; congruence). rewrite O by exact N. rewrite (proj2 B) by exact N. exact L. Qed.
Lemma sees_load h o a : repr h o a -> sees h (h_load o) (oget (buf a)).
Proof.
  intros [_ R] h' K i. unfold h_load. destruct (optr o) as [p|]; [rewrite (K _ _ R); reflexivity|]. rewrite R. unfold oget. rewrite znth_nil. reflexivity.
Qed.
Lemma sees_list h l : sees h (fun i => lift (oget l i)) (oget l). Proof. now intros h' _ i. Qed.
Lemma sees_slice h o a v : repr h o a -> sees h (fun i => j <-- lift (view_map v i) ;; h_load o j) (view_un v (buf a)).
Proof. intros R h' K i. unfold hbind, view_un. destruct (view_map v i); cbn [lift bind]; try reflexivity. now apply (sees_load h o a R). Qed.
Lemma made_src c A r h : sees h r (sun A) -> made h (h_of_src zero al c (ssize A) r) (arr_of_src zero c A).
Proof. intros S. apply (build_sim c (ssize A) h (fun t => h_copyn r t (ssize A)) (fun a => copy A (buf a))). intros t h1 a _ _ _ B H. apply sim_copyn; [assumption|]. eapply sees_reads; eauto. Qed.
Lemma made_lift {A} h (x : outcome A) k r' : (forall y, x = Ok y -> made h (k y) (r' y)) -> made h (y <-- lift x ;; k y) (bind x r').
Proof.
  intros K. destruct x as [y|f|]; cbn [bind].
  - specialize (K y eq_refl). exact K.
  - exists h. split; [reflexivity|]. split; [auto|intros _ p; reflexivity].
  - reflexivity.
Qed.

(** ** Replacing *)
Lemma replace_sim h o a m r : repr h o a -> made h m r -> changes h o (t <-- m ;; h_replace al o t) r.
Proof.
  intros R M. unfold made, changes in *. destruct r as [a'|f|].
  - destruct M as (t & h1 & E1 & R1 & B1). unfold hbind. rewrite E1. unfold h_replace, hbind.
    assert (H1 : holds h1 o (buf a)). { destruct R as [_ R]. unfold holds. destruct (optr o) as [p|] eqn:P; [|exact R]. rewrite (proj2 B1); [exact R|]. intros Q. apply B1 in Q. congruence. }
    destruct (delete_sim h1 o (buf a) H1) as (h2 & E2 & L2). rewrite E2. exists t, h2. split; [reflexivity|].
    assert (NE : forall p, optr o = Some p -> optr t <> Some p). { intros p P Q. destruct R as [_ R]. rewrite P in R. apply B1 in Q. congruence. }
    split.
    + destruct R1 as [N1 R1]. split; [exact N1|]. destruct (optr t) as [p|] eqn:P; [|exact R1]. rewrite L2. destruct (optr o) as [q|] eqn:Q; [|exact R1]. destruct (p =? q) eqn:PQ; [|exact R1]. apply Z.eqb_eq in PQ. subst. exfalso. now apply (NE q).
    + left. split; [apply B1|]. split.
      * intros p P. rewrite L2, P, Z.eqb_refl. reflexivity.
      * intros p P Q. rewrite L2. destruct (optr o) as [q|]; [|apply B1; exact Q]. destruct (p =? q) eqn:PQ; [apply Z.eqb_eq in PQ; congruence|]. apply B1. exact Q.
  - destruct M as (h1 & E1 & K). exists h1. unfold hbind. rewrite E1. auto.
  - unfold hbind. now rewrite M.
Qed.
Lemma changes_lift {A} h o (x : outcome A) k r' : (forall y, x = Ok y -> changes h o (k y) (r' y)) -> changes h o (y <-- lift x ;; k y) (bind x r').
Proof.
  intros K. destruct x as [y|f|]; cbn [bind].
  - specialize (K y eq_refl). exact K.
  - exists h. split; [reflexivity|]. split; [auto|intros _ p; reflexivity].
  - reflexivity.
Qed.
Lemma changes_eq h o m r r' : r = r' -> changes h o m r -> changes h o m r'. Proof. now intros ->. Qed.
Lemma bind_assoc {A B C} (m : outcome A) (f : A -> outcome B) (g : B -> outcome C) : bind (bind m f) g = bind m (fun x => bind (f x) g).
Proof. now destruct m. Qed.
Lemma build_replace c n h o a body vbody r : repr h o a ->
  r = (a <- arr_new zero c n ;; b <- vbody a ;; Ok (mkarr b (an a))) ->
  (forall t h1 a', arr_new zero c n = Ok a' -> on t = n -> an a' = n -> built h h1 t -> holds h1 t (buf a') -> sim t h1 (buf a') (body t) (vbody a')) ->
  changes h o (t <-- h_build zero al c n body ;; h_replace al o t) r.
Proof. intros R -> B. eapply replace_sim; [exact R|]. now apply build_sim. Qed.
Ltac outs := repeat match goal with |- bind ?m _ = bind ?m _ => destruct m; cbn [bind]; [|reflexivity|reflexivity] | |- bind (bind _ _) _ = _ => rewrite bind_assoc | |- _ = bind (bind _ _) _ => rewrite bind_assoc end; try reflexivity.
Lemma bind_ext {A B} (m : outcome A) (f g : A -> outcome B) : (forall x, m = Ok x -> f x = g x) -> bind m f = bind m g.
Proof. destruct m; cbn; auto. Qed.
Theorem resize_sim c n pr h o a : repr h o a -> changes h o (h_resize zero al c n pr o) (arr_resize zero c n pr a).
Proof.
  intros R. unfold h_resize, arr_resize. apply changes_lift. intros _ _. destruct R as [N R]. rewrite <- N. destruct (n =? on o).
  - exists o, h. split; [reflexivity|]. split; [split; assumption|]. right. auto.
  - apply (build_replace c n h o a _ (fun t : arr V => if pr then copyn (src_of_arr a) (buf t) (mins (on o) n) else Ok (buf t))); [split; assumption| |].
    + apply bind_ext. intros t _. destruct pr; [reflexivity|]. now destruct t.
    + intros t h1 t' _ _ _ B H. destruct pr.
      * apply sim_copyn; [assumption|]. eapply sees_reads; [apply (sees_load h o a); split; assumption|exact B].
      * exists h1. repeat split; auto using only_refl.
Qed.
Theorem resize_and_assign_sim c A r h o a : repr h o a -> sees h r (sun A) -> changes h o (h_resize_and_assign zero al c (ssize A) r o) (arr_resize_and_assign zero c A).
Proof. intros R S. eapply replace_sim; [exact R|]. now apply made_src. Qed.
Theorem remove_sim c pos count h o a : repr h o a -> changes h o (h_remove zero al c pos count o) (arr_remove zero c pos count a).
Proof.
  intros R. pose proof (sees_load h o a R) as SL. pose proof (proj1 R) as N. unfold h_remove, arr_remove. rewrite <- N. do 4 (apply changes_lift; intros ? _).
  eapply (build_replace c _ h o a _ (fun t : arr V => b1 <- copyn (src_of_arr a) (buf t) pos ;; s <- ladd pos count ;; d <- lsub (on o) pos ;; k <- lsub d count ;; copyn3 (src_of_arr a) b1 s pos k)); [exact R| |].
  - apply bind_ext. intros t _. rewrite bind_assoc. apply bind_ext. intros b1 _. rewrite bind_assoc. apply bind_ext. intros s _. rewrite bind_assoc. apply bind_ext. intros d _. rewrite bind_assoc. reflexivity.
  - intros t h1 t' _ _ _ B H. pose proof (sees_reads _ _ _ _ _ SL B) as RD. apply sim_bind; [now apply sim_copyn|]. intros h2 b2 O2 H2. do 3 (apply sim_lift; [assumption|]; intros ? _). apply sim_copyn3; [assumption|]. eapply reads_later; eauto.
Qed.
Theorem remove_indexes_sim c v h o a : repr h o a -> changes h o (h_remove_indexes zero al c v o) (arr_remove_indexes zero c v a).
Proof.
  intros R. pose proof (sees_load h o a R) as SL. pose proof (proj1 R) as N. unfold h_remove_indexes, arr_remove_indexes. destruct v as [|v0 v].
  - exists o, h. split; [reflexivity|]. split; [exact R|]. right. auto.
  - rewrite <- N. apply changes_lift. intros ci _.
    eapply (build_replace c _ h o a _ (fun t : arr V => for_ 0 (an t) (fun i b => j <- oget ci i ;; v <- oget (buf a) j ;; oset b i v) (buf t))); [exact R|reflexivity|].
    intros t h1 t' _ OT AN B H. pose proof (sees_reads _ _ _ _ _ SL B) as RD. rewrite OT, AN. apply sim_for; [assumption|]. intros j h2 b2 O2 H2. apply sim_lift; [assumption|]. intros k _.
    apply sim_read; [assumption|eapply reads_later; eauto|]. intros w. now apply sim_store.
Qed.
Theorem insert_sim c pos x h o a : repr h o a -> changes h o (h_insert zero al c pos x o) (arr_insert zero c pos x a).
Proof.
  intros R. pose proof (sees_load h o a R) as SL. pose proof (proj1 R) as N. unfold h_insert, arr_insert. rewrite <- N. do 2 (apply changes_lift; intros ? _).
  eapply (build_replace c _ h o a _ (fun t : arr V => b1 <- copyn (src_of_arr a) (buf t) pos ;; b2 <- oset b1 pos x ;; p1 <- ladd pos 1 ;; k <- lsub (on o) pos ;; copyn3 (src_of_arr a) b2 pos p1 k)); [exact R| |].
  - apply bind_ext. intros t _. rewrite bind_assoc. apply bind_ext. intros b1 _. rewrite bind_assoc. apply bind_ext. intros s _. rewrite bind_assoc. apply bind_ext. intros d _. rewrite bind_assoc. reflexivity.
  - intros t h1 t' _ _ _ B H. pose proof (sees_reads _ _ _ _ _ SL B) as RD. apply sim_bind; [now apply sim_copyn|]. intros h2 b2 O2 H2. apply sim_bind; [now apply sim_store|]. intros h3 b3 O3 H3.
    do 2 (apply sim_lift; [assumption|]; intros ? _). apply sim_copyn3; [assumption|]. eapply reads_later; [exact RD|]. eapply only_trans; eauto.
Qed.
Theorem insert_src_sim c pos A r h o a : repr h o a -> sees h r (sun A) -> changes h o (h_insert_src zero al c pos (ssize A) r o) (arr_insert_arr zero c pos A a).
Proof.
  intros R SR. pose proof (sees_load h o a R) as SL. pose proof (proj1 R) as N. unfold h_insert_src, arr_insert_arr. rewrite <- N. do 2 (apply changes_lift; intros ? _).
  eapply (build_replace c _ h o a _ (fun t : arr V => b1 <- copyn (src_of_arr a) (buf t) pos ;; b2 <- copyn3 A b1 0 pos (ssize A) ;; p1 <- ladd pos (ssize A) ;; k <- lsub (on o) pos ;; copyn3 (src_of_arr a) b2 pos p1 k)); [exact R| |].
  - apply bind_ext. intros t _. rewrite bind_assoc. apply bind_ext. intros b1 _. rewrite bind_assoc. apply bind_ext. intros s _. rewrite bind_assoc. apply bind_ext. intros d _. rewrite bind_assoc. reflexivity.
  - intros t h1 t' _ _ _ B H. pose proof (sees_reads _ _ _ _ _ SL B) as RD. pose proof (sees_reads _ _ _ _ _ SR B) as RR. apply sim_bind; [now apply sim_copyn|]. intros h2 b2 O2 H2.
    apply sim_bind; [apply sim_copyn3; [assumption|eapply reads_later; eauto]|]. intros h3 b3 O3 H3.
    do 2 (apply sim_lift; [assumption|]; intros ? _). apply sim_copyn3; [assumption|]. eapply reads_later; [exact RD|]. eapply only_trans; eauto.
Qed.

(** ** Assigning in place *)
Definition msim t h (x : hres (V := V) unit) (r : mut (list V)) : Prop :=
  match r with
  | MOk b' => exists h', x = HOk tt h' /\ holds h' t b' /\ only (optr t) h h'
  | MFail f b' => exists h', x = HFail f h' /\ holds h' t b' /\ only (optr t) h h'
  | MUB => x = HUB
  end.
Lemma assign_sim t r A k : forall i h b, holds h t b -> reads (optr t) h r (sun A) ->
  msim t h (hfor_loop k i (fun i => v <-- r i ;; h_store t i v) h) (mfor_loop k i (fun i b => commit b (v <- sun A i ;; oset b i v)) b).
Proof.
  induction k as [|k IH]; intros i h b H R; cbn [hfor_loop mfor_loop].
  - exists h. repeat split; auto using only_refl.
  - assert (E : r i h = lift (sun A i) h) by (apply R; apply only_refl). unfold hbind. rewrite E. destruct (sun A i) as [v|f|]; cbn [bind lift commit mseq mbind msim].
    + unfold hret. pose proof (sim_store t h b i v H) as S. unfold sim in S. destruct (oset b i v) as [b'|f|] eqn:E1; cbn [commit mseq mbind].
      * destruct S as (h' & E' & H' & O'). rewrite E'. specialize (IH (i + 1) h' b' H' (reads_later _ _ _ _ _ R O')). unfold hbind in IH. unfold msim, mseq in *. cbn [mbind].
        destruct (mfor_loop k (i + 1) (fun i b => commit b (v <- sun A i ;; oset b i v)) b') as [b2|f2 b2|].
        -- destruct IH as (h2 & E2 & H2 & O2). exists h2. repeat split; eauto using only_trans.
        -- destruct IH as (h2 & E2 & H2 & O2). exists h2. repeat split; eauto using only_trans.
        -- exact IH.
      * now apply oset_nofail in E1.
      * now rewrite S.
    + exists h. repeat split; auto using only_refl.
    + reflexivity.
Qed.
Lemma fill_nofail x n b f : fill x n b <> Fail f.
Proof.
  unfold fill, for_. generalize (Z.to_nat (n - 0)). generalize 0. intros i k. revert i. revert b. induction k as [|k IH]; intros b i; cbn [for_loop]; [discriminate|].
  destruct (oset b i x) as [b'|f'|] eqn:E; cbn [bind]; [apply IH|now apply oset_nofail in E|discriminate].
Qed.

(** ** Programs *)
Notation memory_ok := (memory_ok (V := V) al).
Definition agrees (x : res (hstate (V := V)) V) (y : res (list (arr V)) V) : Prop :=
  match y with
  | Next st' ob => exists h' l', x = Next (h', l') ob /\ holds_all al h' l' st' /\ ((forall f, ob = Failed f -> fatal f = false) -> memory_ok h' l' st')
  | Crash => x = Crash
  end.
Lemma holds_kept h h' l st : (forall p x, lk h p = Some x -> lk h' p = Some x) -> holds_all al h l st -> holds_all al h' l st.
Proof. intros K [L H]. split; [exact L|]. intros i o a Hi Ha. destruct (H i o a Hi Ha) as [N R]. split; [exact N|]. destruct (optr o); auto. Qed.
Lemma memory_same h h' l st : same_memory h h' -> memory_ok h l st -> memory_ok h' l st.
Proof.
  intros S (H & U & N). split; [eapply holds_kept; [|exact H]; intros p x; now rewrite S|]. split; [exact U|]. intros p b L. rewrite S in L. now apply (N p b).
Qed.
Lemma agrees_kept h l st f h' : memory_ok h l st -> kept h f h' -> agrees (Next (h', l) (Failed f)) (Next st (Failed f)).
Proof.
  intros M [K F]. exists h', l. split; [reflexivity|]. split; [eapply holds_kept; [exact K|apply M]|]. intros NF. eapply memory_same; [apply F|exact M]. now apply NF.
Qed.
Lemma agrees_next h' l' st' ob : memory_ok h' l' st' -> agrees (Next (h', l') ob) (Next st' ob).
Proof. intros M. exists h', l'. split; [reflexivity|]. split; [apply M|]. intros _. exact M. Qed.
Lemma repr_only h h' o a : repr h o a -> (forall p, optr o = Some p -> lk h' p = lk h p) -> repr h' o a.
Proof. intros [N R] E. split; [exact N|]. destruct (optr o) as [p|]; [|exact R]. now rewrite E. Qed.
Lemma repr_live h o a p : repr h o a -> optr o = Some p -> lk h p = Some (al, buf a).
Proof. intros [_ R] E. now rewrite E in R. Qed.
Lemma oz_dec (x y : option Z) : {x = y} + {x <> y}. Proof. decide equality. apply Z.eq_dec. Qed.
Lemma zupd_out {A} (l : list A) i x : znth l i = None -> zupd l i x = l.
Proof.
  intros E. unfold zupd. destruct (i <? 0) eqn:N; [reflexivity|]. unfold znth in E. rewrite N in E. revert E. generalize (Z.to_nat i). induction l as [|y l IH]; intros [|k] E; cbn in *; try reflexivity; [discriminate|]. now rewrite IH.
Qed.
Lemma znth_snoc {A} (l : list A) x i y : znth (l ++ [x]) i = Some y -> znth l i = Some y \/ i = zlen l /\ y = x.
Proof.
  intros E. pose proof (znth_lt _ _ _ E) as B. rewrite zlen_app in B. unfold zlen at 2 in B. cbn [length] in B. destruct (Z_lt_dec i (zlen l)).
  - left. now rewrite znth_app_l in E by assumption.
  - right. assert (i = zlen l) by lia. subst i. rewrite znth_app_r in E by lia. rewrite Z.sub_diag in E. cbn in E. split; congruence.
Qed.
Lemma znth_snoc_last {A} (l : list A) x : znth (l ++ [x]) (zlen l) = Some x.
Proof. rewrite znth_app_r by lia. now rewrite Z.sub_diag. Qed.
Lemma znth_snoc_old {A} (l : list A) x i y : znth l i = Some y -> znth (l ++ [x]) i = Some y.
Proof. intros E. pose proof (znth_lt _ _ _ E). rewrite znth_app_l by lia. exact E. Qed.
Lemma st_of h l st i o : holds_all al h l st -> znth l i = Some o -> exists a, znth st i = Some a /\ repr h o a.
Proof. intros [L H] E. pose proof (znth_lt _ _ _ E) as B. rewrite L in B. destruct (znth_some st i B) as [a Ea]. exists a. split; [exact Ea|]. eapply H; eauto. Qed.
Lemma l_of h l st i a : holds_all al h l st -> znth st i = Some a -> exists o, znth l i = Some o /\ repr h o a.
Proof. intros [L H] E. pose proof (znth_lt _ _ _ E) as B. rewrite <- L in B. destruct (znth_some l i B) as [o Eo]. exists o. split; [exact Eo|]. eapply H; eauto. Qed.
Lemma l_none h l st i : holds_all al h l st -> znth st i = None -> znth l i = None.
Proof. intros [L _] E. destruct (znth l i) eqn:F; [|reflexivity]. apply znth_lt in F. rewrite L in F. destruct (znth_some st i F). congruence. Qed.

Lemma memory_push h l st h' t a : memory_ok h l st -> built h h' t -> repr h' t a -> memory_ok h' (l ++ [t]) (st ++ [a]).
Proof.
  intros (H & U & N) B R. assert (D : forall i o p, znth l i = Some o -> optr o = Some p -> optr t <> Some p).
  { intros i o p Ei Ep Q. destruct (st_of _ _ _ _ _ H Ei) as (a0 & _ & R0). apply B in Q. rewrite (repr_live _ _ _ _ R0 Ep) in Q. discriminate. }
  split; [split|split].
  - rewrite !zlen_app, (proj1 H). reflexivity.
  - intros i o a0 Ei Ea. apply znth_snoc in Ei. apply znth_snoc in Ea. pose proof (proj1 H) as L.
    destruct Ei as [Ei|[-> ->]], Ea as [Ea|[Ea ->]].
    + apply (repr_only h); [eapply (proj2 H); eauto|]. intros p Ep. apply B. eauto.
    + apply znth_lt in Ei. lia.
    + apply znth_lt in Ea. lia.
    + exact R.
  - intros i j o o' p Ei Ej P P'. apply znth_snoc in Ei. apply znth_snoc in Ej. destruct Ei as [Ei|[-> ->]], Ej as [Ej|[-> ->]]; [eapply U; eauto| | |reflexivity]; exfalso; eapply D; eauto.
  - intros p b Lp. destruct (optr t) as [q|] eqn:Q.
    + destruct (Z.eq_dec q p) as [->|NE]; [exists (zlen l), t; split; [apply znth_snoc_last|exact Q]|].
      rewrite (proj2 B) in Lp by congruence. destruct (N p b Lp) as (i & o & Ei & Ep). exists i, o. split; [now apply znth_snoc_old|exact Ep].
    + rewrite (proj2 B) in Lp by congruence. destruct (N p b Lp) as (i & o & Ei & Ep). exists i, o. split; [now apply znth_snoc_old|exact Ep].
Qed.
Lemma push_agrees h l st m r : memory_ok h l st -> made h m r -> agrees (h_push (h, l) m) (push st r).
Proof.
  intros M D. unfold h_push, push, made in *. cbn [fst snd]. destruct r as [a|f|].
  - destruct D as (t & h' & E & R & B). rewrite E. apply agrees_next. eapply memory_push; eauto.
  - destruct D as (h' & E & K). rewrite E. eapply agrees_kept; eassumption.
  - rewrite D. reflexivity.
Qed.
Lemma znth_upd_same {A} (l : list A) i x y : znth l i = Some y -> znth (zupd l i x) i = Some x.
Proof. intros E. rewrite znth_zupd by exact (znth_lt _ _ _ E). now rewrite Z.eqb_refl. Qed.
Lemma znth_upd_other {A} (l : list A) i j x y : znth l i = Some y -> j <> i -> znth (zupd l i x) j = znth l j.
Proof. intros E N. rewrite znth_zupd by exact (znth_lt _ _ _ E). now replace (j =? i) with false by lia. Qed.
Lemma memory_put h l st h' i o t a0 a : memory_ok h l st -> znth l i = Some o -> znth st i = Some a0 -> moved h o h' t -> repr h' t a -> memory_ok h' (zupd l i t) (zupd st i a).
Proof.
  intros (H & U & N) Ei Ea (M1 & M2 & M3) R.
  assert (D : forall j o' p, znth l j = Some o' -> optr o' = Some p -> optr t <> Some p).
  { intros j o' p Ej Ep Q. destruct (st_of _ _ _ _ _ H Ej) as (a1 & _ & R1). apply M1 in Q. rewrite (repr_live _ _ _ _ R1 Ep) in Q. discriminate. }
  assert (D2 : forall j o' p, j <> i -> znth l j = Some o' -> optr o' = Some p -> optr o <> Some p).
  { intros j o' p NE Ej Ep Q. apply NE. eapply U; eauto. }
  split; [split|split].
  - rewrite !zlen_zupd. apply H.
  - intros j o' a' Ej Ea'. destruct (Z.eq_dec j i) as [->|NE].
    + rewrite (znth_upd_same l i t o Ei) in Ej. rewrite (znth_upd_same st i a a0 Ea) in Ea'. congruence.
    + rewrite (znth_upd_other l i j t o Ei NE) in Ej. rewrite (znth_upd_other st i j a a0 Ea NE) in Ea'. apply (repr_only h); [eapply (proj2 H); eauto|]. intros p Ep. apply M3; eauto.
  - intros j k o1 o2 p Ej Ek P1 P2. destruct (Z.eq_dec j i) as [->|NJ], (Z.eq_dec k i) as [->|NK]; [reflexivity| | |].
    + rewrite (znth_upd_same l i t o Ei) in Ej. rewrite (znth_upd_other l i k t o Ei NK) in Ek. exfalso. eapply D; [exact Ek|exact P2|congruence].
    + rewrite (znth_upd_same l i t o Ei) in Ek. rewrite (znth_upd_other l i j t o Ei NJ) in Ej. exfalso. eapply D; [exact Ej|exact P1|congruence].
    + rewrite (znth_upd_other l i j t o Ei NJ) in Ej. rewrite (znth_upd_other l i k t o Ei NK) in Ek. eapply U; eauto.
  - intros p b Lp. destruct (oz_dec (optr t) (Some p)) as [Q|Q].
    + exists i, t. split; [now apply (znth_upd_same l i t o)|exact Q].
    + destruct (oz_dec (optr o) (Some p)) as [Q2|Q2]; [rewrite (M2 _ Q2) in Lp; discriminate|]. rewrite (M3 p Q2 Q) in Lp. destruct (N p b Lp) as (j & o' & Ej & Ep).
      exists j, o'. split; [|exact Ep]. rewrite (znth_upd_other l i j t o Ei); [exact Ej|]. intros ->. congruence.
Qed.
Lemma zupd_id {A} (l : list A) i x : znth l i = Some x -> zupd l i x = l.
Proof. intros E. apply list_ext_znth. intros j _. rewrite znth_zupd by exact (znth_lt _ _ _ E). destruct (j =? i) eqn:J; [|reflexivity]. apply Z.eqb_eq in J. congruence. Qed.
Lemma memory_stay h l st i o a : memory_ok h l st -> znth l i = Some o -> repr h o a -> memory_ok h (zupd l i o) (zupd st i a).
Proof.
  intros (H & U & N) Ei R. rewrite (zupd_id l i o Ei). split; [|auto]. split; [rewrite zlen_zupd; apply H|]. intros j o' a' Ej Ea. destruct (st_of _ _ _ _ _ H Ei) as (a0 & E0 & R0). destruct (Z.eq_dec j i) as [->|NE].
  - rewrite (znth_upd_same st i a a0 E0) in Ea. congruence.
  - rewrite (znth_upd_other st i j a a0 E0 NE) in Ea. eapply (proj2 H); eauto.
Qed.
Lemma put_agrees h l st i o a m r : memory_ok h l st -> znth l i = Some o -> znth st i = Some a -> changes h o m r -> agrees (h_put (h, l) i m) (put st i r).
Proof.
  intros M Ei Ea D. unfold h_put, put, changes in *. cbn [fst snd]. destruct r as [a'|f|].
  - destruct D as (t & h' & E & R & [B|[-> ->]]); rewrite E; apply agrees_next; [eapply memory_put; eauto|now apply memory_stay].
  - destruct D as (h' & E & K). rewrite E. eapply agrees_kept; eassumption.
  - rewrite D. reflexivity.
Qed.
Lemma memory_inplace h l st h' i o a b : memory_ok h l st -> znth l i = Some o -> znth st i = Some a -> only (optr o) h h' -> holds h' o b -> memory_ok h' l (zupd st i (mkarr b (an a))).
Proof.
  intros (H & U & N) Ei Ea O Hb. split; [split|split; [exact U|]].
  - rewrite zlen_zupd. apply H.
  - intros j o' a' Ej Ea'. destruct (Z.eq_dec j i) as [->|NE].
    + rewrite (znth_upd_same st i _ a Ea) in Ea'. injection Ea' as <-. assert (o' = o) by congruence. subst o'. destruct (proj2 H i o a Ei Ea) as [Nn _]. split; [exact Nn|exact Hb].
    + rewrite (znth_upd_other st i j _ a Ea NE) in Ea'. apply (repr_only h); [eapply (proj2 H); eauto|]. intros p Ep. apply O. intros Q. apply NE. eapply U; eauto.
  - intros p x Lp. destruct (oz_dec (optr o) (Some p)) as [Q|Q]; [eauto|]. rewrite (O p Q) in Lp. now apply (N p x).
Qed.
Lemma mut_agrees h l st i o a m r : memory_ok h l st -> znth l i = Some o -> znth st i = Some a -> msim o h (m h) r -> agrees (h_done (h, l) m) (put_mut st i (with_buf a r)).
Proof.
  intros M Ei Ea D. unfold h_done, h_see, put_mut, msim, with_buf in *. cbn [fst snd]. destruct r as [b|f b|]; cbn [mbind].
  - destruct D as (h' & E & Hb & O). rewrite E. apply agrees_next. eapply memory_inplace; eauto.
  - destruct D as (h' & E & Hb & O). rewrite E. apply agrees_next. eapply memory_inplace; eauto.
  - rewrite D. reflexivity.
Qed.
Lemma assign_agrees c A r h l st i o a : memory_ok h l st -> znth l i = Some o -> znth st i = Some a -> reads (optr o) h r (sun A) ->
  agrees (h_done (h, l) (h_assign c (ssize A) r o)) (put_mut st i (arr_assign c A a)).
Proof.
  intros M Ei Ea R. destruct (proj2 (proj1 M) i o a Ei Ea) as [Nn Hb]. unfold arr_assign, arr_assign_rd, h_assign. rewrite <- Nn.
  destruct (check_debug c (Ok (on o =? ssize A))) as [[]|f|] eqn:E.
  - eapply mut_agrees; eauto. unfold assign_loop, mfor, hfor. unfold hbind at 1. cbn [lift]. apply assign_sim; [exact Hb|exact R].
  - cbn [put_mut]. unfold h_done, h_see, hbind. cbn [fst snd lift]. rewrite (zupd_id st i a Ea). apply agrees_next. exact M.
  - reflexivity.
Qed.
Lemma reads_other h l st i j o o' (b : arr V) : memory_ok h l st -> znth l i = Some o -> znth l j = Some o' -> i <> j -> repr h o' b -> reads (optr o) h (h_load o') (oget (buf b)).
Proof.
  intros (H & U & N) Ei Ej NE R h' O k. unfold h_load. destruct (optr o') as [p|] eqn:P.
  - rewrite O; [now rewrite (repr_live _ _ _ _ R P)|]. intros Q. apply NE. eapply U; eauto.
  - destruct R as [_ R]. rewrite P in R. rewrite R. unfold oget. rewrite znth_nil. reflexivity.
Qed.
Lemma holds_perm h l st i j oi oj ai aj : memory_ok h l st -> znth l i = Some oi -> znth l j = Some oj -> znth st i = Some ai -> znth st j = Some aj ->
  memory_ok h (zupd (zupd l i oj) j oi) (zupd (zupd st i aj) j ai).
Proof.
  intros (H & U & N) Ei Ej Ai Aj. destruct (Z.eq_dec j i) as [->|NE].
  { assert (oj = oi) by congruence. assert (aj = ai) by congruence. subst. rewrite (zupd_id l i oi Ei), (zupd_id l i oi Ei), (zupd_id st i ai Ai), (zupd_id st i ai Ai). split; auto. }
  assert (LJ : znth (zupd l i oj) j = Some oj) by (rewrite (znth_upd_other l i j oj oi Ei NE); exact Ej).
  assert (SJ : znth (zupd st i aj) j = Some aj) by (rewrite (znth_upd_other st i j aj ai Ai NE); exact Aj).
  assert (LL : forall k, znth (zupd (zupd l i oj) j oi) k = znth l (if k =? j then i else if k =? i then j else k)).
  { intros k. rewrite znth_zupd by exact (znth_lt _ _ _ LJ). destruct (k =? j) eqn:K; [now rewrite Ei|]. rewrite znth_zupd by exact (znth_lt _ _ _ Ei). destruct (k =? i); [now rewrite Ej|reflexivity]. }
  assert (SS : forall k, znth (zupd (zupd st i aj) j ai) k = znth st (if k =? j then i else if k =? i then j else k)).
  { intros k. rewrite znth_zupd by exact (znth_lt _ _ _ SJ). destruct (k =? j) eqn:K; [now rewrite Ai|]. rewrite znth_zupd by exact (znth_lt _ _ _ Ai). destruct (k =? i); [now rewrite Aj|reflexivity]. }
  split; [split|split].
  - rewrite !zlen_zupd. apply H.
  - intros k o a Eo Ea. rewrite LL in Eo. rewrite SS in Ea. eapply (proj2 H); eauto.
  - intros k k' o o' p Eo Eo' P P'. rewrite LL in Eo. rewrite LL in Eo'. pose proof (U _ _ _ _ _ Eo Eo' P P') as Q. clear - Q NE. destruct (k =? j) eqn:A1, (k =? i) eqn:A2, (k' =? j) eqn:A3, (k' =? i) eqn:A4; lia.
  - intros p b Lp. destruct (N p b Lp) as (k & o & Eo & P). exists (if k =? j then i else if k =? i then j else k), o. split; [|exact P]. rewrite LL.
    replace (if (if k =? j then i else if k =? i then j else k) =? j then i else if (if k =? j then i else if k =? i then j else k) =? i then j else (if k =? j then i else if k =? i then j else k)) with k; [exact Eo|].
    clear - NE. destruct (k =? j) eqn:A1; [apply Z.eqb_eq in A1; subst; replace (i =? j) with false by lia; now rewrite Z.eqb_refl|]. destruct (k =? i) eqn:A2; [apply Z.eqb_eq in A2; subst; now rewrite Z.eqb_refl|]. now rewrite A1, A2.
Qed.
Lemma clear_agrees h l st j o a : memory_ok h l st -> znth l j = Some o -> znth st j = Some a -> agrees (h_clear al (h, l) j) (Next (zupd st j arr_empty) Done).
Proof.
  intros M Ej Ea. unfold h_clear, h_with. cbn [fst snd]. rewrite Ej. destruct (proj2 (proj1 M) j o a Ej Ea) as [Nn Hb]. destruct (delete_sim h o (buf a) Hb) as (h' & E & L). rewrite E.
  apply agrees_next. eapply memory_put; eauto.
  - split; [discriminate|]. split.
    + intros p P. rewrite L, P, Z.eqb_refl. reflexivity.
    + intros p P _. rewrite L. destruct (optr o) as [q|]; [|reflexivity]. destruct (p =? q) eqn:Q; [apply Z.eqb_eq in Q; congruence|reflexivity].
  - split; reflexivity.
Qed.
Lemma swap_is l i j oi oj : znth l i = Some oi -> znth l j = Some oj -> h_swap l i j = zupd (zupd l i oj) j oi.
Proof. intros A B. unfold h_swap. now rewrite A, B. Qed.
Lemma zupd_twice {A} (l : list A) i x y : zupd (zupd l i x) i y = zupd l i y.
Proof.
  apply list_ext_znth. intros k _. destruct (znth l i) as [z|] eqn:E.
  - pose proof (znth_lt _ _ _ E) as B. rewrite !znth_zupd; rewrite ?zlen_zupd; try exact B. now destruct (k =? i).
  - rewrite !zupd_out; auto. now rewrite zupd_out.
Qed.
Lemma memory_move h l st j o a : memory_ok h l st -> znth l j = Some o -> znth st j = Some a -> memory_ok h (zupd l j h_empty ++ [o]) (zupd st j arr_empty ++ [a]).
Proof.
  intros M Ej Ea. assert (M1 : memory_ok h (l ++ [h_empty]) (st ++ [arr_empty])). { eapply memory_push; [exact M|split; [discriminate|intros p _; reflexivity]|split; reflexivity]. }
  pose proof (znth_lt _ _ _ Ej) as B. pose proof (znth_lt _ _ _ Ea) as B'. pose proof (proj1 (proj1 M)) as L.
  pose proof (holds_perm h _ _ j (zlen l) o h_empty a arr_empty M1) as P. rewrite L in P at 2 4.
  specialize (P (znth_snoc_old _ _ _ _ Ej)). rewrite znth_snoc_last in P. specialize (P eq_refl (znth_snoc_old _ _ _ _ Ea)). rewrite znth_snoc_last in P. specialize (P eq_refl).
  assert (X : forall {A} (u : list A) e x, 0 <= j < zlen u -> zupd (zupd (u ++ [e]) j e) (zlen u) x = zupd u j e ++ [x]).
  { intros A u e x Bu. rewrite zupd_app_l by exact Bu. rewrite zupd_app_r by (rewrite zlen_zupd; lia). rewrite zlen_zupd, Z.sub_diag. reflexivity. }
  rewrite !X in P by assumption. exact P.
Qed.
Lemma swap_clear h l st i j o o' a a' : memory_ok h l st -> znth l i = Some o -> znth l j = Some o' -> znth st i = Some a -> znth st j = Some a' ->
  agrees (h_clear al (h, h_swap l i j) j) (Next (zupd (zupd st i a') j arr_empty) Done).
Proof.
  intros M Eo Eo' Ea Ea'. rewrite (swap_is l i j o o') by assumption. pose proof (holds_perm h l st i j o o' a a' M Eo Eo' Ea Ea') as M2.
  replace (zupd (zupd st i a') j arr_empty) with (zupd (zupd (zupd st i a') j a) j arr_empty) by apply zupd_twice.
  pose proof (znth_lt _ _ _ Eo'). pose proof (znth_lt _ _ _ Ea').
  eapply clear_agrees; [exact M2| |]; rewrite znth_zupd by (rewrite zlen_zupd; assumption); rewrite Z.eqb_refl; reflexivity.
Qed.
Theorem step_agrees c h l st op : memory_ok h l st -> agrees (hstep1 zero al c (h, l) op) (step1 zero c st op).
Proof.
  intros M. pose proof (proj1 M) as H.
  assert (W : forall i k k', (forall o a, znth l i = Some o -> znth st i = Some a -> repr h o a -> agrees (k o) (k' a)) -> agrees (h_with (h, l) i k) (with1 st i k')).
  { intros i k k' K. unfold h_with, with1. cbn [snd]. destruct (znth st i) as [a|] eqn:Ea.
    - destruct (l_of _ _ _ _ _ H Ea) as (o & Eo & R). rewrite Eo. now apply K.
    - rewrite (l_none _ _ _ _ H Ea). now apply agrees_next. }
  destruct op; cbn [hstep1 step1]; unfold with2.
  - apply push_agrees; [exact M|apply made_new].
  - apply push_agrees; [exact M|apply made_fill].
  - apply push_agrees; [exact M|]. apply (made_src c (src_of_list l0)). apply sees_list.
  - apply W. intros o a Eo Ea R. apply push_agrees; [exact M|]. rewrite (proj1 R). apply (made_src c (src_of_arr a)). now apply sees_load.
  - apply W. intros o a Eo Ea R. cbn [arr_move fst snd]. apply agrees_next.
    now apply memory_move.
  - apply W. intros o a Eo Ea R. apply push_agrees; [exact M|]. unfold h_slice, slice_src. rewrite bind_assoc, (proj1 R). apply made_lift. intros v _. cbn [bind]. apply (made_src c (mksrc1 (view_size v) (view_un v (buf a)))). now apply sees_slice.
  - apply W. intros o a Eo Ea R. pose proof (sim_fill o h (buf a) x (proj2 R)) as S. unfold arr_set_all, put, h_done, h_see, sim in *. cbn [fst snd]. rewrite <- (proj1 R). destruct (fill x (on o) (buf a)) as [b|f|] eqn:F; cbn [bind].
    + destruct S as (h' & E & Hb & O). rewrite E. apply agrees_next. rewrite (proj1 R). eapply memory_inplace; eauto.
    + now apply fill_nofail in F.
    + rewrite S. reflexivity.
  - apply W. intros o a Eo Ea R. apply (assign_agrees c (src_of_list l0)); auto. intros h' _ k. reflexivity.
  - apply W. intros o a Eo Ea R. apply W. intros o' a' Eo' Ea' R'. destruct (i =? j) eqn:IJ; [now apply agrees_next|]. rewrite (proj1 R'). apply (assign_agrees c (src_of_arr a')); auto. eapply (reads_other h l st i j); eauto. lia.
  - apply W. intros o a Eo Ea R. apply W. intros o' a' Eo' Ea' R'. destruct (i =? j) eqn:IJ; [unfold arr_move_assign_self; rewrite (zupd_id st i a Ea); now apply agrees_next|].
    unfold arr_move_assign. rewrite (proj1 R), (proj1 R'). cbn [fst snd]. destruct (check_normal c (Ok (an a =? an a'))) as [[]|f|]; cbn [bind noexcept]; [| |reflexivity].
    + eapply swap_clear; eauto.
    + destruct f; now apply agrees_next.
  - apply W. intros o a Eo Ea R. apply W. intros o' a' Eo' Ea' R'. cbn [arr_swap fst snd]. rewrite (swap_is l i j o o') by assumption. apply agrees_next. eapply holds_perm; eauto.
  - apply W. intros o a Eo Ea R. eapply put_agrees; eauto. now apply resize_sim.
  - apply W. intros o a Eo Ea R. apply W. intros o' a' Eo' Ea' R'. eapply put_agrees; eauto. rewrite (proj1 R'). eapply (resize_and_assign_sim c (src_of_arr a')); eauto. now apply sees_load.
  - apply W. intros o a Eo Ea R. apply W. intros o' a' Eo' Ea' R'. cbn [fst snd]. destruct (i =? j) eqn:IJ.
    + apply Z.eqb_eq in IJ. subst j. unfold arr_resize_and_assign_move_self. rewrite <- (zupd_twice st i a' arr_empty). eapply swap_clear; eauto.
    + cbn [arr_resize_and_assign_move]. eapply swap_clear; eauto.
  - apply W. intros o a Eo Ea R. eapply put_agrees; eauto. now apply remove_sim.
  - apply W. intros o a Eo Ea R. eapply put_agrees; eauto. now apply remove_sim.
  - apply W. intros o a Eo Ea R. eapply put_agrees; eauto. unfold arr_remove_back. rewrite (proj1 R). apply changes_lift. intros p _. now apply remove_sim.
  - apply W. intros o a Eo Ea R. eapply put_agrees; eauto. unfold arr_remove_last. rewrite (proj1 R). apply changes_lift. intros n1 _. apply changes_lift. intros p _. now apply remove_sim.
  - apply W. intros o a Eo Ea R. eapply put_agrees; eauto. now apply remove_indexes_sim.
  - apply W. intros o a Eo Ea R. eapply put_agrees; eauto. now apply insert_sim.
  - apply W. intros o a Eo Ea R. eapply put_agrees; eauto. now apply insert_sim.
  - apply W. intros o a Eo Ea R. eapply put_agrees; eauto. unfold arr_insert_back. rewrite (proj1 R). now apply insert_sim.
  - apply W. intros o a Eo Ea R. apply W. intros o' a' Eo' Ea' R'. eapply put_agrees; eauto. rewrite (proj1 R'). apply (insert_src_sim c pos (src_of_arr a')); auto. now apply sees_load.
  - apply W. intros o a Eo Ea R. apply W. intros o' a' Eo' Ea' R'. eapply put_agrees; eauto. rewrite (proj1 R'). apply (insert_src_sim c 0 (src_of_arr a')); auto. now apply sees_load.
  - apply W. intros o a Eo Ea R. apply W. intros o' a' Eo' Ea' R'. eapply put_agrees; eauto. unfold arr_insert_back_arr. rewrite (proj1 R'), (proj1 R). apply (insert_src_sim c (an a) (src_of_arr a')); auto. now apply sees_load.
  - apply W. intros o a Eo Ea R. unfold h_write, arr_write, h_done, h_see, put, hbind. cbn [fst snd]. rewrite (proj1 R). destruct (idx_get (an a) ix) as [k|f|]; cbn [lift bind]; [|now apply agrees_next|reflexivity].
    destruct (check_debug c (Ok (valid_index (an a) k))) as [[]|f|]; cbn [lift bind]; [|now apply agrees_next|reflexivity].
    pose proof (sim_store o h (buf a) k x (proj2 R)) as S. unfold sim in S. destruct (oset (buf a) k x) as [b|f|] eqn:E; cbn [bind]; [|now apply oset_nofail in E|now rewrite S].
    destruct S as (h' & E' & Hb & O). rewrite E'. apply agrees_next. eapply memory_inplace; eauto.
  - apply W. intros o a Eo Ea R. unfold h_read, sub1, h_see, seen, hbind, src_of_arr. cbn [fst snd ssize sun]. rewrite (proj1 R). destruct (idx_get (an a) ix) as [k|f|]; cbn [lift bind]; [|now apply agrees_next|reflexivity].
    destruct (check_debug c (Ok (valid_index (an a) k))) as [[]|f|]; cbn [lift bind]; [|now apply agrees_next|reflexivity].
    rewrite (sees_load h o a R h (fun p x e => e) k). destruct (oget (buf a) k); cbn [lift bind]; [now apply agrees_next|now apply agrees_next|reflexivity].
  - apply W. intros o a Eo Ea R. rewrite (proj1 R). now apply agrees_next.
Qed.

Theorem run_agrees c ops : forall h l st, memory_ok h l st ->
  snd (run (hstep1 zero al c) (h, l) ops) = snd (run (step1 zero c) st ops) /\
  match fst (run (step1 zero c) st ops) with
  | Next st' ob => exists h' l', fst (run (hstep1 zero al c) (h, l) ops) = Next (h', l') ob /\ holds_all al h' l' st' /\ (ob = Done -> memory_ok h' l' st')
  | Crash => fst (run (hstep1 zero al c) (h, l) ops) = Crash
  end.
Proof.
  induction ops as [|op ops IH]; intros h l st M; cbn [run].
  - split; [reflexivity|]. exists h, l. split; [reflexivity|]. split; [apply M|auto].
  - pose proof (step_agrees c h l st op M) as A. unfold agrees in A. destruct (step1 zero c st op) as [st' ob|].
    + destruct A as (h' & l' & E & H & F). rewrite E.
      assert (G : (forall f, ob = Failed f -> fatal f = false) ->
        snd (let (r, t) := run (hstep1 zero al c) (h', l') ops in (r, ob :: t)) = snd (let (r, t) := run (step1 zero c) st' ops in (r, ob :: t)) /\
        match fst (let (r, t) := run (step1 zero c) st' ops in (r, ob :: t)) with
        | Next st2 ob2 => exists h2 l2, fst (let (r, t) := run (hstep1 zero al c) (h', l') ops in (r, ob :: t)) = Next (h2, l2) ob2 /\ holds_all al h2 l2 st2 /\ (ob2 = Done -> memory_ok h2 l2 st2)
        | Crash => fst (let (r, t) := run (hstep1 zero al c) (h', l') ops in (r, ob :: t)) = Crash end).
      { intros NF. destruct (IH h' l' st' (F NF)) as [I1 I2]. destruct (run (hstep1 zero al c) (h', l') ops) as [r t], (run (step1 zero c) st' ops) as [r' t']. cbn [fst snd] in *. split; [congruence|exact I2]. }
      destruct ob as [|v|n|f]; try (apply G; congruence). destruct (fatal f) eqn:FF; [|apply G; congruence]. cbn [fst snd]. split; [reflexivity|]. exists h', l'. split; [reflexivity|]. split; [exact H|discriminate].
    + rewrite A. split; reflexivity.
Qed.

(** ** End of scope *)
Lemma close_sim l : forall h st, memory_ok h l st -> exists h', h_close al l h = HOk tt h' /\ forall p, lk h' p = None.
Proof.
  intros h st M. destruct M as (H & U & N).
  assert (G : forall k l', l = k ++ l' -> exists h', h_close al l' h = HOk tt h' /\ forall p, lk h' p = if existsb (fun o => match optr o with Some q => p =? q | None => false end) l' then None else lk h p).
  { intros k l'. revert k. induction l' as [|o l' IH]; intros k E; cbn [h_close existsb].
    - exists h. split; reflexivity.
    - destruct (IH (k ++ [o])) as (h1 & E1 & L1); [now rewrite <- app_assoc|]. unfold hbind. rewrite E1.
      assert (Eo : znth l (zlen k) = Some o) by (rewrite E, znth_app_r by lia; now rewrite Z.sub_diag).
      destruct (st_of _ _ _ _ _ H Eo) as (a & _ & R).
      assert (H1 : holds h1 o (buf a)).
      { unfold holds. destruct (optr o) as [p|] eqn:P; [|destruct R as [_ R]; now rewrite P in R]. rewrite L1. rewrite (repr_live _ _ _ _ R P).
        destruct (existsb _ l') eqn:X; [|reflexivity]. exfalso. apply existsb_exists in X. destruct X as (o2 & I2 & Q). destruct (optr o2) as [q|] eqn:P2; [|discriminate]. apply Z.eqb_eq in Q. subst q.
        apply In_nth_error in I2. destruct I2 as [m Em].
        assert (E2 : znth l (zlen k + 1 + Z.of_nat m) = Some o2).
        { rewrite E, znth_app_r by lia. unfold znth. replace (_ <? 0) with false by lia. replace (Z.to_nat (zlen k + 1 + Z.of_nat m - zlen k)) with (S m) by lia. exact Em. }
        pose proof (U _ _ _ _ _ Eo E2 P P2). lia. }
      destruct (delete_sim h1 o (buf a) H1) as (h2 & E2 & L2). exists h2. split; [exact E2|]. intros p. rewrite L2, L1. destruct (optr o) as [q|]; [|reflexivity]. now destruct (p =? q). }
  destruct (G [] l eq_refl) as (h' & E & L). exists h'. split; [exact E|]. intros p. rewrite L. destruct (existsb _ l) eqn:X; [reflexivity|]. destruct (lk h p) as [b|] eqn:B; [|reflexivity]. destruct (N p b B) as (i & o & Ei & P).
  exfalso. assert (existsb (fun o => match optr o with Some q => p =? q | None => false end) l = true); [|congruence]. apply existsb_exists. exists o. split; [|rewrite P; apply Z.eqb_refl]. unfold znth in Ei. destruct (i <? 0); [discriminate|]. eapply nth_error_In; eauto.
Qed.
Lemma memory_start : memory_ok [] [] [].
Proof. split; [split; [reflexivity|]|split]; intros i; intros; try (rewrite znth_nil in *; discriminate). unfold lk in *. rewrite znth_nil in *. discriminate. Qed.

(** ** Statements *)
Lemma contents_all h l st w : holds_all al h l st -> Forall2 rep st w -> Forall2 (contents al h) l w.
Proof.
  intros [L H] F. revert l L H. induction F as [|a x st w R F IH]; intros l L H.
  - rewrite (zlen_zero l) by (rewrite L; reflexivity). constructor.
  - destruct l as [|o l]; [unfold zlen in L; cbn [length] in L; lia|]. constructor.
    + destruct (H 0 o a) as [N D]; [apply znth_cons_0|apply znth_cons_0|]. destruct R as [R1 R2]. split; [congruence|]. destruct (optr o); congruence.
    + apply IH; [rewrite !zlen_cons in L; lia|]. intros i o' a' E1 E2. pose proof (znth_lt _ _ _ E1). apply (H (i + 1)); unfold znth in *; replace (i <? 0) with false in * by lia; replace (i + 1 <? 0) with false by lia; replace (Z.to_nat (i + 1)) with (S (Z.to_nat i)) by lia; assumption.
Qed.
Theorem run_start c ops :
  snd (run (hstep1 zero al c) ([], []) ops) = snd (run (step1 zero c) [] ops) /\
  match fst (run (step1 zero c) [] ops) with
  | Next st ob => exists h l, fst (run (hstep1 zero al c) ([], []) ops) = Next (h, l) ob /\ holds_all al h l st /\ (ob = Done -> unshared l /\ no_leak h l)
  | Crash => fst (run (hstep1 zero al c) ([], []) ops) = Crash
  end.
Proof.
  destruct (run_agrees c ops [] [] [] memory_start) as [A B]. split; [exact A|]. destruct (fst (run (step1 zero c) [] ops)) as [st ob|]; [|exact B].
  destruct B as (h & l & E & H & M). exists h, l. split; [exact E|]. split; [exact H|]. intros D. now apply M.
Qed.
Theorem run_list c ops : cfg_ok c -> checked c = true -> Forall op_long ops ->
  snd (run (hstep1 zero al c) ([], []) ops) = snd (run (spec_step1 zero c) [] ops) /\
  match fst (run (spec_step1 zero c) [] ops) with
  | Next w ob => exists h l, fst (run (hstep1 zero al c) ([], []) ops) = Next (h, l) ob /\ Forall2 (contents al h) l w /\
      (ob = Done -> exists h', h_close al l h = HOk tt h' /\ all_free h')
  | Crash => fst (run (hstep1 zero al c) ([], []) ops) = Crash
  end.
Proof.
  intros C K L. destruct (run_agrees c ops [] [] [] memory_start) as [A B]. destruct (run1_thm zero c ops C K L) as [A2 B2]. split; [etransitivity; [exact A|exact A2]|].
  destruct (fst (run (spec_step1 zero c) [] ops)) as [w ob|].
  - destruct B2 as (st & E2 & F). rewrite E2 in B. destruct B as (h & l & E & H & M). exists h, l. split; [exact E|]. split; [eapply contents_all; eauto|]. intros D. eapply close_sim; eauto.
  - now rewrite B2 in B.
Qed.
Theorem run_valid c ops : cfg_ok c -> Forall op_long ops -> valid_run (spec_step1 zero c) [] ops ->
  snd (run (hstep1 zero al c) ([], []) ops) = snd (run (spec_step1 zero c) [] ops) /\
  exists w ob h l, fst (run (spec_step1 zero c) [] ops) = Next w ob /\ fst (run (hstep1 zero al c) ([], []) ops) = Next (h, l) ob /\ Forall2 (contents al h) l w /\
    (ob = Done -> exists h', h_close al l h = HOk tt h' /\ all_free h').
Proof.
  intros C L R. destruct (run_agrees c ops [] [] [] memory_start) as [A B]. destruct (run1_any_thm zero c ops C L R) as [A2 (w & ob & st & E1 & E2 & F)]. split; [etransitivity; [exact A|exact A2]|].
  rewrite E2 in B. destruct B as (h & l & E & H & M). exists w, ob, h, l. split; [exact E1|]. split; [exact E|]. split; [eapply contents_all; eauto|]. intros D. eapply close_sim; eauto.
Qed.
Theorem assign_keeps c A r h l st i o a : memory_ok h l st -> znth l i = Some o -> znth st i = Some a ->
  (forall h', only (optr o) h h' -> forall k, r k h' = lift (sun A k) h') ->
  match arr_assign c A a with
  | MOk a' => exists h', h_assign c (ssize A) r o h = HOk tt h' /\ memory_ok h' l (zupd st i a')
  | MFail f a' => exists h', h_assign c (ssize A) r o h = HFail f h' /\ memory_ok h' l (zupd st i a')
  | MUB => h_assign c (ssize A) r o h = HUB
  end.
Proof.
  intros M Ei Ea R. pose proof (assign_agrees c A r h l st i o a M Ei Ea R) as G. unfold agrees, h_done, h_see, put_mut in G. cbn [fst snd] in G.
  destruct (proj2 (proj1 M) i o a Ei Ea) as [Nn Hb]. unfold arr_assign, arr_assign_rd, h_assign in *. rewrite <- Nn in *. unfold hbind at 1 in G. unfold hbind at 1 2 3.
  destruct (check_debug c (Ok (on o =? ssize A))) as [[]|f|] eqn:E; cbn [lift] in *.
  - unfold assign_loop, mfor, h_copyn, hfor, with_buf in *. pose proof (assign_sim o r A (Z.to_nat (ssize A - 0)) 0 h (buf a) Hb R) as S. unfold msim in S.
    destruct (mfor_loop _ _ _ (buf a)) as [b|f b|]; cbn [mbind]; try exact S; destruct S as (h' & E' & H' & O'); exists h'; (split; [exact E'|eapply memory_inplace; eauto]).
  - exists h. split; [reflexivity|]. now rewrite (zupd_id st i a Ea).
  - reflexivity.
Qed.
End HP.
