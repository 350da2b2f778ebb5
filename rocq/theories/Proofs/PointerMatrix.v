(** Pointers to the elements of two-dimensional arrays. *)
From Verif Require Import Base.Outcome Base.ZList Model.IntModel Model.ScalarOps Model.Index Model.Slice Model.Array1D Model.Array2D Model.Store1D Model.Store2D Model.Heap Model.Heap2D Model.Handoff.
From Verif Require Import Spec.ArraySpec Spec.Store1DSpec Spec.MatrixSpec Spec.Store2DSpec Spec.HeapSpec Spec.Heap2DSpec Spec.PointerSpec Proofs.Store1DProofs Proofs.HeapProofs Proofs.Heap2DProofs Proofs.PointerProofs.

Section PM.
Context {V : Type} (zero : V) (al : Z).
Notation heap := (heap (V := V)).
Notation hm := (hm (V := V)).
Notation memory_ok2 := (memory_ok2 (V := V) al).
Notation hstep := (hstep2 zero al).
Notation "x <-- m ;; k" := (hbind m (fun x => k)) (at level 61, m at next level, right associativity).
Notation dims := (map (fun o => (orows o, ocols o))).

(** ** New blocks are new *)
Definition fresh2 (m : hm hobj2) : Prop := forall h t h', m h = HOk t h' -> forall p, optr (odat t) = Some p -> zlen h <= p.
Lemma f2_lift {A} (x : outcome A) k : (forall y, fresh2 (k y)) -> fresh2 (y <-- lift x ;; k y).
Proof. intros K h t h' E. unfold hbind, lift in E. destruct x; try discriminate. eapply K; eauto. Qed.
Lemma f2_then {B} (m : hm hobj2) (n : hobj2 -> hm B) : fresh2 m -> fresh2 (t <-- m ;; _ <-- n t ;; hret t).
Proof.
  intros F h t h' E. unfold hbind in E. destruct (m h) as [t1 h1| |] eqn:M; try discriminate. destruct (n t1 h1) as [b h2| |]; try discriminate. cbn [hret] in E. injection E as <- _. eapply F; eauto.
Qed.
Lemma f2_new c m n : fresh2 (h2_new zero al c m n).
Proof.
  unfold h2_new. apply f2_lift. intros p. intros h t h' E q Q. unfold h_new, hbind at 2, lift in E. unfold hbind in E. destruct (check_debug c (Ok (-1 <? p))) as [[]| |]; try discriminate. destruct (p =? 0).
  - cbn [hret] in E. destruct (unwind _ _ _ _) as [[] h2| |]; cbn in E; try discriminate. injection E as <- _. discriminate.
  - unfold h_alloc in E. destruct (alloc zero c p) as [b| |]; try discriminate. cbn [hret] in E. destruct (unwind _ _ _ _) as [[] h2| |]; cbn in E; try discriminate. injection E as <- _. cbn in Q. injection Q as <-. lia.
Qed.
Lemma f2_build c m n body : fresh2 (h2_build zero al c m n body).
Proof. unfold h2_build. apply (f2_then (h2_new zero al c m n) (fun t => unwind al (odat t) (body t))). apply f2_new. Qed.
Lemma f2_replace (m : hm hobj2) o : fresh2 m -> fresh2 (t <-- m ;; h2_replace al o t).
Proof.
  intros F h t h' E. unfold hbind in E. destruct (m h) as [t1 h1| |] eqn:M; try discriminate. unfold h2_replace, hbind in E. destruct (h_delete al (optr (odat o)) h1) as [[] h2| |]; cbn in E; try discriminate. injection E as <- _. eapply F; eauto.
Qed.
Lemma f2_remove_rows c p k o : fresh2 (h2_remove_rows zero al c p k o).
Proof. unfold h2_remove_rows. do 4 (apply f2_lift; intros ?). apply f2_replace, f2_build. Qed.
Lemma f2_remove_cols c p k o : fresh2 (h2_remove_cols zero al c p k o).
Proof. unfold h2_remove_cols. do 4 (apply f2_lift; intros ?). apply f2_replace, f2_build. Qed.
Lemma f2_remove_rows_idx c v o : v <> [] -> fresh2 (h2_remove_rows_idx zero al c v o).
Proof. intros N. unfold h2_remove_rows_idx. destruct v; [congruence|]. apply f2_lift. intros ?. apply f2_replace, f2_build. Qed.
Lemma f2_remove_cols_idx c v o : v <> [] -> fresh2 (h2_remove_cols_idx zero al c v o).
Proof. intros N. unfold h2_remove_cols_idx. destruct v; [congruence|]. apply f2_lift. intros ?. apply f2_replace, f2_build. Qed.
Lemma f2_raa c b o : fresh2 (h2_resize_and_assign_arr zero al c b o).
Proof. unfold h2_resize_and_assign_arr, h2_of_arr. apply f2_replace, f2_build. Qed.
Lemma f2_insert_rows c fr p m n r o : fresh2 fr -> fresh2 (h2_insert_rows zero al c fr p m n r o).
Proof. intros F. unfold h2_insert_rows. apply f2_lift. intros _. destruct (_ && _); [exact F|]. do 2 (apply f2_lift; intros ?). apply f2_replace, f2_build. Qed.
Lemma f2_insert_cols c fr p m n r o : fresh2 fr -> fresh2 (h2_insert_cols zero al c fr p m n r o).
Proof. intros F. unfold h2_insert_cols. apply f2_lift. intros _. destruct (_ && _); [exact F|]. do 2 (apply f2_lift; intros ?). apply f2_replace, f2_build. Qed.
Lemma f2_resize c m n pr o : (m =? orows o) && (n =? ocols o) || negb pr && (m * n =? orows o * ocols o) = false -> fresh2 (h2_resize zero al c m n pr o).
Proof.
  intros N. apply orb_false_elim in N. destruct N as [N1 N2]. unfold h2_resize. apply f2_lift. intros _. rewrite N1. destruct pr; [apply f2_replace, f2_build|].
  intros h t h' E. unfold hbind at 1 2 in E. unfold lmul, lret in E. destruct (in_long (m * n)); [|discriminate]. destruct (in_long (orows o * ocols o)); [|discriminate]. cbn [lift hret] in E. cbn [negb andb] in N2. rewrite N2 in E. revert E. apply (f2_replace (h2_new zero al c m n) o (f2_new c m n)).
Qed.
Lemma f2_insert_row c p l o : fresh2 (h2_insert_row zero al c p l o).
Proof.
  unfold h2_insert_row. apply f2_lift. intros _. destruct (_ && _) eqn:E.
  - apply (f2_then (h2_resize zero al c 1 (zlen l) true o) (fun t => h_copyn (fun i => lift (oget l i)) (odat t) (zlen l))). apply f2_resize. cbn [negb andb]. replace (1 =? orows o) with false by lia. reflexivity.
  - do 2 (apply f2_lift; intros ?). apply f2_replace, f2_build.
Qed.
Lemma f2_insert_col c p l o : fresh2 (h2_insert_col zero al c p l o).
Proof.
  unfold h2_insert_col. apply f2_lift. intros _. destruct (_ && _) eqn:E.
  - apply (f2_then (h2_resize zero al c (zlen l) 1 true o) (fun t => h_copyn (fun i => lift (oget l i)) (odat t) (zlen l))). apply f2_resize. cbn [negb andb]. replace (1 =? ocols o) with false by lia. now rewrite andb_false_r.
  - do 2 (apply f2_lift; intros ?). apply f2_replace, f2_build.
Qed.
Lemma f2_assign_list c L o : fresh2 (h2_assign_list zero al c L o).
Proof.
  intros h t h' E q Q. unfold h2_assign_list in E. unfold hbind at 1 in E. destruct (h2_of_list zero al c L h) as [t1 h1| |] eqn:B; try discriminate. unfold hbind at 1 in E. destruct (unwind _ _ _ _) as [[] h2| |]; try discriminate.
  unfold h2_move_assign, hbind in E. destruct (lift _ h2) as [x h3| |]; try discriminate. destruct (h_delete al (optr (odat o)) h3) as [x' h4| |]; try discriminate. cbn in E. injection E as <- _. cbn [odat] in Q. eapply (f2_build c _ _ _ h t1 h1 B); eauto.
Qed.

(** ** One operation *)
Definition inh2 (l' : list hobj2) (o : hobj2) (p : Z) (r : option Z) : Prop :=
  match r with Some k' => exists o', znth l' k' = Some o' /\ odat o' = odat o | None => forall k2 o2, znth l' k2 = Some o2 -> optr (odat o2) <> Some p end.
Lemma inh2_keep (l' : list hobj2) o p k : znth l' k = Some o -> inh2 l' o p (Some k). Proof. intros E. exists o. auto. Qed.
Lemma live2 h l st i o p : memory_ok2 h l st -> znth l i = Some o -> optr (odat o) = Some p -> 0 <= p < zlen h.
Proof.
  intros ((L & H) & _) E P. pose proof (znth_lt _ _ _ E) as B. rewrite L in B. destruct (znth_some st i B) as [a Ea]. destruct (H i o a E Ea) as (_ & _ & R). apply (repr_live al) with (p := p) in R; [|exact P]. now apply lk_range in R.
Qed.
Lemma apart2 h l st i j o o' p : memory_ok2 h l st -> znth l i = Some o -> znth l j = Some o' -> optr (odat o) = Some p -> optr (odat o') = Some p -> i = j.
Proof. intros (_ & U & _) Ei Ej P P'. apply (U i j (odat o) (odat o') p); auto; rewrite znth_map; now rewrite ?Ei, ?Ej. Qed.
Lemma inh2_put h l st i a t k o p : memory_ok2 h l st -> znth l i = Some a -> znth l k = Some o -> optr (odat o) = Some p -> (forall q, optr (odat t) = Some q -> zlen h <= q) ->
  inh2 (zupd l i t) o p (if k =? i then None else Some k).
Proof.
  intros M Ei Ek P F. destruct (k =? i) eqn:KI.
  - apply Z.eqb_eq in KI. subst k. intros k2 o2 E2 P2. destruct (Z.eq_dec k2 i) as [->|NE].
    + rewrite (znth_upd_same l i t a Ei) in E2. injection E2 as <-. specialize (F p P2). pose proof (live2 _ _ _ _ _ _ M Ek P). lia.
    + rewrite (znth_upd_other l i k2 t a Ei NE) in E2. apply NE. eapply apart2; eauto.
  - apply Z.eqb_neq in KI. apply inh2_keep. now rewrite (znth_upd_other l i k t a Ei KI).
Qed.
Lemma inh2_take h l st i j a b a' k o p : memory_ok2 h l st -> znth l i = Some a -> znth l j = Some b -> odat a' = odat b -> znth l k = Some o -> optr (odat o) = Some p ->
  inh2 (zupd (zupd l i a') j h2_empty) o p (if k =? i then None else if k =? j then Some i else Some k).
Proof.
  intros M Ei Ej D Ek P. pose proof (znth_lt _ _ _ Ei). pose proof (znth_lt _ _ _ Ej).
  assert (Z2 : forall q, znth (zupd (zupd l i a') j h2_empty) q = if q =? j then Some h2_empty else if q =? i then Some a' else znth l q).
  { intros q. rewrite znth_zupd by (rewrite zlen_zupd; lia). destruct (q =? j); [reflexivity|]. now rewrite znth_zupd by lia. }
  destruct (k =? i) eqn:KI; [|destruct (k =? j) eqn:KJ].
  - apply Z.eqb_eq in KI. subst k. intros k2 o2 E2 P2. rewrite Z2 in E2. destruct (k2 =? j) eqn:K2; [injection E2 as <-; discriminate|]. destruct (k2 =? i) eqn:K3.
    + injection E2 as <-. rewrite D in P2. pose proof (apart2 _ _ _ _ _ _ _ _ M Ej Ek P2 P). lia.
    + pose proof (apart2 _ _ _ _ _ _ _ _ M E2 Ek P2 P). lia.
  - apply Z.eqb_eq in KJ. subst k. exists a'. rewrite Z2. replace (i =? j) with false by lia. rewrite Z.eqb_refl. split; [reflexivity|]. rewrite D. congruence.
  - apply inh2_keep. now rewrite Z2, KJ, KI.
Qed.
Theorem step2_heir c h l st op h' l' ob : memory_ok2 h l st -> hstep c (h, l) op = Next (h', l') ob ->
  match ob with
  | Failed _ => l' = l
  | _ => forall k o p, znth l k = Some o -> optr (odat o) = Some p -> inh2 l' o p (heir2 (dims l) op k)
  end.
Proof.
  intros M E.
  assert (W : forall i kk, h2_with (h, l) i kk = Next (h', l') ob -> (exists a, znth l i = Some a /\ kk a = Next (h', l') ob) \/ (znth l i = None /\ l' = l /\ ob = Done)).
  { intros i kk X. unfold h2_with in X. cbn [snd] in X. destruct (znth l i) as [a|] eqn:Ei; [left; eauto|right]. injection X as _ <- <-. auto. }
  assert (PUSH : forall m, h2_push (h, l) m = Next (h', l') ob -> match ob with Failed _ => l' = l | _ => exists t, l' = l ++ [t] end).
  { intros m X. unfold h2_push in X. cbn [fst snd] in X. destruct (m h); try discriminate; injection X as _ <- <-; eauto. }
  assert (PUT : forall i m, h2_put (h, l) i m = Next (h', l') ob -> match ob with Failed _ => l' = l | _ => exists t, m h = HOk t h' /\ l' = zupd l i t end).
  { intros i m X. unfold h2_put in X. cbn [fst snd] in X. destruct (m h); try discriminate; injection X as <- <- <-; eauto. }
  assert (SEE : forall {A} (f : A -> obs V) m, h2_see (h, l) f m = Next (h', l') ob -> l' = l).
  { intros A f m X. unfold h2_see in X. cbn [fst snd] in X. destruct (m h); try discriminate; injection X as _ <- _; auto. }
  assert (LD : zlen (dims l) = zlen l) by apply zlen_map.
  assert (IN : forall i a, znth l i = Some a -> (0 <=? i) && (i <? zlen (dims l)) = true).
  { intros i a Ei. apply znth_lt in Ei. rewrite LD. lia. }
  assert (OUT : forall i, znth l i = None -> (0 <=? i) && (i <? zlen (dims l)) = false).
  { intros i Ei. rewrite LD. destruct ((0 <=? i) && (i <? zlen l)) eqn:Q; [|reflexivity]. destruct (znth_some l i ltac:(lia)) as (x & Hx). congruence. }
  pose (GOAL := match ob with Failed _ => l' = l | _ => forall k o p, znth l k = Some o -> optr (odat o) = Some p -> inh2 l' o p (heir2 (dims l) op k) end). change GOAL.
  assert (SAME : l' = l -> (forall k, heir2 (dims l) op k = Some k) -> GOAL).
  { intros -> HS. unfold GOAL. destruct ob; auto; intros k o p Ek _; rewrite HS; now apply inh2_keep. }
  assert (N1 : forall i k (x : option Z), (if negb (forallb (fun i => (0 <=? i) && (i <? zlen (dims l))) [i]) then Some k else x) = if (0 <=? i) && (i <? zlen (dims l)) then x else Some k).
  { intros i k x. cbn [forallb]. rewrite andb_true_r. now destruct (_ && _). }
  assert (N2 : forall i j k (x : option Z), (if negb (forallb (fun i => (0 <=? i) && (i <? zlen (dims l))) [i; j]) then Some k else x) = if negb ((0 <=? i) && (i <? zlen (dims l)) && ((0 <=? j) && (j <? zlen (dims l)))) then Some k else x).
  { intros i j k x. cbn [forallb]. now rewrite andb_true_r. }
  assert (ONE : forall i m, (forall k, heir2 (dims l) op k = if (0 <=? i) && (i <? zlen (dims l)) then if k =? i then None else Some k else Some k) -> (forall a, fresh2 (m a)) ->
    h2_with (h, l) i (fun a => h2_put (h, l) i (m a)) = Next (h', l') ob -> GOAL).
  { unfold GOAL. intros i m HH FR X. apply W in X. destruct X as [(a & Ei & X)|(Ei & -> & ->)].
    - apply PUT in X. destruct ob; auto; destruct X as (t & Em & ->); intros k o p Ek P; rewrite HH, (IN _ _ Ei); eapply inh2_put; eauto; intros q Q; eapply FR; eauto.
    - intros k o p Ek P. rewrite HH, (OUT _ Ei). now apply inh2_keep. }
  assert (TWO : forall i j m, (forall k, heir2 (dims l) op k = if negb ((0 <=? i) && (i <? zlen (dims l)) && ((0 <=? j) && (j <? zlen (dims l)))) then Some k else if k =? i then None else Some k) -> (forall a b, fresh2 (m a b)) ->
    h2_with (h, l) i (fun a => h2_with (h, l) j (fun b => h2_put (h, l) i (m a b))) = Next (h', l') ob -> GOAL).
  { unfold GOAL. intros i j m HH FR X. apply W in X. destruct X as [(a & Ei & X)|(Ei & -> & ->)].
    - apply W in X. destruct X as [(b & Ej & X)|(Ej & -> & ->)].
      + apply PUT in X. destruct ob; auto; destruct X as (t & Em & ->); intros k o p Ek P; rewrite HH, (IN _ _ Ei), (IN _ _ Ej); cbn [andb negb]; eapply inh2_put; eauto; intros q Q; eapply FR; eauto.
      + intros k o p Ek P. rewrite HH, (OUT _ Ej), andb_false_r. now apply inh2_keep.
    - intros k o p Ek P. rewrite HH, (OUT _ Ei). now apply inh2_keep. }
  assert (NPUSH : forall m, (forall k, heir2 (dims l) op k = Some k) -> h2_push (h, l) m = Next (h', l') ob -> GOAL).
  { unfold GOAL. intros m HS X. apply PUSH in X. destruct ob; auto; destruct X as (t & ->); intros k o p Ek P; rewrite HS; apply inh2_keep; now apply znth_snoc_old. }
  assert (BOTH : forall i j kk, (forall a b, znth l i = Some a -> znth l j = Some b -> kk a b = Next (h', l') ob -> GOAL) -> (forall k, heir2 (dims l) op k = if negb ((0 <=? i) && (i <? zlen (dims l)) && ((0 <=? j) && (j <? zlen (dims l)))) then Some k else heir2 (dims l) op k) ->
    h2_with (h, l) i (fun a => h2_with (h, l) j (kk a)) = Next (h', l') ob -> GOAL).
  { intros i j kk K HH X. apply W in X. destruct X as [(a & Ei & X)|(Ei & -> & ->)]; [apply W in X; destruct X as [(b & Ej & X)|(Ej & -> & ->)]; [exact (K a b Ei Ej X)|]|]; unfold GOAL; intros k o p Ek P; rewrite HH, ?(OUT _ Ei), ?(OUT _ Ej), ?andb_false_r; now apply inh2_keep. }
  assert (HB : forall i j, names2 op = [i; j] -> forall k, heir2 (dims l) op k = if negb ((0 <=? i) && (i <? zlen (dims l)) && ((0 <=? j) && (j <? zlen (dims l)))) then Some k else heir2 (dims l) op k).
  { intros i j NN k. destruct (negb _) eqn:Q; [|reflexivity]. unfold heir2. rewrite NN, N2, Q. reflexivity. }
  Local Ltac keep1 N1 := intros; unfold heir2; cbn [names2]; rewrite N1; now destruct (_ && _).
  destruct op; cbn [hstep2] in E.
  - apply (NPUSH _ (fun k => eq_refl) E).
  - apply (NPUSH _ (fun k => eq_refl) E).
  - apply (NPUSH _ (fun k => eq_refl) E).
  - assert (HS : forall k, heir2 (dims l) (@NewCopy2 V j) k = Some k) by keep1 N1. apply W in E. destruct E as [(a & Ei & E)|(Ei & -> & ->)]; [apply (NPUSH _ HS E)|now apply SAME].
  - apply W in E. unfold GOAL. destruct E as [(a & Ei & E)|(Ei & -> & ->)].
    + cbn [fst snd] in E. injection E as _ <- <-. intros k o p Ek P. unfold heir2. cbn [names2]. rewrite N1, (IN _ _ Ei). pose proof (znth_lt _ _ _ Ei). pose proof (znth_lt _ _ _ Ek). destruct (k =? j) eqn:KJ.
      * apply Z.eqb_eq in KJ. subst k. assert (a = o) by congruence. subst a. apply inh2_keep. rewrite LD. rewrite <- (zlen_zupd l j h2_empty). apply znth_snoc_last.
      * apply inh2_keep. apply znth_snoc_old. rewrite (znth_upd_other l j k _ a Ei) by lia. exact Ek.
    + intros k o p Ek P. unfold heir2. cbn [names2]. rewrite N1, (OUT _ Ei). now apply inh2_keep.
  - assert (HS : forall k, heir2 (dims l) (@SetAll2 V i x) k = Some k) by keep1 N1. apply W in E. destruct E as [(a & Ei & E)|(Ei & -> & ->)]; [apply SEE in E|]; now apply SAME.
  - revert E. apply (ONE i (h2_assign_list zero al c L)); [keep1 N1|]. intros a. apply f2_assign_list.
  - revert E. apply (BOTH i j (fun a b => if i =? j then Next (h, l) Done else h2_done (h, l) (h2_assign_arr c b a))); [|now apply HB]. intros a b Ei Ej X. assert (l' = l) by (destruct (i =? j); [now injection X as _ <- _|now apply SEE in X]). apply SAME; [assumption|]. intros k. unfold heir2. cbn [names2]. rewrite N2. now destruct (negb _).
  - revert E. apply (BOTH i j (fun a b => if i =? j then Next (fst (h, l), zupd (snd (h, l)) i (mkobj2 0 0 (odat a))) Done else
      match h2_move_assign al c a b (fst (h, l)) with HOk a' h => Next (h, zupd (zupd (snd (h, l)) i a') j h2_empty) Done | HFail f h => Next (h, snd (h, l)) (Failed f) | HUB => Crash end)); [|now apply HB].
    intros a b Ei Ej X. cbn [fst snd] in X. unfold GOAL. destruct (i =? j) eqn:IJ.
    + injection X as _ <- <-. intros k o p Ek P. unfold heir2. cbn [names2]. rewrite N2, (IN _ _ Ei), (IN _ _ Ej). cbn [andb negb]. rewrite IJ. destruct (Z.eq_dec k i) as [->|NE].
      * exists (mkobj2 0 0 (odat a)). rewrite (znth_upd_same l i _ a Ei). split; [reflexivity|]. cbn. congruence.
      * apply inh2_keep. now rewrite (znth_upd_other l i k _ a Ei NE).
    + destruct (h2_move_assign al c a b h) as [a' h2| |] eqn:MA; try discriminate; injection X as _ <- <-; [|reflexivity]. intros k o p Ek P. unfold heir2. cbn [names2]. rewrite N2, (IN _ _ Ei), (IN _ _ Ej). cbn [andb negb]. rewrite IJ. eapply inh2_take; eauto.
      unfold h2_move_assign, hbind in MA. destruct (lift _ h) as [x h3| |]; try discriminate. destruct (h_delete al (optr (odat a)) h3) as [x' h4| |]; try discriminate. cbn in MA. now injection MA as <- _.
  - revert E. apply (BOTH i j (fun a b => Next (fst (h, l), zupd (zupd (snd (h, l)) i b) j a) Done)); [|now apply HB]. intros a b Ei Ej X. cbn [fst snd] in X. injection X as _ <- <-. unfold GOAL. intros k o p Ek P. unfold heir2. cbn [names2]. rewrite N2, (IN _ _ Ei), (IN _ _ Ej). cbn [andb negb].
    pose proof (znth_lt _ _ _ Ei). pose proof (znth_lt _ _ _ Ej).
    assert (Z2 : forall q, znth (zupd (zupd l i b) j a) q = if q =? j then Some a else if q =? i then Some b else znth l q) by (intros q; rewrite znth_zupd by (rewrite zlen_zupd; lia); destruct (q =? j); [reflexivity|]; now rewrite znth_zupd by lia).
    destruct (k =? i) eqn:KI; [|destruct (k =? j) eqn:KJ]; apply inh2_keep; rewrite Z2.
    + rewrite Z.eqb_refl. apply Z.eqb_eq in KI. congruence.
    + apply Z.eqb_eq in KJ. subst k. rewrite Z.eqb_refl. destruct (i =? j) eqn:IJ; [lia|]. congruence.
    + now rewrite KJ, KI.
  - apply W in E. unfold GOAL. destruct E as [(a & Ei & E)|(Ei & -> & ->)]; [|intros k o p Ek P; unfold heir2; cbn [names2]; rewrite N1, (OUT _ Ei); now apply inh2_keep].
    assert (SZ : znth (dims l) i = Some (orows a, ocols a)) by now rewrite znth_map, Ei.
    apply PUT in E. destruct ob; auto; destruct E as (t & Em & ->); intros k o p Ek P; unfold heir2; cbn [names2]; rewrite N1, (IN _ _ Ei), SZ;
      (destruct ((m =? orows a) && (n =? ocols a) || negb preserve && (m * n =? orows a * ocols a)) eqn:NA; cbn [negb]; rewrite ?andb_false_r, ?andb_true_r;
        [|eapply inh2_put; eauto; intros q Q; eapply f2_resize; eauto];
       assert (D : odat t = odat a);
       [unfold h2_resize, hbind, lift in Em; destruct (_ ;;; _); try discriminate; cbn [hret] in Em; destruct ((m =? orows a) && (n =? ocols a)); [now injection Em as <- _|]; cbn [orb] in NA; apply andb_prop in NA; destruct NA as [NP NQ]; destruct preserve; [discriminate|];
        unfold lmul, lret in Em; destruct (in_long (m * n)); [|discriminate]; destruct (in_long (orows a * ocols a)); [|discriminate]; cbn [hret] in Em; rewrite NQ in Em; now injection Em as <- _
       |destruct (Z.eq_dec k i) as [->|NE]; [exists t; rewrite (znth_upd_same l i _ a Ei); split; [reflexivity|congruence]|apply inh2_keep; now rewrite (znth_upd_other l i k _ a Ei NE)]]).
  - revert E. apply TWO; [intros k; unfold heir2; cbn [names2]; now rewrite N2|]. intros a b. apply f2_raa.
  - revert E. apply (BOTH i j (fun a b => h2_take al (h, l) i j a b)); [|now apply HB]. intros a b Ei Ej X. unfold h2_take in X. cbn [fst snd] in X. destruct (h_delete al (optr (odat a)) h) as [x h2| |]; try discriminate. injection X as _ <- <-. unfold GOAL. intros k o p Ek P. unfold heir2. cbn [names2]. rewrite N2, (IN _ _ Ei), (IN _ _ Ej). cbn [andb negb]. eapply inh2_take; eauto.
  - revert E. apply (ONE i (h2_remove_rows zero al c pos count)); [keep1 N1|]. intros a. apply f2_remove_rows.
  - revert E. apply (ONE i (h2_remove_cols zero al c pos count)); [keep1 N1|]. intros a. apply f2_remove_cols.
  - revert E. apply (ONE i (h2_remove_rows zero al c pos 1)); [keep1 N1|]. intros a. apply f2_remove_rows.
  - revert E. apply (ONE i (h2_remove_cols zero al c pos 1)); [keep1 N1|]. intros a. apply f2_remove_cols.
  - revert E. apply (ONE i (h2_remove_row_last zero al c k)); [keep1 N1|]. intros a. unfold h2_remove_row_last. apply f2_lift. intros ?. apply f2_remove_rows.
  - revert E. apply (ONE i (h2_remove_col_last zero al c k)); [keep1 N1|]. intros a. unfold h2_remove_col_last. apply f2_lift. intros ?. apply f2_remove_cols.
  - revert E. apply (ONE i (h2_remove_rows zero al c 0 count)); [keep1 N1|]. intros a. apply f2_remove_rows.
  - revert E. apply (ONE i (h2_remove_rows_back zero al c count)); [keep1 N1|]. intros a. unfold h2_remove_rows_back. apply f2_lift. intros ?. apply f2_remove_rows.
  - revert E. apply (ONE i (h2_remove_cols zero al c 0 count)); [keep1 N1|]. intros a. apply f2_remove_cols.
  - revert E. apply (ONE i (h2_remove_cols_back zero al c count)); [keep1 N1|]. intros a. unfold h2_remove_cols_back. apply f2_lift. intros ?. apply f2_remove_cols.
  - destruct v as [|v0 v].
    + apply W in E. destruct E as [(a & Ei & E)|(Ei & -> & ->)]; [unfold h2_put in E; cbn [h2_remove_rows_idx hret fst snd] in E; injection E as _ <- <-; rewrite (zupd_id l i a Ei) in *|]; (apply SAME; [reflexivity|]); intros k; unfold heir2; cbn [names2]; rewrite N1; cbn [negb]; rewrite andb_false_r; now destruct (_ && _).
    + revert E. apply (ONE i (h2_remove_rows_idx zero al c (v0 :: v))); [intros k; unfold heir2; cbn [names2]; rewrite N1; cbn [negb]; rewrite andb_true_r; now destruct (_ && _)|]. intros a. now apply f2_remove_rows_idx.
  - destruct v as [|v0 v].
    + apply W in E. destruct E as [(a & Ei & E)|(Ei & -> & ->)]; [unfold h2_put in E; cbn [h2_remove_cols_idx hret fst snd] in E; injection E as _ <- <-; rewrite (zupd_id l i a Ei) in *|]; (apply SAME; [reflexivity|]); intros k; unfold heir2; cbn [names2]; rewrite N1; cbn [negb]; rewrite andb_false_r; now destruct (_ && _).
    + revert E. apply (ONE i (h2_remove_cols_idx zero al c (v0 :: v))); [intros k; unfold heir2; cbn [names2]; rewrite N1; cbn [negb]; rewrite andb_true_r; now destruct (_ && _)|]. intros a. now apply f2_remove_cols_idx.
  - revert E. apply TWO; [intros k; unfold heir2; cbn [names2]; now rewrite N2|]. intros a b. apply f2_insert_rows, f2_raa.
  - revert E. apply TWO; [intros k; unfold heir2; cbn [names2]; now rewrite N2|]. intros a b. apply f2_insert_cols, f2_raa.
  - revert E. apply TWO; [intros k; unfold heir2; cbn [names2]; now rewrite N2|]. intros a b. apply f2_insert_rows, f2_raa.
  - revert E. apply TWO; [intros k; unfold heir2; cbn [names2]; now rewrite N2|]. intros a b. apply f2_insert_rows, f2_raa.
  - revert E. apply TWO; [intros k; unfold heir2; cbn [names2]; now rewrite N2|]. intros a b. apply f2_insert_cols, f2_raa.
  - revert E. apply TWO; [intros k; unfold heir2; cbn [names2]; now rewrite N2|]. intros a b. apply f2_insert_cols, f2_raa.
  - revert E. apply (ONE i (h2_insert_row zero al c pos l0)); [keep1 N1|]. intros a. apply f2_insert_row.
  - revert E. apply (ONE i (h2_insert_col zero al c pos l0)); [keep1 N1|]. intros a. apply f2_insert_col.
  - revert E. apply (ONE i (h2_insert_row zero al c 0 l0)); [keep1 N1|]. intros a. apply f2_insert_row.
  - revert E. apply (ONE i (fun a => h2_insert_row zero al c (orows a) l0 a)); [keep1 N1|]. intros a. apply f2_insert_row.
  - revert E. apply (ONE i (h2_insert_col zero al c 0 l0)); [keep1 N1|]. intros a. apply f2_insert_col.
  - revert E. apply (ONE i (fun a => h2_insert_col zero al c (ocols a) l0 a)); [keep1 N1|]. intros a. apply f2_insert_col.
  - assert (HS : forall k, heir2 (dims l) (Write2 i ix jx x) k = Some k) by keep1 N1. apply W in E. destruct E as [(a & Ei & E)|(Ei & -> & ->)]; [apply SEE in E|]; now apply SAME.
  - assert (HS : forall k, heir2 (dims l) (@Read2 V i ix jx) k = Some k) by keep1 N1. apply W in E. destruct E as [(a & Ei & E)|(Ei & -> & ->)]; [apply SEE in E|]; now apply SAME.
  - assert (HS : forall k, heir2 (dims l) (@Rows2 V i) k = Some k) by keep1 N1. apply W in E. destruct E as [(a & Ei & E)|(Ei & -> & ->)]; [injection E as _ <- _|]; now apply SAME.
  - assert (HS : forall k, heir2 (dims l) (@Cols2 V i) k = Some k) by keep1 N1. apply W in E. destruct E as [(a & Ei & E)|(Ei & -> & ->)]; [injection E as _ <- _|]; now apply SAME.
  - assert (HS : forall k, heir2 (dims l) (@Size2 V i) k = Some k) by keep1 N1. apply W in E. destruct E as [(a & Ei & E)|(Ei & -> & ->)]; [injection E as _ <- _|]; now apply SAME.
Qed.

(** ** A freed block stays freed *)
Section DEAD2.
Context (fr : bool) (p : Z).
Notation kdd := (keeps_dead (V := V) fr p).
Ltac kd := repeat first [match goal with |- forall _, _ => intros ? end | assumption | match goal with H : forall i j, keeps_dead _ _ _ |- _ => apply H end | match goal with H : forall i, keeps_dead _ _ _ |- _ => apply H end
  | apply kd_build | apply kd_copyn | apply kd_fill | apply kd_for | apply kd_lift | apply kd_load | apply kd_store | apply kd_delete | apply kd_new | apply kd_unwind | apply kd_ret | apply kd_bind].
Lemma kd2_load o i j : kdd (h2_load o i j). Proof. unfold h2_load. kd. Qed.
Lemma kd2_store o i j v : kdd (h2_store o i j v). Proof. unfold h2_store. kd. Qed.
Lemma kd2_new c m n : kdd (h2_new zero al c m n). Proof. unfold h2_new. kd. Qed.
Lemma kd2_build c m n body : (forall t, kdd (body t)) -> kdd (h2_build zero al c m n body).
Proof. intros B. unfold h2_build. apply kd_bind; [apply kd2_new|]. intros t. kd. Qed.
Lemma kd2_replace o t : kdd (h2_replace al o t). Proof. unfold h2_replace. kd. Qed.
Lemma kd2_count lo hi body : (forall i q, kdd (body i q)) -> kdd (hfor_count lo hi body).
Proof.
  intros B. unfold hfor_count. generalize (Z.to_nat (hi - lo)) 0. intros n. revert lo. induction n as [|n IH]; intros lo q; cbn [hfor_count_loop]; [apply kd_ret|]. apply kd_bind; auto.
Qed.
Lemma kd2_list_row t l : forall r q, kdd (h2_copy_list_row t r q l).
Proof. induction l as [|x l IH]; intros r q; cbn [h2_copy_list_row]; [apply kd_ret|]. apply kd_bind; [apply kd2_store|]. intros _. apply IH. Qed.
Lemma kd2_list t L : forall r, kdd (h2_copy_list t r L).
Proof. induction L as [|l L IH]; intros r; cbn [h2_copy_list]; [apply kd_ret|]. apply kd_bind; [apply kd2_list_row|]. intros _. apply IH. Qed.
Ltac kd2 := repeat first [match goal with |- forall _, _ => intros ? end | assumption | apply kd2_load | apply kd2_store | apply kd2_build | apply kd2_new | apply kd2_replace | apply kd2_count | apply kd2_list
  | match goal with |- keeps_dead _ _ (if ?b then _ else _) => destruct b end | match goal with H : forall i j, keeps_dead _ _ _ |- _ => apply H end | match goal with H : forall i, keeps_dead _ _ _ |- _ => apply H end
  | apply kd_copyn | apply kd_fill | apply kd_for | apply kd_lift | apply kd_load | apply kd_store | apply kd_delete | apply kd_new | apply kd_unwind | apply kd_ret | apply kd_bind].
Lemma kd2_copy m n r t : (forall i j, kdd (r i j)) -> kdd (h2_copy m n r t). Proof. intros R. unfold h2_copy. kd2. Qed.
Lemma kd2_copy_rows q r t a b n : (forall i j, kdd (r i j)) -> kdd (h2_copy_rows q r t a b n). Proof. intros R. unfold h2_copy_rows. kd2. Qed.
Lemma kd2_copy_cols q r t a b n : (forall i j, kdd (r i j)) -> kdd (h2_copy_cols q r t a b n). Proof. intros R. unfold h2_copy_cols. kd2. Qed.
Ltac kd3 := repeat first [match goal with |- forall _, _ => intros ? end | apply kd2_copy | apply kd2_copy_rows | apply kd2_copy_cols | progress kd2].
Lemma kd2_resize c m n pr o : kdd (h2_resize zero al c m n pr o). Proof. unfold h2_resize. kd3. Qed.
Lemma kd2_of_list c L : kdd (h2_of_list zero al c L). Proof. unfold h2_of_list. kd3. Qed.
Lemma kd2_move_assign c o s : kdd (h2_move_assign al c o s). Proof. unfold h2_move_assign. kd3. Qed.
Lemma kd2_assign_list c L o : kdd (h2_assign_list zero al c L o).
Proof. unfold h2_assign_list. apply kd_bind; [apply kd2_of_list|]. intros t. apply kd_bind; [kd3|]. intros _. apply kd2_move_assign. Qed.
Lemma kd2_raa c b o : kdd (h2_resize_and_assign_arr zero al c b o). Proof. unfold h2_resize_and_assign_arr, h2_of_arr. kd3. Qed.
Lemma kd2_remove_rows c a b o : kdd (h2_remove_rows zero al c a b o). Proof. unfold h2_remove_rows. kd3. Qed.
Lemma kd2_remove_cols c a b o : kdd (h2_remove_cols zero al c a b o). Proof. unfold h2_remove_cols. kd3. Qed.
Lemma kd2_remove_rows_idx c v o : kdd (h2_remove_rows_idx zero al c v o). Proof. unfold h2_remove_rows_idx. destruct v; kd3. Qed.
Lemma kd2_remove_cols_idx c v o : kdd (h2_remove_cols_idx zero al c v o). Proof. unfold h2_remove_cols_idx. destruct v; kd3. Qed.
Lemma kd2_insert_rows c f a m n r o : kdd f -> (forall i j, kdd (r i j)) -> kdd (h2_insert_rows zero al c f a m n r o). Proof. intros F R. unfold h2_insert_rows. kd3. Qed.
Lemma kd2_insert_cols c f a m n r o : kdd f -> (forall i j, kdd (r i j)) -> kdd (h2_insert_cols zero al c f a m n r o). Proof. intros F R. unfold h2_insert_cols. kd3. Qed.
Lemma kd2_insert_row c a l o : kdd (h2_insert_row zero al c a l o).
Proof. unfold h2_insert_row. apply kd_bind; [apply kd_lift|]. intros _. destruct (_ && _); [apply kd_bind; [apply kd2_resize|]; kd3|kd3]. Qed.
Lemma kd2_insert_col c a l o : kdd (h2_insert_col zero al c a l o).
Proof. unfold h2_insert_col. apply kd_bind; [apply kd_lift|]. intros _. destruct (_ && _); [apply kd_bind; [apply kd2_resize|]; kd3|kd3]. Qed.
Lemma dead2_step c h l op h' l' ob : hstep c (h, l) op = Next (h', l') ob -> dead fr p h -> dead fr p h'.
Proof.
  intros E D.
  assert (W : forall i kk, h2_with (h, l) i kk = Next (h', l') ob -> (forall a, kk a = Next (h', l') ob -> dead fr p h') -> dead fr p h').
  { intros i kk X K. unfold h2_with in X. cbn [snd] in X. destruct (znth l i) as [a|]; [eauto|]. now injection X as <- _ _. }
  assert (PUSH : forall m, kdd m -> h2_push (h, l) m = Next (h', l') ob -> dead fr p h').
  { intros m K X. specialize (K h D). unfold h2_push in X. cbn [fst snd] in X. destruct (m h); try discriminate; now injection X as <- _ _. }
  assert (PUT : forall i m, kdd m -> h2_put (h, l) i m = Next (h', l') ob -> dead fr p h').
  { intros i m K X. specialize (K h D). unfold h2_put in X. cbn [fst snd] in X. destruct (m h); try discriminate; now injection X as <- _ _. }
  assert (SEE : forall {A} (f : A -> obs V) m, kdd m -> h2_see (h, l) f m = Next (h', l') ob -> dead fr p h').
  { intros A f m K X. specialize (K h D). unfold h2_see in X. cbn [fst snd] in X. destruct (m h); try discriminate; now injection X as <- _ _. }
  assert (ONE : forall i m, (forall a, kdd (m a)) -> h2_with (h, l) i (fun a => h2_put (h, l) i (m a)) = Next (h', l') ob -> dead fr p h').
  { intros i m K X. apply (W _ _ X). intros a. now apply PUT. }
  assert (TWO : forall i j m, (forall a b, kdd (m a b)) -> h2_with (h, l) i (fun a => h2_with (h, l) j (fun b => h2_put (h, l) i (m a b))) = Next (h', l') ob -> dead fr p h').
  { intros i j m K X. apply (W _ _ X). intros a Y. apply (W _ _ Y). intros b. now apply PUT. }
  destruct op; cbn [hstep2] in E.
  - revert E. apply PUSH, kd2_new.
  - revert E. apply PUSH. unfold h2_new_fill. kd3.
  - revert E. apply PUSH, kd2_of_list.
  - apply (W _ _ E). intros a X. revert X. apply PUSH. unfold h2_copy_of. apply kd_bind; [apply kd_of_src; kd|]. kd.
  - apply (W _ _ E). intros a X. now injection X as <- _ _.
  - apply (W _ _ E). intros a X. revert X. apply SEE. kd.
  - revert E. apply (ONE i (h2_assign_list zero al c L)). intros a. apply kd2_assign_list.
  - apply (W _ _ E). intros a X. apply (W _ _ X). intros b Y. destruct (i =? j); [now injection Y as <- _ _|]. revert Y. apply SEE. unfold h2_assign_arr, h_assign. kd.
  - apply (W _ _ E). intros a X. apply (W _ _ X). intros b Y. destruct (i =? j); [now injection Y as <- _ _|]. cbn [fst snd] in Y. pose proof (kd2_move_assign c a b h D) as K. destruct (h2_move_assign al c a b h); try discriminate; now injection Y as <- _ _.
  - apply (W _ _ E). intros a X. apply (W _ _ X). intros b Y. now injection Y as <- _ _.
  - revert E. apply (ONE i (h2_resize zero al c m n preserve)). intros a. apply kd2_resize.
  - revert E. apply TWO. intros a b. apply kd2_raa.
  - apply (W _ _ E). intros a X. apply (W _ _ X). intros b Y. unfold h2_take in Y. cbn [fst snd] in Y. pose proof (kd_delete al fr p (optr (odat a)) h D) as K. destruct (h_delete al (optr (odat a)) h); try discriminate. now injection Y as <- _ _.
  - revert E. apply (ONE i (h2_remove_rows zero al c pos count)). intros a. apply kd2_remove_rows.
  - revert E. apply (ONE i (h2_remove_cols zero al c pos count)). intros a. apply kd2_remove_cols.
  - revert E. apply (ONE i (h2_remove_rows zero al c pos 1)). intros a. apply kd2_remove_rows.
  - revert E. apply (ONE i (h2_remove_cols zero al c pos 1)). intros a. apply kd2_remove_cols.
  - revert E. apply (ONE i (h2_remove_row_last zero al c k)). intros a. unfold h2_remove_row_last. apply kd_bind; [apply kd_lift|]. intros ?. apply kd2_remove_rows.
  - revert E. apply (ONE i (h2_remove_col_last zero al c k)). intros a. unfold h2_remove_col_last. apply kd_bind; [apply kd_lift|]. intros ?. apply kd2_remove_cols.
  - revert E. apply (ONE i (h2_remove_rows zero al c 0 count)). intros a. apply kd2_remove_rows.
  - revert E. apply (ONE i (h2_remove_rows_back zero al c count)). intros a. unfold h2_remove_rows_back. apply kd_bind; [apply kd_lift|]. intros ?. apply kd2_remove_rows.
  - revert E. apply (ONE i (h2_remove_cols zero al c 0 count)). intros a. apply kd2_remove_cols.
  - revert E. apply (ONE i (h2_remove_cols_back zero al c count)). intros a. unfold h2_remove_cols_back. apply kd_bind; [apply kd_lift|]. intros ?. apply kd2_remove_cols.
  - revert E. apply (ONE i (h2_remove_rows_idx zero al c v)). intros a. apply kd2_remove_rows_idx.
  - revert E. apply (ONE i (h2_remove_cols_idx zero al c v)). intros a. apply kd2_remove_cols_idx.
  - revert E. apply TWO. intros a b. apply kd2_insert_rows; [apply kd2_raa|kd2].
  - revert E. apply TWO. intros a b. apply kd2_insert_cols; [apply kd2_raa|kd2].
  - revert E. apply TWO. intros a b. apply kd2_insert_rows; [apply kd2_raa|kd2].
  - revert E. apply TWO. intros a b. apply kd2_insert_rows; [apply kd2_raa|kd2].
  - revert E. apply TWO. intros a b. apply kd2_insert_cols; [apply kd2_raa|kd2].
  - revert E. apply TWO. intros a b. apply kd2_insert_cols; [apply kd2_raa|kd2].
  - revert E. apply (ONE i (h2_insert_row zero al c pos l0)). intros a. apply kd2_insert_row.
  - revert E. apply (ONE i (h2_insert_col zero al c pos l0)). intros a. apply kd2_insert_col.
  - revert E. apply (ONE i (h2_insert_row zero al c 0 l0)). intros a. apply kd2_insert_row.
  - revert E. apply (ONE i (fun a => h2_insert_row zero al c (orows a) l0 a)). intros a. apply kd2_insert_row.
  - revert E. apply (ONE i (h2_insert_col zero al c 0 l0)). intros a. apply kd2_insert_col.
  - revert E. apply (ONE i (fun a => h2_insert_col zero al c (ocols a) l0 a)). intros a. apply kd2_insert_col.
  - apply (W _ _ E). intros a X. revert X. apply SEE. unfold h2_write. kd2.
  - apply (W _ _ E). intros a X. revert X. apply SEE. unfold h2_read. kd2.
  - apply (W _ _ E). intros a X. now injection X as <- _ _.
  - apply (W _ _ E). intros a X. now injection X as <- _ _.
  - apply (W _ _ E). intros a X. now injection X as <- _ _.
Qed.
Lemma dead2_run c ops : forall h l h' l' ob, fst (run (hstep c) (h, l) ops) = Next (h', l') ob -> dead fr p h -> dead fr p h'.
Proof.
  induction ops as [|o ops IH]; intros h l h' l' ob E D; cbn [run] in E.
  - cbn in E. now injection E as <- _ _.
  - destruct (hstep c (h, l) o) as [[h1 l1] ob1|] eqn:S; [|discriminate]. pose proof (dead2_step _ _ _ _ _ _ _ S D) as D1.
    assert (G : forall x, fst (let (r, t) := run (hstep c) (h1, l1) ops in (r, x :: t)) = Next (h', l') ob -> dead fr p h').
    { intros x X. destruct (run (hstep c) (h1, l1) ops) as [r t] eqn:R. cbn in X. subst r. eapply (IH h1 l1); [now rewrite R|exact D1]. }
    destruct ob1; try (now apply (G _ E)). destruct (fatal f); [|now apply (G _ E)]. cbn in E. now injection E as <- _ _.
Qed.
End DEAD2.

(** ** Along a program *)
Lemma step2_memory c h l st op h' l' ob : memory_ok2 h l st -> hstep c (h, l) op = Next (h', l') ob -> (forall f, ob = Failed f -> fatal f = false) -> exists st', memory_ok2 h' l' st'.
Proof.
  intros M E NF. pose proof (step2_agrees zero al c h l st op M) as A. unfold agrees2 in A. destruct (step2 zero c st op) as [st' ob'|].
  - destruct A as (h1 & l1 & E1 & _ & F). pose proof (eq_trans (eq_sym E) E1) as X. injection X as <- <- <-. exists st'. auto.
  - pose proof (eq_trans (eq_sym E) A) as X. discriminate.
Qed.
Theorem run2_follow c ops : forall h l st h' l', memory_ok2 h l st -> fst (run (hstep c) (h, l) ops) = Next (h', l') Done ->
  forall k o p, znth l k = Some o -> optr (odat o) = Some p ->
  match follow2 (hstep c) (h, l) ops k with Some k' => exists o', znth l' k' = Some o' /\ odat o' = odat o | None => lk h' p = None end.
Proof.
  induction ops as [|op ops IH]; intros h l st h' l' M E k o p Ek P; cbn [run follow2] in *.
  - cbn in E. injection E as <- <-. eauto.
  - destruct (hstep c (h, l) op) as [[h1 l1] ob|] eqn:S; [|discriminate]. pose proof (step2_heir c h l st op h1 l1 ob M S) as HH.
    assert (R : fst (run (hstep c) (h1, l1) ops) = Next (h', l') Done /\ forall f, ob = Failed f -> fatal f = false).
    { destruct ob as [| | |f]; [| | |destruct (fatal f) eqn:F; [cbn in E; discriminate|]]; destruct (run (hstep c) (h1, l1) ops) as [r t]; cbn in E |- *; (split; [exact E|congruence]). }
    destruct R as [R NF]. destruct (step2_memory c h l st op h1 l1 ob M S NF) as (st1 & M1). pose proof (live2 _ _ _ _ _ _ M Ek P) as PB.
    assert (NEXT : (match ob with Failed _ => False | _ => True end) -> match match heir2 (dims l) op k with Some k' => follow2 (hstep c) (h1, l1) ops k' | None => None end with Some k' => exists o', znth l' k' = Some o' /\ odat o' = odat o | None => lk h' p = None end).
    { intros OK. assert (HK : inh2 l1 o p (heir2 (dims l) op k)) by (destruct ob; try contradiction; now apply HH). destruct (heir2 (dims l) op k) as [k1|].
      - destruct HK as (o1 & E1 & Q1). rewrite <- Q1. apply (IH h1 l1 st1 h' l' M1 R k1 o1 p E1). congruence.
      - assert (D : dead true p h1).
        { split; [exact (proj1 (dead2_step false p c h l op h1 l1 _ S (conj PB (fun F : false = true => False_ind _ (Bool.diff_false_true F)))))|]. intros _. destruct (lk h1 p) as [b|] eqn:B; [|reflexivity]. destruct (proj2 (proj2 M1) p b B) as (i2 & d2 & E2 & P2).
          rewrite znth_map in E2. destruct (znth l1 i2) as [o2|] eqn:E3; [|discriminate]. cbn in E2. injection E2 as <-. now destruct (HK i2 o2 E3). }
        now apply (dead2_run true p c ops h1 l1 h' l' Done R D). }
    destruct ob as [| | |f]; cbn [snd]; try (now apply NEXT). subst l1. now apply (IH h1 l st1 h' l' M1 R k o p).
Qed.
Lemma start2_memory c ops h l : fst (run (hstep c) ([], []) ops) = Next (h, l) Done -> exists st, memory_ok2 h l st.
Proof.
  intros E. destruct (run2_agrees zero al c ops [] [] [] (memory2_start al)) as [_ B]. destruct (fst (run (step2 zero c) [] ops)) as [st ob|].
  - destruct B as (h' & l' & E' & H & M). pose proof (eq_trans (eq_sym E) E') as X. injection X as <- <- <-. exists st. now apply M.
  - pose proof (eq_trans (eq_sym E) B) as X. discriminate.
Qed.
Theorem follow2_thm c ops1 ops2 h1 l1 h2 l2 : fst (run (hstep c) ([], []) ops1) = Next (h1, l1) Done -> fst (run (hstep c) (h1, l1) ops2) = Next (h2, l2) Done ->
  forall k o p, znth l1 k = Some o -> h2_data o = Some p ->
  match follow2 (hstep c) (h1, l1) ops2 k with Some k' => exists o', znth l2 k' = Some o' /\ h2_data o' = Some p /\ on (odat o') = on (odat o) | None => forall i v, raw_load p i h2 = HUB /\ raw_store p i v h2 = HUB end.
Proof.
  intros E1 E2 k o p Ek P. destruct (start2_memory c ops1 h1 l1 E1) as (st & M). assert (P' : optr (odat o) = Some p) by (unfold h2_data, h_data in P; destruct (negb _); congruence).
  pose proof (run2_follow c ops2 h1 l1 st h2 l2 M E2 k o p Ek P') as F. destruct (follow2 (hstep c) (h1, l1) ops2 k) as [k'|].
  - destruct F as (o' & E' & Q). exists o'. unfold h2_data in *. rewrite Q. auto.
  - intros i v. unfold raw_load, raw_store. now rewrite F.
Qed.
Theorem list2_moves_thm c ops h l h' l' k L : fst (run (hstep c) ([], []) ops) = Next (h, l) Done -> hstep c (h, l) (AssignList2 k L) = Next (h', l') Done ->
  forall o p, znth l k = Some o -> h2_data o = Some p -> forall i v, raw_load p i h' = HUB /\ raw_store p i v h' = HUB.
Proof.
  intros E S o p Ek P. assert (R : fst (run (hstep c) (h, l) [AssignList2 k L]) = Next (h', l') Done) by (cbn [run]; rewrite S; reflexivity).
  pose proof (follow2_thm c ops [AssignList2 k L] h l h' l' E R k o p Ek P) as F. cbn [follow2] in F. rewrite S in F. pose proof (znth_lt _ _ _ Ek) as B. unfold heir2 in F. cbn [names2 forallb snd] in F. rewrite zlen_map, andb_true_r in F.
  replace ((0 <=? k) && (k <? zlen l)) with true in F by lia. cbn [negb] in F. now rewrite Z.eqb_refl in F.
Qed.
End PM.
