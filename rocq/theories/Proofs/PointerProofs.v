(** Pointers to the elements of arrays. *)
From Verif Require Import Base.Outcome Base.ZList Model.IntModel Model.ScalarOps Model.Index Model.Slice Model.Array1D Model.Store1D Model.Heap Model.Handoff.
From Verif Require Import Model.Array2D Model.Store2D Model.Heap2D Spec.MatrixSpec Spec.Store2DSpec Spec.Heap2DSpec.
From Verif Require Import Spec.ArraySpec Spec.Store1DSpec Spec.HeapSpec Spec.PointerSpec Proofs.Store1DProofs Proofs.HeapProofs Proofs.MatrixProofs Proofs.Heap2DProofs.

Section PP.
Context {V : Type} (zero : V) (al : Z).
Notation heap := (heap (V := V)).
Notation hm := (hm (V := V)).
Notation memory_ok := (memory_ok al).
Notation hstep := (hstep1 zero al).
Notation "x <-- m ;; k" := (hbind m (fun x => k)) (at level 61, m at next level, right associativity).

(** ** New blocks are new *)
Definition grows {A} (m : hm A) : Prop := forall h a h', m h = HOk a h' -> zlen h <= zlen h'.
Definition fresh_obj (m : hm hobj) : Prop := forall h t h', m h = HOk t h' -> forall p, optr t = Some p -> zlen h <= p.
Lemma fresh_lift {A} (x : outcome A) k : (forall y, fresh_obj (k y)) -> fresh_obj (y <-- lift x ;; k y).
Proof. intros K h t h' E. unfold hbind, lift in E. destruct x; try discriminate. eapply K; eauto. Qed.
Lemma fresh_build c n body : fresh_obj (h_build zero al c n body).
Proof.
  intros h t h' E p P. unfold h_build, h_new, hbind, lift in E. destruct (check_debug c _); try discriminate. destruct (n =? 0).
  - cbn [hret] in E. destruct (unwind _ _ _) as [[] h2| |]; cbn in E; try discriminate. injection E as <- _. discriminate.
  - unfold h_alloc in E. destruct (alloc zero c n) as [b| |]; try discriminate. cbn [hret] in E. destruct (unwind _ _ _) as [[] h2| |]; cbn in E; try discriminate. injection E as <- _. cbn in P. injection P as <-. lia.
Qed.
Lemma fresh_replace (m : hm hobj) o : fresh_obj m -> fresh_obj (t <-- m ;; h_replace al o t).
Proof.
  intros F h t h' E. unfold hbind in E. destruct (m h) as [t1 h1| |] eqn:M; try discriminate. unfold h_replace, hbind in E. destruct (h_delete al (optr o) h1) as [[] h2| |]; cbn in E; try discriminate. injection E as <- _. eapply F; eauto.
Qed.
Lemma fresh_remove c p k o : fresh_obj (h_remove zero al c p k o).
Proof. unfold h_remove. do 4 (apply fresh_lift; intros ?). apply fresh_replace, fresh_build. Qed.
Lemma fresh_insert c p x o : fresh_obj (h_insert zero al c p x o).
Proof. unfold h_insert. do 2 (apply fresh_lift; intros ?). apply fresh_replace, fresh_build. Qed.
Lemma fresh_insert_src c p n r o : fresh_obj (h_insert_src zero al c p n r o).
Proof. unfold h_insert_src. do 2 (apply fresh_lift; intros ?). apply fresh_replace, fresh_build. Qed.
Lemma fresh_raa c n r o : fresh_obj (h_resize_and_assign zero al c n r o).
Proof. unfold h_resize_and_assign. apply fresh_replace, fresh_build. Qed.
Lemma fresh_resize c n pr o : n <> on o -> fresh_obj (h_resize zero al c n pr o).
Proof. intros N. unfold h_resize. apply fresh_lift. intros _. replace (n =? on o) with false by lia. apply fresh_replace, fresh_build. Qed.
Lemma fresh_rem_idx c v o : v <> [] -> fresh_obj (h_remove_indexes zero al c v o).
Proof. intros N. unfold h_remove_indexes. destruct v; [congruence|]. apply fresh_lift. intros ?. apply fresh_replace, fresh_build. Qed.

(** ** One operation *)
Definition inherits (l l' : list hobj) (k : Z) (o : hobj) (p : Z) (r : option Z) : Prop :=
  match r with Some k' => znth l' k' = Some o | None => forall k2 o2, znth l' k2 = Some o2 -> optr o2 <> Some p end.
Lemma inh_same l k o p : znth l k = Some o -> inherits l l k o p (Some k). Proof. auto. Qed.
Lemma inh_push l t k o p : znth l k = Some o -> inherits l (l ++ [t]) k o p (Some k).
Proof. intros E. cbn. now apply znth_snoc_old. Qed.
Lemma inh_put (h : heap) l st i a t k o p : memory_ok h l st -> znth l i = Some a -> znth l k = Some o -> optr o = Some p -> (forall q, optr t = Some q -> zlen h <= q) ->
  inherits l (zupd l i t) k o p (if k =? i then None else Some k).
Proof.
  intros (H & U & N) Ei Ek P F. destruct (k =? i) eqn:KI; cbn.
  - apply Z.eqb_eq in KI. subst k. intros k2 o2 E2 P2. destruct (Z.eq_dec k2 i) as [->|NE].
    + rewrite (znth_upd_same l i t a Ei) in E2. injection E2 as <-. specialize (F p P2). destruct (st_of _ _ _ _ _ _ H Ek) as (a0 & _ & R). apply (repr_live al) with (p := p) in R; [|exact P]. apply lk_range in R. lia.
    + rewrite (znth_upd_other l i k2 t a Ei NE) in E2. apply NE. eapply U; eauto.
  - apply Z.eqb_neq in KI. now rewrite (znth_upd_other l i k t a Ei KI).
Qed.
Lemma named_in sz (l : list Z) : forallb (fun i => (0 <=? i) && (i <? sz)) l = true <-> forall i, In i l -> 0 <= i < sz.
Proof. rewrite forallb_forall. split; intros H i I; specialize (H i I); lia. Qed.
Theorem step_heir c h l st op h' l' ob : memory_ok h l st -> hstep c (h, l) op = Next (h', l') ob ->
  match ob with
  | Failed _ => l' = l
  | _ => forall k o p, znth l k = Some o -> optr o = Some p -> inherits l l' k o p (heir (map on l) op k)
  end.
Proof.
  intros M E.
  assert (W : forall i kk, h_with (h, l) i kk = Next (h', l') ob -> (exists a, znth l i = Some a /\ kk a = Next (h', l') ob) \/ (znth l i = None /\ l' = l /\ ob = Done)).
  { intros i kk X. unfold h_with in X. cbn [snd] in X. destruct (znth l i) as [a|] eqn:Ei; [left; eauto|right]. injection X as _ <- <-. auto. }
  assert (PUSH : forall m, h_push (h, l) m = Next (h', l') ob -> match ob with Failed _ => l' = l | _ => exists t, l' = l ++ [t] end).
  { intros m X. unfold h_push in X. cbn [fst snd] in X. destruct (m h); try discriminate; injection X as _ <- <-; eauto. }
  assert (PUT : forall i m, h_put (h, l) i m = Next (h', l') ob -> match ob with Failed _ => l' = l | _ => exists t, m h = HOk t h' /\ l' = zupd l i t end).
  { intros i m X. unfold h_put in X. cbn [fst snd] in X. destruct (m h); try discriminate; injection X as <- <- <-; eauto. }
  assert (SEE : forall {A} (f : A -> obs V) m, h_see (h, l) f m = Next (h', l') ob -> l' = l).
  { intros A f m X. unfold h_see in X. cbn [fst snd] in X. destruct (m h); try discriminate; injection X as _ <- _; auto. }
  assert (IN : forall i a, znth l i = Some a -> (0 <=? i) && (i <? zlen (map on l)) = true).
  { intros i a Ei. apply znth_lt in Ei. rewrite zlen_map. lia. }
  assert (OUT : forall i, znth l i = None -> (0 <=? i) && (i <? zlen (map on l)) = false).
  { intros i Ei. rewrite zlen_map. destruct ((0 <=? i) && (i <? zlen l)) eqn:Q; [|reflexivity]. destruct (znth_some l i ltac:(lia)) as (x & Hx). congruence. }
  assert (SAME : l' = l -> (forall k, heir (map on l) op k = Some k) -> match ob with Failed _ => l' = l | _ => forall k o p, znth l k = Some o -> optr o = Some p -> inherits l l' k o p (heir (map on l) op k) end).
  { intros -> HS. destruct ob; auto; intros k o p Ek _; rewrite HS; now apply inh_same. }
  assert (ONE : forall i m, (forall k, heir (map on l) op k = if (0 <=? i) && (i <? zlen (map on l)) && (k =? i) then None else Some k) -> (forall a, fresh_obj (m a)) ->
    h_with (h, l) i (fun a => h_put (h, l) i (m a)) = Next (h', l') ob -> match ob with Failed _ => l' = l | _ => forall k o p, znth l k = Some o -> optr o = Some p -> inherits l l' k o p (heir (map on l) op k) end).
  { intros i m HH FR X. apply W in X. destruct X as [(a & Ei & X)|(Ei & -> & ->)].
    - apply PUT in X. destruct ob; auto; destruct X as (t & Em & ->); intros k o p Ek P; rewrite HH, (IN _ _ Ei); cbn [andb]; eapply inh_put; eauto; intros q Q; eapply FR; eauto.
    - intros k o p Ek P. rewrite HH, (OUT _ Ei). now apply inh_same. }
  assert (TWO : forall i j m, (forall k, heir (map on l) op k = if negb ((0 <=? i) && (i <? zlen (map on l)) && ((0 <=? j) && (j <? zlen (map on l)))) then Some k else if k =? i then None else Some k) -> (forall a b, fresh_obj (m a b)) ->
    h_with (h, l) i (fun a => h_with (h, l) j (fun b => h_put (h, l) i (m a b))) = Next (h', l') ob -> match ob with Failed _ => l' = l | _ => forall k o p, znth l k = Some o -> optr o = Some p -> inherits l l' k o p (heir (map on l) op k) end).
  { intros i j m HH FR X. apply W in X. destruct X as [(a & Ei & X)|(Ei & -> & ->)].
    - apply W in X. destruct X as [(b & Ej & X)|(Ej & -> & ->)].
      + apply PUT in X. destruct ob; auto; destruct X as (t & Em & ->); intros k o p Ek P; rewrite HH, (IN _ _ Ei), (IN _ _ Ej); cbn [andb negb]; eapply inh_put; eauto; intros q Q; eapply FR; eauto.
      + intros k o p Ek P. rewrite HH, (OUT _ Ej), andb_false_r. now apply inh_same.
    - intros k o p Ek P. rewrite HH, (OUT _ Ei). now apply inh_same. }
  assert (NPUSH : forall m, (forall k, heir (map on l) op k = Some k) -> h_push (h, l) m = Next (h', l') ob -> match ob with Failed _ => l' = l | _ => forall k o p, znth l k = Some o -> optr o = Some p -> inherits l l' k o p (heir (map on l) op k) end).
  { intros m HS X. apply PUSH in X. destruct ob; auto; destruct X as (t & ->); intros k o p Ek P; rewrite HS; now apply inh_push. }
  assert (SWAPZ : forall i j oi oj k, znth l i = Some oi -> znth l j = Some oj -> znth (zupd (zupd l i oj) j oi) k = znth l (if k =? j then i else if k =? i then j else k)).
  { intros i j oi oj k Ei Ej. pose proof (znth_lt _ _ _ Ei). pose proof (znth_lt _ _ _ Ej). rewrite znth_zupd by (rewrite zlen_zupd; lia). destruct (k =? j); [now rewrite Ei|]. rewrite znth_zupd by lia. destruct (k =? i); [now rewrite Ej|reflexivity]. }
  assert (TAKE : forall i j oi oj, znth l i = Some oi -> znth l j = Some oj -> h_clear al (h, h_swap l i j) j = Next (h', l') ob -> ob = Done /\
     forall k o p, znth l k = Some o -> optr o = Some p -> inherits l l' k o p (if k =? i then None else if k =? j then Some i else Some k)).
  { intros i j oi oj Ei Ej X. rewrite (swap_is l i j oi oj Ei Ej) in X. unfold h_clear, h_with in X. cbn [fst snd] in X. rewrite (SWAPZ i j oi oj j Ei Ej), Z.eqb_refl, Ei in X.
    destruct (h_delete al (optr oi) h) as [[] h2| |]; try discriminate. injection X as _ <- <-. split; [reflexivity|]. intros k o p Ek P.
    assert (ZK : forall q, znth (zupd (zupd (zupd l i oj) j oi) j h_empty) q = if q =? j then Some h_empty else znth (zupd (zupd l i oj) j oi) q).
    { intros q. pose proof (znth_lt _ _ _ Ej). rewrite znth_zupd by (rewrite !zlen_zupd; lia). reflexivity. }
    destruct M as (H & U & N). destruct (k =? i) eqn:KI.
    - apply Z.eqb_eq in KI. subst k. assert (o = oi) by congruence. subst o. cbn. intros k2 o2 E2 P2. rewrite ZK in E2. destruct (k2 =? j) eqn:KJ; [injection E2 as <-; discriminate|]. rewrite (SWAPZ i j oi oj k2 Ei Ej), KJ in E2.
      destruct (k2 =? i) eqn:K2; pose proof (U _ _ _ _ _ E2 Ei P2 P); lia.
    - destruct (k =? j) eqn:KJ; cbn; rewrite ZK.
      + apply Z.eqb_eq in KJ. subst k. replace (i =? j) with false by lia. rewrite (SWAPZ i j oi oj i Ei Ej), Z.eqb_refl. replace (i =? j) with false by lia. exact Ek.
      + rewrite KJ, (SWAPZ i j oi oj k Ei Ej), KJ, KI. exact Ek. }
  assert (N1 : forall i k (x : option Z), (if negb (forallb (fun i => (0 <=? i) && (i <? zlen (map on l))) [i]) then Some k else x) = if (0 <=? i) && (i <? zlen (map on l)) then x else Some k).
  { intros i k x. cbn [forallb]. rewrite andb_true_r. now destruct (_ && _). }
  assert (N2 : forall i j k (x : option Z), (if negb (forallb (fun i => (0 <=? i) && (i <? zlen (map on l))) [i; j]) then Some k else x) = if negb ((0 <=? i) && (i <? zlen (map on l)) && ((0 <=? j) && (j <? zlen (map on l)))) then Some k else x).
  { intros i j k x. cbn [forallb]. now rewrite andb_true_r. }
  assert (SZ : forall i a, znth l i = Some a -> znth (map on l) i = Some (on a)) by (intros i a Ei; now rewrite znth_map, Ei).
  destruct op; cbn [hstep1] in E.
  - apply (NPUSH _ (fun k => eq_refl) E).
  - apply (NPUSH _ (fun k => eq_refl) E).
  - apply (NPUSH _ (fun k => eq_refl) E).
  - assert (HS : forall k, heir (map on l) (@NewCopy V j) k = Some k) by (intros k; unfold heir; cbn [names]; rewrite N1; now destruct (_ && _)).
    apply W in E. destruct E as [(a & Ei & E)|(Ei & -> & ->)]; [apply (NPUSH _ HS E)|now apply SAME].
  - apply W in E. destruct E as [(a & Ei & E)|(Ei & -> & ->)].
    + cbn [fst snd] in E. injection E as _ <- <-. intros k o p Ek P. unfold heir. cbn [names]. rewrite N1, (IN _ _ Ei). pose proof (znth_lt _ _ _ Ei). pose proof (znth_lt _ _ _ Ek). destruct (k =? j) eqn:KJ; cbn.
      * apply Z.eqb_eq in KJ. subst k. assert (a = o) by congruence. subst a. rewrite zlen_map. rewrite <- (zlen_zupd l j h_empty). apply znth_snoc_last.
      * apply znth_snoc_old. rewrite (znth_upd_other l j k _ a Ei) by lia. exact Ek.
    + intros k o p Ek P. unfold heir. cbn [names]. rewrite N1, (OUT _ Ei). exact Ek.
  - assert (HS : forall k, heir (map on l) (@NewSlice V j s) k = Some k) by (intros k; unfold heir; cbn [names]; rewrite N1; now destruct (_ && _)).
    apply W in E. destruct E as [(a & Ei & E)|(Ei & -> & ->)]; [apply (NPUSH _ HS E)|now apply SAME].
  - assert (HS : forall k, heir (map on l) (@SetAll V i x) k = Some k) by (intros k; unfold heir; cbn [names]; rewrite N1; now destruct (_ && _)).
    apply W in E. destruct E as [(a & Ei & E)|(Ei & -> & ->)]; [apply SEE in E|]; now apply SAME.
  - assert (HS : forall k, heir (map on l) (@AssignList V i l0) k = Some k) by (intros k; unfold heir; cbn [names]; rewrite N1; now destruct (_ && _)).
    apply W in E. destruct E as [(a & Ei & E)|(Ei & -> & ->)]; [apply SEE in E|]; now apply SAME.
  - assert (HS : forall k, heir (map on l) (@Assign V i j) k = Some k) by (intros k; unfold heir; cbn [names]; rewrite N2; now destruct (negb _)).
    apply W in E. destruct E as [(a & Ei & E)|(Ei & -> & ->)]; [|now apply SAME]. apply W in E. destruct E as [(b & Ej & E)|(Ej & -> & ->)]; [|now apply SAME].
    destruct (i =? j); [injection E as _ <- <-; now apply SAME|apply SEE in E; now apply SAME].
  - apply W in E. destruct E as [(a & Ei & E)|(Ei & -> & ->)]; [|intros k o p Ek P; unfold heir; cbn [names]; rewrite N2, (OUT _ Ei); exact Ek].
    apply W in E. destruct E as [(b & Ej & E)|(Ej & -> & ->)]; [|intros k o p Ek P; unfold heir; cbn [names]; rewrite N2, (OUT _ Ej), andb_false_r; exact Ek].
    destruct (i =? j) eqn:IJ.
    + injection E as _ <- <-. intros k o p Ek P. unfold heir. cbn [names]. rewrite IJ. destruct (negb _); exact Ek.
    + destruct (noexcept _); [|injection E as _ <- <-; reflexivity|discriminate]. cbn [fst snd] in E. destruct (TAKE i j a b Ei Ej E) as (-> & T). intros k o p Ek P. unfold heir. cbn [names]. rewrite N2, (IN _ _ Ei), (IN _ _ Ej), IJ. cbn [andb negb]. now apply T.
  - apply W in E. destruct E as [(a & Ei & E)|(Ei & -> & ->)]; [|intros k o p Ek P; unfold heir; cbn [names]; rewrite N2, (OUT _ Ei); exact Ek].
    apply W in E. destruct E as [(b & Ej & E)|(Ej & -> & ->)]; [|intros k o p Ek P; unfold heir; cbn [names]; rewrite N2, (OUT _ Ej), andb_false_r; exact Ek].
    cbn [fst snd] in E. injection E as _ <- <-. intros k o p Ek P. unfold heir. cbn [names]. rewrite N2, (IN _ _ Ei), (IN _ _ Ej). cbn [andb negb]. rewrite (swap_is l i j a b Ei Ej). destruct (k =? i) eqn:KI; [|destruct (k =? j) eqn:KJ]; cbn; rewrite (SWAPZ i j a b _ Ei Ej).
    + rewrite Z.eqb_refl. apply Z.eqb_eq in KI. now subst.
    + apply Z.eqb_eq in KJ. subst k. destruct (i =? j) eqn:IJ; [lia|]. now rewrite Z.eqb_refl.
    + now rewrite KI, KJ.
  - apply W in E. destruct E as [(a & Ei & E)|(Ei & -> & ->)]; [|intros k o p Ek P; unfold heir; cbn [names]; rewrite N1, (OUT _ Ei); exact Ek].
    apply PUT in E. destruct ob; auto; destruct E as (t & Em & ->); intros k o p Ek P; unfold heir; cbn [names]; rewrite N1, (IN _ _ Ei), (SZ _ _ Ei);
      (destruct (n =? on a) eqn:NA; cbn [negb]; rewrite ?andb_false_r, ?andb_true_r;
        [unfold h_resize, hbind, lift in Em; destruct (check_debug c _); try discriminate; rewrite NA in Em; injection Em as <- _; rewrite zupd_id by exact Ei; now apply inh_same
        |eapply inh_put; eauto; intros q Q; eapply fresh_resize; [|exact Em|exact Q]; lia]).
  - revert E. apply TWO; [intros k; unfold heir; cbn [names]; now rewrite N2|]. intros a b. apply fresh_raa.
  - apply W in E. destruct E as [(a & Ei & E)|(Ei & -> & ->)]; [|intros k o p Ek P; unfold heir; cbn [names]; rewrite N2, (OUT _ Ei); exact Ek].
    apply W in E. destruct E as [(b & Ej & E)|(Ej & -> & ->)]; [|intros k o p Ek P; unfold heir; cbn [names]; rewrite N2, (OUT _ Ej), andb_false_r; exact Ek].
    cbn [fst snd] in E. destruct (TAKE i j a b Ei Ej E) as (-> & T). intros k o p Ek P. unfold heir. cbn [names]. rewrite N2, (IN _ _ Ei), (IN _ _ Ej). cbn [andb negb]. now apply T.
  - revert E. apply (ONE i (h_remove zero al c pos count)); [intros k; unfold heir; cbn [names]; rewrite N1; now destruct (_ && _)|]. intros a. apply fresh_remove.
  - revert E. apply (ONE i (h_remove zero al c 0 count)); [intros k; unfold heir; cbn [names]; rewrite N1; now destruct (_ && _)|]. intros a. apply fresh_remove.
  - revert E. apply (ONE i); [intros k; unfold heir; cbn [names]; rewrite N1; now destruct (_ && _)|]. intros a. apply fresh_lift. intros ?. apply fresh_remove.
  - revert E. apply (ONE i); [intros k0; unfold heir; cbn [names]; rewrite N1; now destruct (_ && _)|]. intros a. apply fresh_lift. intros ?. apply fresh_lift. intros ?. apply fresh_remove.
  - destruct v as [|v0 v].
    + assert (HS : forall k, heir (map on l) (@RemoveIndexes V i []) k = Some k) by (intros k; unfold heir; cbn [names]; rewrite N1; cbn [negb]; rewrite andb_false_r; now destruct (_ && _)).
      apply W in E. destruct E as [(a & Ei & E)|(Ei & -> & ->)]; [|now apply SAME]. unfold h_put in E. cbn [h_remove_indexes hret fst snd] in E. injection E as _ <- <-. rewrite (zupd_id l i a Ei) in *. now apply SAME.
    + revert E. apply (ONE i (h_remove_indexes zero al c (v0 :: v))); [intros k; unfold heir; cbn [names]; rewrite N1; cbn [negb]; rewrite andb_true_r; now destruct (_ && _)|]. intros a. now apply fresh_rem_idx.
  - revert E. apply (ONE i (h_insert zero al c pos x)); [intros k; unfold heir; cbn [names]; rewrite N1; now destruct (_ && _)|]. intros a. apply fresh_insert.
  - revert E. apply (ONE i (h_insert zero al c 0 x)); [intros k; unfold heir; cbn [names]; rewrite N1; now destruct (_ && _)|]. intros a. apply fresh_insert.
  - revert E. apply (ONE i (fun a => h_insert zero al c (on a) x a)); [intros k; unfold heir; cbn [names]; rewrite N1; now destruct (_ && _)|]. intros a. apply fresh_insert.
  - revert E. apply TWO; [intros k; unfold heir; cbn [names]; now rewrite N2|]. intros a b. apply fresh_insert_src.
  - revert E. apply TWO; [intros k; unfold heir; cbn [names]; now rewrite N2|]. intros a b. apply fresh_insert_src.
  - revert E. apply TWO; [intros k; unfold heir; cbn [names]; now rewrite N2|]. intros a b. apply fresh_insert_src.
  - assert (HS : forall k, heir (map on l) (Write i ix x) k = Some k) by (intros k; unfold heir; cbn [names]; rewrite N1; now destruct (_ && _)).
    apply W in E. destruct E as [(a & Ei & E)|(Ei & -> & ->)]; [apply SEE in E|]; now apply SAME.
  - assert (HS : forall k, heir (map on l) (@Read V i ix) k = Some k) by (intros k; unfold heir; cbn [names]; rewrite N1; now destruct (_ && _)).
    apply W in E. destruct E as [(a & Ei & E)|(Ei & -> & ->)]; [apply SEE in E|]; now apply SAME.
  - assert (HS : forall k, heir (map on l) (@Size V i) k = Some k) by (intros k; unfold heir; cbn [names]; rewrite N1; now destruct (_ && _)).
    apply W in E. destruct E as [(a & Ei & E)|(Ei & -> & ->)]; [injection E as _ <- _|]; now apply SAME.
Qed.

(** ** A freed block stays freed *)
Section DEAD.
(** fr = true: the block p is freed; fr = false: p is some block. *)
Context (fr : bool) (p : Z).
Definition dead (h : heap) : Prop := 0 <= p < zlen h /\ (fr = true -> lk h p = None).
Definition keeps_dead {A} (m : hm A) : Prop := forall h, dead h -> match m h with HOk _ h' | HFail _ h' => dead h' | HUB => True end.
Lemma kd_ret {A} (a : A) : keeps_dead (hret a). Proof. intros h D. exact D. Qed.
Lemma kd_lift {A} (x : outcome A) : keeps_dead (lift x). Proof. intros h D. unfold lift. now destruct x. Qed.
Lemma kd_bind {A B} (m : hm A) (k : A -> hm B) : keeps_dead m -> (forall a, keeps_dead (k a)) -> keeps_dead (hbind m k).
Proof. intros M K h D. unfold hbind. specialize (M h D). destruct (m h); auto. now apply K. Qed.
Lemma kd_for lo hi body : (forall i, keeps_dead (body i)) -> keeps_dead (hfor lo hi body).
Proof. intros B. unfold hfor. generalize (Z.to_nat (hi - lo)). intros n. revert lo. induction n as [|n IH]; intros lo; cbn [hfor_loop]; [apply kd_ret|]. apply kd_bind; auto. Qed.
Lemma lk_zupd (h : heap) q x r : 0 <= q < zlen h -> lk (zupd h q x) r = if r =? q then x else lk h r.
Proof. intros B. unfold lk. rewrite znth_zupd by exact B. destruct (r =? q); [now destruct x|reflexivity]. Qed.
Lemma dead_zupd (h : heap) q x : dead h -> lk h q <> None -> dead (zupd h q x).
Proof.
  intros [B D] L. destruct (lk h q) as [b|] eqn:E; [|congruence]. pose proof (lk_range _ _ _ E). split; [now rewrite zlen_zupd|]. rewrite lk_zupd by assumption. destruct (p =? q) eqn:Q; [|exact D]. apply Z.eqb_eq in Q. intros F. specialize (D F). congruence.
Qed.
Lemma kd_alloc c n : keeps_dead (h_alloc zero al c n).
Proof.
  intros h [B D]. unfold h_alloc. destruct (alloc zero c n); auto; [|now split]. split; [rewrite zlen_app; unfold zlen at 2; cbn [length]; lia|]. unfold lk in *. now rewrite znth_app_l by apply B.
Qed.
Lemma kd_delete q : keeps_dead (h_delete al q).
Proof. intros h D. unfold h_delete. destruct q as [q|]; [|exact D]. destruct (lk h q) as [[a b]|] eqn:E; auto. destruct (a =? al); auto. apply dead_zupd; [exact D|congruence]. Qed.
Lemma kd_load o i : keeps_dead (h_load o i).
Proof. intros h D. unfold h_load. destruct (optr o) as [q|]; auto. destruct (lk h q) as [[a b]|]; auto. now apply kd_lift. Qed.
Lemma kd_store o i v : keeps_dead (h_store o i v).
Proof. intros h D. unfold h_store. destruct (optr o) as [q|]; auto. destruct (lk h q) as [[a b]|] eqn:E; auto. destruct (oset b i v); auto. apply dead_zupd; [exact D|congruence]. Qed.
Lemma kd_new c n : keeps_dead (h_new zero al c n).
Proof. unfold h_new. apply kd_bind; [apply kd_lift|]. intros _. destruct (n =? 0); [apply kd_ret|]. apply kd_bind; [apply kd_alloc|]. intros; apply kd_ret. Qed.
Lemma kd_unwind {A} t (m : hm A) : keeps_dead m -> keeps_dead (unwind al t m).
Proof. intros M h D. unfold unwind. specialize (M h D). destruct (m h) as [| f h'|]; auto. destruct (fatal f); auto. pose proof (kd_delete (optr t) h' M) as K. destruct (h_delete al (optr t) h'); auto. Qed.
Lemma kd_build c n body : (forall t, keeps_dead (body t)) -> keeps_dead (h_build zero al c n body).
Proof. intros B. unfold h_build. apply kd_bind; [apply kd_new|]. intros t. apply kd_bind; [now apply kd_unwind|]. intros _. apply kd_ret. Qed.
Lemma kd_replace o t : keeps_dead (h_replace al o t).
Proof. unfold h_replace. apply kd_bind; [apply kd_delete|]. intros _. apply kd_ret. Qed.
Lemma kd_copyn r t n : (forall i, keeps_dead (r i)) -> keeps_dead (h_copyn r t n).
Proof. intros R. unfold h_copyn. apply kd_for. intros i. apply kd_bind; [apply R|]. intros v. apply kd_store. Qed.
Lemma kd_copyn3 r t a b n : (forall i, keeps_dead (r i)) -> keeps_dead (h_copyn3 r t a b n).
Proof. intros R. unfold h_copyn3. apply kd_for. intros i. apply kd_bind; [apply kd_lift|]. intros j. apply kd_bind; [apply R|]. intros v. apply kd_bind; [apply kd_lift|]. intros j2. apply kd_store. Qed.
Lemma kd_fill x t : keeps_dead (h_fill x t). Proof. unfold h_fill. apply kd_for. intros i. apply kd_store. Qed.
Hint Resolve kd_ret kd_lift kd_bind kd_for kd_alloc kd_delete kd_load kd_store kd_new kd_unwind kd_build kd_replace kd_copyn kd_copyn3 kd_fill : kd.
Ltac kd := repeat first [match goal with |- forall _, _ => intros ? end | assumption | match goal with H : forall i, keeps_dead _ |- _ => apply H end | apply kd_build | apply kd_copyn | apply kd_copyn3 | apply kd_fill | apply kd_for | apply kd_lift | apply kd_load | apply kd_store | apply kd_replace | apply kd_ret | apply kd_bind].
Lemma kd_of_src c n r : (forall i, keeps_dead (r i)) -> keeps_dead (h_of_src zero al c n r). Proof. intros R. unfold h_of_src. kd; auto. Qed.
Lemma kd_resize c n pr o : keeps_dead (h_resize zero al c n pr o).
Proof. unfold h_resize. apply kd_bind; [apply kd_lift|]. intros _. destruct (n =? on o); [apply kd_ret|]. apply kd_bind; [|intros; apply kd_replace]. apply kd_build. intros t. destruct pr; kd. Qed.
Lemma kd_remove c a b o : keeps_dead (h_remove zero al c a b o). Proof. unfold h_remove. kd. Qed.
Lemma kd_insert c a x o : keeps_dead (h_insert zero al c a x o). Proof. unfold h_insert. kd. Qed.
Lemma kd_insert_src c a n r o : (forall i, keeps_dead (r i)) -> keeps_dead (h_insert_src zero al c a n r o). Proof. intros R. unfold h_insert_src. kd; auto. Qed.
Lemma kd_raa c n r o : (forall i, keeps_dead (r i)) -> keeps_dead (h_resize_and_assign zero al c n r o).
Proof. intros R. unfold h_resize_and_assign. apply kd_bind; [now apply kd_of_src|]. intros; apply kd_replace. Qed.
Lemma kd_rem_idx c v o : keeps_dead (h_remove_indexes zero al c v o). Proof. unfold h_remove_indexes. destruct v; kd. Qed.
Lemma kd_slice c o s k : (forall n r, (forall i, keeps_dead (r i)) -> keeps_dead (k n r)) -> keeps_dead (h_slice c o s k).
Proof. intros K. unfold h_slice. apply kd_bind; [apply kd_lift|]. intros v. apply K. kd. Qed.
Lemma dead_step c h l op h' l' ob : hstep c (h, l) op = Next (h', l') ob -> dead h -> dead h'.
Proof.
  intros E D.
  assert (W : forall i kk, h_with (h, l) i kk = Next (h', l') ob -> (forall a, kk a = Next (h', l') ob -> dead h') -> dead h').
  { intros i kk X K. unfold h_with in X. cbn [snd] in X. destruct (znth l i) as [a|]; [eauto|]. now injection X as <- _ _. }
  assert (PUSH : forall m, keeps_dead m -> h_push (h, l) m = Next (h', l') ob -> dead h').
  { intros m K X. specialize (K h D). unfold h_push in X. cbn [fst snd] in X. destruct (m h); try discriminate; now injection X as <- _ _. }
  assert (PUT : forall i m, keeps_dead m -> h_put (h, l) i m = Next (h', l') ob -> dead h').
  { intros i m K X. specialize (K h D). unfold h_put in X. cbn [fst snd] in X. destruct (m h); try discriminate; now injection X as <- _ _. }
  assert (SEE : forall {A} (f : A -> obs V) m, keeps_dead m -> h_see (h, l) f m = Next (h', l') ob -> dead h').
  { intros A f m K X. specialize (K h D). unfold h_see in X. cbn [fst snd] in X. destruct (m h); try discriminate; now injection X as <- _ _. }
  assert (CLEAR : forall l0 j, h_clear al (h, l0) j = Next (h', l') ob -> dead h').
  { intros l0 j X. unfold h_clear, h_with in X. cbn [fst snd] in X. destruct (znth l0 j) as [b|]; [|now injection X as <- _ _]. pose proof (kd_delete (optr b) h D) as K. destruct (h_delete al (optr b) h); try discriminate. now injection X as <- _ _. }
  assert (ASG : forall n r o, (forall i, keeps_dead (r i)) -> keeps_dead (h_assign c n r o)) by (intros n r o R; unfold h_assign; kd; auto).
  destruct op; cbn [hstep1] in E.
  - revert E. apply PUSH. apply kd_new.
  - revert E. apply PUSH. unfold h_new_fill. kd.
  - revert E. apply PUSH. apply kd_of_src. kd.
  - apply (W _ _ E). intros a X. revert X. apply PUSH. apply kd_of_src. kd.
  - apply (W _ _ E). intros a X. now injection X as <- _ _.
  - apply (W _ _ E). intros a X. revert X. apply PUSH. apply kd_slice. intros n r R. now apply kd_of_src.
  - apply (W _ _ E). intros a X. revert X. apply SEE. kd.
  - apply (W _ _ E). intros a X. revert X. apply SEE. apply ASG. kd.
  - apply (W _ _ E). intros a X. apply (W _ _ X). intros b Y. destruct (i =? j); [now injection Y as <- _ _|]. revert Y. apply SEE. apply ASG. kd.
  - apply (W _ _ E). intros a X. apply (W _ _ X). intros b Y. destruct (i =? j); [now injection Y as <- _ _|]. destruct (noexcept _); [|now injection Y as <- _ _|discriminate]. cbn [fst snd] in Y. revert Y. apply CLEAR.
  - apply (W _ _ E). intros a X. apply (W _ _ X). intros b Y. now injection Y as <- _ _.
  - apply (W _ _ E). intros a X. revert X. apply PUT. apply kd_resize.
  - apply (W _ _ E). intros a X. apply (W _ _ X). intros b Y. revert Y. apply PUT. apply kd_raa. kd.
  - apply (W _ _ E). intros a X. apply (W _ _ X). intros b Y. cbn [fst snd] in Y. revert Y. apply CLEAR.
  - apply (W _ _ E). intros a X. revert X. apply PUT. apply kd_remove.
  - apply (W _ _ E). intros a X. revert X. apply PUT. apply kd_remove.
  - apply (W _ _ E). intros a X. revert X. apply PUT. kd.
  - apply (W _ _ E). intros a X. revert X. apply PUT. kd.
  - apply (W _ _ E). intros a X. revert X. apply PUT. apply kd_rem_idx.
  - apply (W _ _ E). intros a X. revert X. apply PUT. apply kd_insert.
  - apply (W _ _ E). intros a X. revert X. apply PUT. apply kd_insert.
  - apply (W _ _ E). intros a X. revert X. apply PUT. apply kd_insert.
  - apply (W _ _ E). intros a X. apply (W _ _ X). intros b Y. revert Y. apply PUT. apply kd_insert_src. kd.
  - apply (W _ _ E). intros a X. apply (W _ _ X). intros b Y. revert Y. apply PUT. apply kd_insert_src. kd.
  - apply (W _ _ E). intros a X. apply (W _ _ X). intros b Y. revert Y. apply PUT. apply kd_insert_src. kd.
  - apply (W _ _ E). intros a X. revert X. apply SEE. unfold h_write. kd.
  - apply (W _ _ E). intros a X. revert X. apply SEE. unfold h_read. kd.
  - apply (W _ _ E). intros a X. now injection X as <- _ _.
Qed.
Lemma dead_run c ops : forall h l h' l' ob, fst (run (hstep c) (h, l) ops) = Next (h', l') ob -> dead h -> dead h'.
Proof.
  induction ops as [|o ops IH]; intros h l h' l' ob E D; cbn [run] in E.
  - cbn in E. now injection E as <- _ _.
  - destruct (hstep c (h, l) o) as [[h1 l1] ob1|] eqn:S; [|discriminate]. pose proof (dead_step _ _ _ _ _ _ _ S D) as D1.
    assert (G : forall x, fst (let (r, t) := run (hstep c) (h1, l1) ops in (r, x :: t)) = Next (h', l') ob -> dead h').
    { intros x X. destruct (run (hstep c) (h1, l1) ops) as [r t] eqn:R. cbn in X. subst r. eapply (IH h1 l1); [now rewrite R|exact D1]. }
    destruct ob1; try (now apply (G _ E)). destruct (fatal f); [|now apply (G _ E)]. cbn in E. now injection E as <- _ _.
Qed.
End DEAD.

(** ** Along a program *)
Lemma step_memory c h l st op h' l' ob : memory_ok h l st -> hstep c (h, l) op = Next (h', l') ob -> (forall f, ob = Failed f -> fatal f = false) -> exists st', memory_ok h' l' st'.
Proof.
  intros M E NF. pose proof (step_agrees zero al c h l st op M) as A. unfold agrees in A. destruct (step1 zero c st op) as [st' ob'|].
  - destruct A as (h1 & l1 & E1 & _ & F). rewrite E in E1. injection E1 as <- <- <-. exists st'. auto.
  - rewrite E in A. discriminate.
Qed.
Theorem run_follow c ops : forall h l st h' l', memory_ok h l st -> fst (run (hstep c) (h, l) ops) = Next (h', l') Done ->
  forall k o p, znth l k = Some o -> optr o = Some p ->
  match follow (hstep c) (h, l) ops k with Some k' => znth l' k' = Some o | None => lk h' p = None end.
Proof.
  induction ops as [|op ops IH]; intros h l st h' l' M E k o p Ek P; cbn [run follow] in *.
  - cbn in E. now injection E as <- <-.
  - destruct (hstep c (h, l) op) as [[h1 l1] ob|] eqn:S; [|discriminate]. pose proof (step_heir c h l st op h1 l1 ob M S) as HH.
    assert (R : fst (run (hstep c) (h1, l1) ops) = Next (h', l') Done /\ forall f, ob = Failed f -> fatal f = false).
    { destruct ob as [| | |f]; [| | |destruct (fatal f) eqn:F; [cbn in E; discriminate|]]; destruct (run (hstep c) (h1, l1) ops) as [r t]; cbn in E |- *; (split; [exact E|congruence]). }
    destruct R as [R NF]. destruct (step_memory c h l st op h1 l1 ob M S NF) as (st1 & M1).
    assert (PB : 0 <= p < zlen h). { destruct (st_of _ _ _ _ _ _ (proj1 M) Ek) as (a0 & _ & R0). apply (repr_live al) with (p := p) in R0; [|exact P]. now apply lk_range in R0. }
    assert (NEXT : forall ob0, ob0 = ob -> (match ob with Failed _ => False | _ => True end) -> match match heir (map on l) op k with Some k' => follow (hstep c) (h1, l1) ops k' | None => None end with Some k' => znth l' k' = Some o | None => lk h' p = None end).
    { intros _ _ OK. destruct ob; try contradiction; specialize (HH k o p Ek P); (destruct (heir (map on l) op k) as [k1|]; [now apply (IH h1 l1 st1 h' l' M1 R k1 o p)|]); cbn in HH;
      (assert (D : dead true p h1);
       [split; [exact (proj1 (dead_step false p c h l op h1 l1 _ S (conj PB (fun F : false = true => False_ind _ (Bool.diff_false_true F)))))|intros _; destruct (lk h1 p) as [b|] eqn:B; [|reflexivity]; destruct (proj2 (proj2 M1) p b B) as (i2 & o2 & E2 & P2); now destruct (HH i2 o2 E2)]|
        now apply (dead_run true p c ops h1 l1 h' l' Done R D)]). }
    destruct ob as [| | |f]; cbn [snd]; try (now apply (NEXT _ eq_refl)). subst l1. now apply (IH h1 l st1 h' l' M1 R k o p).
Qed.

(** ** Statements *)
Lemma start_memory c ops h l : fst (run (hstep c) ([], []) ops) = Next (h, l) Done -> exists st, memory_ok h l st.
Proof.
  intros E. destruct (run_agrees zero al c ops [] [] [] (memory_start al)) as [_ B]. destruct (fst (run (step1 zero c) [] ops)) as [st ob|].
  - destruct B as (h' & l' & E' & H & M). pose proof (eq_trans (eq_sym E) E') as X. injection X as <- <- <-. exists st. now apply M.
  - pose proof (eq_trans (eq_sym E) B) as X. discriminate.
Qed.
Theorem follow_thm c ops1 ops2 h1 l1 h2 l2 : fst (run (hstep c) ([], []) ops1) = Next (h1, l1) Done -> fst (run (hstep c) (h1, l1) ops2) = Next (h2, l2) Done ->
  forall k o p, znth l1 k = Some o -> h_data o = Some p ->
  match follow (hstep c) (h1, l1) ops2 k with Some k' => exists o', znth l2 k' = Some o' /\ h_data o' = Some p /\ on o' = on o | None => forall i v, raw_load p i h2 = HUB /\ raw_store p i v h2 = HUB end.
Proof.
  intros E1 E2 k o p Ek P. destruct (start_memory c ops1 h1 l1 E1) as (st & M). assert (P' : optr o = Some p) by (unfold h_data in P; destruct (negb _); congruence).
  pose proof (run_follow c ops2 h1 l1 st h2 l2 M E2 k o p Ek P') as F. destruct (follow (hstep c) (h1, l1) ops2 k) as [k'|]; [exists o; auto|]. intros i v. unfold raw_load, raw_store. now rewrite F.
Qed.
Theorem apart_thm c ops h l i j o o' p : fst (run (hstep c) ([], []) ops) = Next (h, l) Done -> znth l i = Some o -> znth l j = Some o' -> h_data o = Some p -> h_data o' = Some p -> i = j.
Proof.
  intros E Ei Ej P P'. destruct (start_memory c ops h l E) as (st & _ & U & _). unfold h_data in *. destruct (negb (on o =? 0)); [|discriminate]. destruct (negb (on o' =? 0)); [|discriminate]. eapply U; eauto.
Qed.
Lemma reach_contents c ops w h l : cfg_ok c -> checked c = true -> Forall op_long ops -> fst (run (spec_step1 zero c) [] ops) = Next w Done -> fst (run (hstep c) ([], []) ops) = Next (h, l) Done -> Forall2 (contents al h) l w.
Proof.
  intros C K L E1 E2. destruct (run_list zero al c ops C K L) as [_ B]. rewrite E1 in B. destruct B as (h' & l' & E & F & _). pose proof (eq_trans (eq_sym E2) E) as X. now injection X as <- <-.
Qed.
Lemma data_contents (h : heap) o x : contents al h o x -> (h_data o = None <-> x = []) /\ forall p, h_data o = Some p -> lk h p = Some (al, x).
Proof.
  intros [N C]. unfold h_data. destruct (on o =? 0) eqn:Z0; cbn [negb].
  - split; [|discriminate]. split; [intros _; apply zlen_zero; lia|reflexivity].
  - destruct (optr o) as [p|]; [|subst x; unfold zlen in N; cbn in N; lia]. split; [split; [discriminate|]|].
    + intros ->. unfold zlen in N. cbn in N. lia.
    + now intros q [= <-].
Qed.
Lemma f2_nth {A B} (R : A -> B -> Prop) l w : Forall2 R l w -> forall k, match znth l k, znth w k with Some a, Some b => R a b | None, None => True | _, _ => False end.
Proof.
  induction 1 as [|a b l w H F IH]; intros k; [now rewrite !znth_nil|]. destruct (Z.eq_dec k 0) as [->|]; [now rewrite !znth_cons_0|]. destruct (Z_lt_dec k 0).
  - unfold znth. now replace (k <? 0) with true by lia.
  - rewrite !znth_cons_pos by lia. apply IH.
Qed.
Theorem reads_thm c ops w h l : cfg_ok c -> checked c = true -> Forall op_long ops -> fst (run (spec_step1 zero c) [] ops) = Next w Done -> fst (run (hstep c) ([], []) ops) = Next (h, l) Done ->
  forall k o x, znth l k = Some o -> znth w k = Some x -> (h_data o = None <-> x = []) /\
  forall p, h_data o = Some p -> forall i, raw_load p i h = match znth x i with Some v => HOk v h | None => HUB end.
Proof.
  intros C K L E1 E2 k o x Ek Ex. pose proof (f2_nth _ _ _ (reach_contents c ops w h l C K L E1 E2) k) as F. rewrite Ek, Ex in F. destruct (data_contents h o x F) as [A B]. split; [exact A|]. intros p P i. unfold raw_load. now rewrite (B p P).
Qed.
Lemma Forall2_forall_znth {A B} (R : A -> B -> Prop) l : forall w, zlen l = zlen w -> (forall j a b, znth l j = Some a -> znth w j = Some b -> R a b) -> Forall2 R l w.
Proof.
  induction l as [|a l IH]; intros w E H; destruct w as [|b w]; try (unfold zlen in E; cbn in E; lia); constructor.
  - apply (H 0); apply znth_cons_0.
  - rewrite !zlen_cons in E. apply IH; [lia|]. intros j x y Ex Ey. pose proof (znth_lt _ _ _ Ex). apply (H (j + 1)); rewrite znth_cons_pos by lia; now replace (j + 1 - 1) with j by lia.
Qed.
Lemma f2_len {A B} (R : A -> B -> Prop) l w : Forall2 R l w -> zlen l = zlen w.
Proof. induction 1; [reflexivity|]. rewrite !zlen_cons. lia. Qed.
Theorem write_thm c ops w h l : cfg_ok c -> checked c = true -> Forall op_long ops -> fst (run (spec_step1 zero c) [] ops) = Next w Done -> fst (run (hstep c) ([], []) ops) = Next (h, l) Done ->
  forall k o x p, znth l k = Some o -> znth w k = Some x -> h_data o = Some p -> forall i v,
  if (0 <=? i) && (i <? zlen x)
  then exists h', raw_store p i v h = HOk tt h' /\ hstep c (h, l) (Write k (Plain i) v) = Next (h', l) Done /\ Forall2 (contents al h') l (zupd w k (zupd x i v))
  else raw_store p i v h = HUB.
Proof.
  intros C K L E1 E2 k o x p Ek Ex P i v. pose proof (reach_contents c ops w h l C K L E1 E2) as FA. pose proof (f2_nth _ _ _ FA k) as F. rewrite Ek, Ex in F. destruct (data_contents h o x F) as [_ B]. specialize (B p P).
  unfold raw_store. rewrite B. destruct (_ && _) eqn:IR.
  - destruct (znth_some x i ltac:(lia)) as (y & Hy). rewrite Hy. exists (zupd h p (Some (al, zupd x i v))). split; [reflexivity|]. assert (P' : optr o = Some p) by (unfold h_data in P; destruct (negb _); congruence). split.
    + cbn [hstep1]. unfold h_with. cbn [snd]. rewrite Ek. unfold h_done, h_see, h_write, hbind. cbn [fst snd idx_get lift]. unfold valid_index. rewrite (proj1 F). replace (-1 <? i) with true by lia. replace (i <? zlen x) with true by lia. cbn [andb]. unfold check_debug, check_always. cbn [bind].
      replace (if dbg c then Ok tt else Ok tt) with (@Ok unit tt) by now destruct (dbg c). cbn [lift]. unfold h_store. rewrite P', B. unfold oset. rewrite IR. reflexivity.
    + destruct (start_memory c ops h l E2) as (st & M). pose proof (lk_range _ _ _ B) as PB.
      assert (G : forall j o' y', znth l j = Some o' -> contents al h o' y' -> j <> k -> contents al (zupd h p (Some (al, zupd x i v))) o' y').
      { intros j o' y' Ej [Nn Cc] NE. split; [exact Nn|]. destruct (optr o') as [q|] eqn:Q; [|exact Cc]. rewrite lk_zupd by exact PB. destruct (q =? p) eqn:QP; [|exact Cc]. apply Z.eqb_eq in QP. subst q. destruct NE. destruct M as (_ & U & _). eapply U; eauto. }
      assert (LN : zlen l = zlen w) by exact (f2_len _ _ _ FA).
      apply Forall2_forall_znth; [rewrite zlen_zupd; exact LN|]. intros j o' y' Ej Ey. pose proof (znth_lt _ _ _ Ex) as KB. rewrite znth_zupd in Ey by exact KB. destruct (j =? k) eqn:JK.
      * apply Z.eqb_eq in JK. subst j. assert (o' = o) by congruence. subst o'. injection Ey as <-. split; [rewrite zlen_zupd; apply F|]. rewrite P', lk_zupd by exact PB. now rewrite Z.eqb_refl.
      * apply (G j); [exact Ej| |lia]. pose proof (f2_nth _ _ _ FA j) as FJ. now rewrite Ej, Ey in FJ.
  - destruct (znth x i) as [y|] eqn:Hy; [|reflexivity]. apply znth_lt in Hy. lia.
Qed.
(** ** Two dimensions *)
Theorem matrix_thm c ops w h l : cfg_ok c -> checked c = true -> Forall op2_long ops -> tame zero c [] ops ->
  fst (run (spec_step2 zero c) [] ops) = Next w Done -> fst (run (hstep2 zero al c) ([], []) ops) = Next (h, l) Done ->
  forall k o M, znth l k = Some o -> znth w k = Some M -> (h2_data o = None <-> M = []) /\
  forall p, h2_data o = Some p ->
    (forall i j, 0 <= i < zlen M -> 0 <= j < ncols M -> exists v, mget M i j = Some v /\ raw_load p (i * ncols M + j) h = HOk v h) /\
    (forall q, ~ 0 <= q < zlen M * ncols M -> raw_load p q h = HUB /\ forall v, raw_store p q v h = HUB).
Proof.
  intros C K L T E1 E2 k o M Ek EM. destruct (run2_list zero al c ops C K L T) as [_ B]. rewrite E1 in B. destruct B as (h' & l' & E & F & _).
  pose proof (eq_trans (eq_sym E2) E) as X. injection X as <- <-. pose proof (f2_nth _ _ _ F k) as Fk. rewrite Ek, EM in Fk. destruct Fk as ((RM & NE) & _ & _ & CM).
  destruct (data_contents h (odat o) (concat M) CM) as [A B]. pose proof (zlen_concat _ _ RM) as LC. split.
  - unfold h2_data. rewrite A. split; [|now intros ->]. intros Z0. destruct M as [|r M]; [reflexivity|]. specialize (NE ltac:(discriminate)). rewrite Z0 in LC. rewrite zlen_cons in LC. pose proof (zlen_nonneg M). change (zlen (@nil V)) with 0 in LC. nia.
  - intros p P. specialize (B p P). unfold raw_load, raw_store. rewrite B. split.
    + intros i j Hi Hj. destruct (znth_some (concat M) (i * ncols M + j)) as (v & Hv); [nia|]. exists v. rewrite <- (concat_get (ncols M) M i j RM Hi Hj). now rewrite Hv.
    + intros q Hq. destruct (znth (concat M) q) as [y|] eqn:Y; [|now split]. apply znth_lt in Y. lia.
Qed.
Theorem apart2_thm c ops h l i j o o' p : fst (run (hstep2 zero al c) ([], []) ops) = Next (h, l) Done ->
  znth l i = Some o -> znth l j = Some o' -> h2_data o = Some p -> h2_data o' = Some p -> i = j.
Proof.
  intros E Ei Ej P P'. destruct (run2_start zero al c ops) as [_ B]. destruct (fst (run (step2 zero c) [] ops)) as [st ob|].
  - destruct B as (h' & l' & E' & H & M). pose proof (eq_trans (eq_sym E) E') as X. injection X as <- <- <-. destruct (M eq_refl) as [U _].
    unfold h2_data, h_data in *. destruct (negb (on (odat o) =? 0)); [|discriminate]. destruct (negb (on (odat o') =? 0)); [|discriminate].
    apply (U i j (odat o) (odat o') p); auto; rewrite znth_map; now rewrite ?Ei, ?Ej.
  - pose proof (eq_trans (eq_sym E) B) as X. discriminate.
Qed.
End PP.
