From Coq Require Import List Arith Bool Lia.
Import ListNotations.
From Verif Require Import Model.Lifetimes Spec.LifetimeSpec.

(** * The guards *)
Lemma elt_eqb_eq : forall a b, elt_eqb a b = true <-> a = b.
Proof.
  intros [|v|v|v] [|w|w|w]; simpl; split; intro H; try discriminate; try reflexivity;
    try (apply Nat.eqb_eq in H; subst; reflexivity); try (injection H as ->; apply Nat.eqb_refl).
Qed.

Lemma dim_eqb_refl : forall d, dim_eqb d d = true.
Proof. intros []; reflexivity. Qed.

Lemma temp_array_b : forall s, temp_array s <-> is_rvalue (snd s) && is_array (fst s) = true.
Proof.
  intros [t c]; unfold temp_array, is_array; simpl. split.
  - intros [H1 H2]. rewrite H1. destruct c; try reflexivity. exfalso; apply H2; reflexivity.
  - destruct c; simpl; try discriminate; destruct (tkind t) eqn:K; try discriminate; intros _; split; congruence.
Qed.

Lemma array_rvalue_of : forall p s, p (telt (fst s)) = true -> array_rvalue p s = is_rvalue (snd s) && is_array (fst s).
Proof. intros p s H. unfold array_rvalue. rewrite H, andb_true_r. reflexivity. Qed.
Lemma array_rvalue_dim_of : forall d s, dim_eqb (tdim (fst s)) d = true -> array_rvalue_dim d s = is_rvalue (snd s) && is_array (fst s).
Proof. intros p s H. unfold array_rvalue_dim. rewrite H, andb_true_r. reflexivity. Qed.
Lemma expr_deleted_of : forall p s1 s2, is_base (fst s1) = true -> is_base (fst s2) = true -> p (telt (fst s1)) = true ->
  elt_eqb (telt (fst s1)) (telt (fst s2)) = true -> dim_eqb (tdim (fst s1)) (tdim (fst s2)) = true ->
  expr_deleted p s1 s2 = is_rvalue (snd s1) && is_array (fst s1) || is_rvalue (snd s2) && is_array (fst s2).
Proof.
  intros p s1 s2 B1 B2 P E D. apply elt_eqb_eq in E. unfold expr_deleted.
  rewrite B1, B2, (array_rvalue_of p s1 P), (array_rvalue_of p s2), <- E, P, D; [|rewrite <- E; exact P].
  simpl. rewrite orb_false_r. reflexivity.
Qed.

(** When the accepting overload applies, a guarded builder is deleted exactly for temporary arrays. *)
Lemma guarded1_deleted : forall b t c r, guarded1 b -> accepts1 b t = Some r -> deleted1 b (t, c) = is_rvalue c && is_array t.
Proof.
  intros b t c r G A.
  assert (W : forall cnd r', (if is_base t && cnd then Some r' else None) = Some r -> cnd = true).
  { intros cnd r' H. destruct cnd; [reflexivity|]. rewrite andb_false_r in H. discriminate. }
  destruct b; simpl in G; try contradiction; simpl in A |- *; apply W in A;
    try (apply array_rvalue_dim_of; exact A);
    try (destruct u; simpl in A |- *; apply array_rvalue_of; exact A);
    try (destruct o; simpl in A |- *; apply array_rvalue_of; exact A).
Qed.

Lemma guarded1_mode : forall b, guarded1 b -> mode1 b = Keep.
Proof. intros []; simpl; intros H; try contradiction; reflexivity. Qed.

Lemma guarded1_call : forall b t c, guarded1 b ->
  call1 b (t, c) = None <-> accepts1 b t = None \/ temp_array (t, c) \/ tkind t = KRand.
Proof.
  intros b t c G. unfold call1. simpl. rewrite (guarded1_mode b G).
  destruct (accepts1 b t) as [r|] eqn:A; [|tauto].
  rewrite (guarded1_deleted b t c r G A). rewrite (temp_array_b (t, c)). simpl.
  destruct (is_rvalue c && is_array t); simpl; [tauto|].
  destruct (tkind t); simpl; intuition discriminate.
Qed.

Lemma pointing_call : forall b t c, pointing b -> call1 b (t, c) = None <-> accepts1 b t = None \/ c <> Lv.
Proof.
  intros b t c G. unfold call1. simpl.
  destruct (accepts1 b t) as [r|]; [|tauto].
  assert (K : keepable (mode1 b) t = true) by (destruct b; simpl in G; try contradiction; destruct t as [dd ee []]; reflexivity).
  assert (D : deleted1 b (t, c) = is_rvalue c) by (destruct b; simpl in G; try contradiction; reflexivity).
  rewrite K, D. destruct c; simpl; intuition discriminate.
Qed.

Lemma detached_call : forall b t c, detached b -> call1 b (t, c) = None <-> accepts1 b t = None.
Proof.
  intros b t c G. unfold call1. simpl.
  destruct (accepts1 b t) as [r|]; [|tauto].
  assert (K : keepable (mode1 b) t = true) by (destruct b; simpl in G; try contradiction; destruct t as [dd ee []]; reflexivity).
  assert (D : deleted1 b (t, c) = false) by (destruct b; simpl in G; try contradiction; reflexivity).
  rewrite K, D. simpl. intuition discriminate.
Qed.

Lemma guarded2_deleted : forall b t1 c1 t2 c2 r, guarded2 b -> accepts2 b t1 t2 = Some r ->
  deleted2 b (t1, c1) (t2, c2) = is_rvalue c1 && is_array t1 || is_rvalue c2 && is_array t2.
Proof.
  intros b t1 c1 t2 c2 r G A.
  assert (W : forall cnd r', (if is_base t1 && is_base t2 && cnd then Some r' else None) = Some r ->
                is_base t1 = true /\ is_base t2 = true /\ cnd = true).
  { intros cnd r' H. destruct (is_base t1), (is_base t2), cnd; try discriminate; auto. }
  assert (D : forall d, dim_eqb (tdim t1) d = true -> dim_eqb (tdim t1) (tdim t2) = true -> dim_eqb (tdim t2) d = true).
  { intros d. destruct d, (tdim t1), (tdim t2); simpl; intros; congruence. }
  destruct b; simpl in G; try contradiction; simpl in A; apply W in A; destruct A as [B1 [B2 A]].
  - apply andb_prop in A. destruct A as [A DM]. apply andb_prop in A. destruct A as [A E].
    simpl. destruct o; simpl in A |- *; apply expr_deleted_of; simpl; assumption.
  - apply andb_prop in A. destruct A as [A DM]. apply andb_prop in A. destruct A as [A E]. apply expr_deleted_of; assumption.
  - apply andb_prop in A. destruct A as [A E]. apply andb_prop in A. destruct A as [A DM]. simpl.
    rewrite !array_rvalue_dim_of; simpl; auto.
  - apply andb_prop in A. destruct A as [A E]. apply andb_prop in A. destruct A as [A DM]. simpl.
    rewrite !array_rvalue_dim_of; simpl; auto.
  - apply andb_prop in A. destruct A as [A E]. apply andb_prop in A. destruct A as [A DM]. simpl.
    rewrite !array_rvalue_dim_of; simpl; auto.
Qed.

Lemma guarded2_modes : forall b, guarded2 b -> modes2 b = (Keep, Keep).
Proof. intros []; simpl; intros H; try contradiction; reflexivity. Qed.

Lemma guarded2_call : forall b t1 c1 t2 c2, guarded2 b ->
  call2 b (t1, c1) (t2, c2) = None <->
  accepts2 b t1 t2 = None \/ temp_array (t1, c1) \/ temp_array (t2, c2) \/ tkind t1 = KRand \/ tkind t2 = KRand.
Proof.
  intros b t1 c1 t2 c2 G. unfold call2. simpl. rewrite (guarded2_modes b G). simpl.
  destruct (accepts2 b t1 t2) as [r|] eqn:A; [|tauto].
  rewrite (guarded2_deleted b t1 c1 t2 c2 r G A).
  rewrite (temp_array_b (t1, c1)), (temp_array_b (t2, c2)). simpl.
  destruct (is_rvalue c1 && is_array t1); simpl; [tauto|].
  destruct (is_rvalue c2 && is_array t2); simpl; [tauto|].
  destruct (tkind t1), (tkind t2); simpl; intuition discriminate.
Qed.

(** * Evaluation *)
Definition named (n : nat) (a : addr) : Prop := exists y, a = ANamed y /\ y < n.
Definition scope (E : list obj) : Prop := forall o a, In o E -> In a (orefs o) -> named (length E) a.
Definition tys (E : list obj) : list ty := map (fun o => fst (osig o)) E.

Lemma named_live : forall n k a, named n a -> live n k a = true.
Proof. intros n k a [y [-> H]]. simpl. apply Nat.ltb_lt. exact H. Qed.
Lemma live_mono : forall n k k' a, k <= k' -> live n k a = true -> live n k' a = true.
Proof. intros n k k' [x|j|] H; simpl; auto. rewrite !Nat.ltb_lt. lia. Qed.
Lemma lives_mono : forall n k k' l, k <= k' -> forallb (live n k) l = true -> forallb (live n k') l = true.
Proof. intros n k k' l H. rewrite !forallb_forall. intros F a I. apply (live_mono n k); auto. Qed.
Lemma usable_mono : forall n k k' o, k <= k' -> usable n k o = true -> usable n k' o = true.
Proof.
  unfold usable. intros n k k' o H U. apply andb_prop in U. destruct U as [A B].
  rewrite (live_mono n k k' _ H A), (lives_mono n k k' _ H B). reflexivity.
Qed.

Lemma kept_live : forall n k m o, usable n k o = true -> forallb (live n k) (kept m o) = true.
Proof.
  unfold usable, kept. intros n k m o U. apply andb_prop in U. destruct U as [A B].
  destruct m, (tkind (fst (osig o))); simpl; rewrite ?A, ?B; reflexivity.
Qed.

Lemma nth_tys : forall E x, nth_error (tys E) x = option_map (fun o => fst (osig o)) (nth_error E x).
Proof. intros. apply nth_error_map. Qed.

Lemma eval_full : forall E t, scope E -> forall k s, no_matvec t -> typecheck (tys E) t = Some s ->
  exists o k', eval E k t = Fine (o, k') /\ osig o = s /\ k <= k' /\ usable (length E) k' o = true.
Proof.
  intros E t SC. induction t as [x|ty|t IH|t IH|b t IH|b t1 IH1 t2 IH2]; intros k s NM T; simpl in T |- *.
  - rewrite nth_tys in T. destruct (nth_error E x) as [o|] eqn:N; [|discriminate]. simpl in T. injection T as <-.
    eexists; eexists; split; [reflexivity|]. split; [reflexivity|]. split; [lia|].
    unfold usable. simpl. apply andb_true_intro. split.
    + apply Nat.ltb_lt. apply nth_error_Some. congruence.
    + apply forallb_forall. intros a I. apply named_live. apply (SC o a); [|exact I]. eapply nth_error_In; exact N.
  - destruct (tkind ty); try discriminate; injection T as <-; eexists; eexists; (split; [reflexivity|]); (split; [reflexivity|]);
      (split; [lia|]); unfold usable; simpl; rewrite andb_true_r; apply Nat.ltb_lt; lia.
  - destruct (typecheck (tys E) t) as [[ty c]|] eqn:Q; [|discriminate].
    destruct (is_rvalue c && is_base ty) eqn:R; [|discriminate]. injection T as <-.
    destruct (IH k _ NM eq_refl) as [o [k' [H1 [H2 [H3 H4]]]]].
    rewrite H1, H2. simpl. rewrite R. eexists; eexists; split; [reflexivity|]. split; [reflexivity|]. split; [exact H3|exact H4].
  - destruct (typecheck (tys E) t) as [[ty c]|] eqn:Q; [|discriminate].
    destruct c; try discriminate. injection T as <-.
    destruct (IH k _ NM eq_refl) as [o [k' [H1 [H2 [H3 H4]]]]].
    rewrite H1, H2. eexists; eexists; split; [reflexivity|]. split; [reflexivity|]. split; [exact H3|exact H4].
  - destruct (typecheck (tys E) t) as [s1|] eqn:Q; [|discriminate].
    destruct (IH k _ NM eq_refl) as [o [k' [H1 [H2 [H3 H4]]]]].
    rewrite H1, H2, T, H4. eexists; eexists; split; [reflexivity|]. split; [reflexivity|]. split; [lia|].
    unfold usable. simpl. rewrite (lives_mono _ k'); [|lia|apply kept_live; exact H4].
    rewrite andb_true_r. apply Nat.ltb_lt. lia.
  - destruct NM as [NB [NM1 NM2]].
    destruct (typecheck (tys E) t1) as [s1|] eqn:Q1; [|discriminate].
    destruct (typecheck (tys E) t2) as [s2|] eqn:Q2; [|discriminate].
    destruct (IH1 k _ NM1 eq_refl) as [o1 [k1 [A1 [A2 [A3 A4]]]]].
    destruct (IH2 k1 _ NM2 eq_refl) as [o2 [k2 [B1 [B2 [B3 B4]]]]].
    pose proof (usable_mono _ k1 k2 o1 B3 A4) as A5.
    rewrite A1, B1, A2, B2, T, A5, B4. simpl. eexists; eexists; split; [reflexivity|]. split; [reflexivity|]. split; [lia|].
    unfold usable. simpl. rewrite !forallb_app.
    assert (L : locals2 b = []) by (destruct b; try reflexivity; exfalso; apply NB; reflexivity).
    rewrite L. simpl.
    rewrite !(lives_mono _ k2) by (lia || (apply kept_live; assumption)).
    simpl. rewrite andb_true_r. apply Nat.ltb_lt. lia.
Qed.

Lemma careful_no_matvec : forall G t s, careful G t -> typecheck G t = Some s -> no_matvec t.
Proof.
  intros G t. induction t as [x|ty|t IH|t IH|b t IH|b t1 IH1 t2 IH2]; intros s C T; simpl in C, T |- *; try exact I; try contradiction.
  - destruct (typecheck G t) as [s1|] eqn:Q; [|discriminate]. apply (IH s1); auto.
  - destruct (typecheck G t) as [s1|] eqn:Q; [|discriminate]. apply (IH s1); tauto.
  - destruct C as [C1 [C2 C3]].
    destruct (typecheck G t1) as [s1|] eqn:Q1; [|discriminate].
    destruct (typecheck G t2) as [s2|] eqn:Q2; [|discriminate].
    split; [|split; [apply (IH1 s1); auto | apply (IH2 s2); auto]].
    intros ->. exact (C3 s1 s2 eq_refl eq_refl).
Qed.

Lemma Pv_not_Lv : Pv <> Lv. Proof. discriminate. Qed.

Lemma call1_Pv : forall b s r, call1 b s = Some r -> snd r = Pv.
Proof. unfold call1. intros b s r H. destruct (accepts1 b (fst s)); [|discriminate]. destruct (_ || _); [discriminate|]. injection H as <-. reflexivity. Qed.
Lemma call2_Pv : forall b s1 s2 r, call2 b s1 s2 = Some r -> snd r = Pv.
Proof.
  unfold call2. intros b s1 s2 r H. destruct (accepts2 b (fst s1) (fst s2)); [|discriminate].
  destruct (_ || _); [discriminate|]. injection H as <-. reflexivity.
Qed.

(** What is kept of a careful operand is named. *)
Lemma kept_named : forall n m o, (forall a, In a (orefs o) -> named n a) -> (snd (osig o) = Lv -> named n (oaddr o)) ->
  (m = ByRef -> snd (osig o) = Lv) -> (m = Keep \/ m = Elem -> ~ temp_array (osig o)) ->
  forall a, In a (kept m o) -> named n a.
Proof.
  intros n m o R A HB HK a I.
  assert (AR : tkind (fst (osig o)) = KArray -> m = Keep \/ m = Elem -> named n (oaddr o)).
  { intros K M. apply A. specialize (HK M). unfold temp_array in HK. destruct (snd (osig o)) eqn:C; try reflexivity;
      exfalso; apply HK; split; congruence. }
  unfold kept in I. destruct m.
  - destruct (tkind (fst (osig o))) eqn:K; try (apply R; exact I).
    destruct I as [<-|[]]. apply AR; auto.
  - destruct I as [<-|I]; [apply A; apply HB; reflexivity | apply R; exact I].
  - destruct (tkind (fst (osig o))) eqn:K; try (apply R; exact I); try (destruct I as [<-|[]]; apply AR; auto); destruct I.
  - destruct I.
Qed.

Lemma careful1 : forall b s r, call1 b s = Some r ->
  match b with B1Gen _ | B1List | B1Elem => ~ temp_array s | B1Transpose => snd s = Lv | _ => True end ->
  (mode1 b = ByRef -> snd s = Lv) /\ (mode1 b = Keep \/ mode1 b = Elem -> ~ temp_array s).
Proof.
  intros b [t c] r C H.
  assert (G : guarded1 b -> ~ temp_array (t, c)).
  { intros G T. apply eq_sym in C. assert (N : call1 b (t, c) = None) by (apply guarded1_call; auto). congruence. }
  assert (P : pointing b -> c = Lv).
  { intros G0. destruct c; auto; exfalso.
    - assert (N : call1 b (t, Xv) = None) by (apply pointing_call; [exact G0|]; right; discriminate). congruence.
    - assert (N : call1 b (t, Pv) = None) by (apply pointing_call; [exact G0|]; right; discriminate). congruence. }
  destruct b; simpl in *; split; intros M; try discriminate M; try (destruct M; discriminate); auto.
Qed.

Lemma careful2 : forall b s1 s2 r, call2 b s1 s2 = Some r ->
  match b with B2Gen _ | B2PowProd | B2Tensor => ~ temp_array s1 /\ ~ temp_array s2 | B2Matvec => False | _ => True end ->
  modes2 b = (Keep, Keep) /\ ~ temp_array s1 /\ ~ temp_array s2 /\ locals2 b = [].
Proof.
  intros b [t1 c1] [t2 c2] r C H.
  assert (G : guarded2 b -> ~ temp_array (t1, c1) /\ ~ temp_array (t2, c2)).
  { intros G. split; intros T; assert (N : call2 b (t1, c1) (t2, c2) = None) by (apply guarded2_call; auto); congruence. }
  destruct b; simpl in *; try contradiction; split; try reflexivity; tauto.
Qed.

Lemma eval_careful : forall E t, scope E -> forall k s o k', careful (tys E) t -> typecheck (tys E) t = Some s ->
  eval E k t = Fine (o, k') ->
  osig o = s /\ (forall a, In a (orefs o) -> named (length E) a) /\ (snd s = Lv -> named (length E) (oaddr o)).
Proof.
  intros E t SC. induction t as [x|ty|t IH|t IH|b t IH|b t1 IH1 t2 IH2]; intros k s o k' C T EV; simpl in C, T, EV; try contradiction.
  - rewrite nth_tys in T. destruct (nth_error E x) as [o0|] eqn:N; [|discriminate]. simpl in T. injection T as <-. injection EV as <- <-.
    simpl. split; [reflexivity|]. split.
    + intros a. apply (SC o0 a). eapply nth_error_In; exact N.
    + intros _. exists x. split; [reflexivity|]. apply nth_error_Some. congruence.
  - destruct (tkind ty); try discriminate; injection T as <-; injection EV as <- <-; simpl; (split; [reflexivity|]); split; try tauto; discriminate.
  - destruct (typecheck (tys E) t) as [[ty c]|] eqn:Q; [|discriminate]. destruct c; try discriminate. injection T as <-.
    destruct (eval E k t) as [| |[o1 k1]] eqn:EV1; try discriminate.
    destruct (IH k _ o1 k1 C eq_refl EV1) as [H1 [H2 H3]]. rewrite H1 in EV. injection EV as <- <-. simpl.
    split; [reflexivity|]. split; [exact H2|]. discriminate.
  - destruct C as [C CB]. destruct (typecheck (tys E) t) as [s1|] eqn:Q; [|discriminate].
    destruct (eval E k t) as [| |[o1 k1]] eqn:EV1; try discriminate.
    destruct (IH k _ o1 k1 C eq_refl EV1) as [H1 [H2 H3]]. rewrite H1, T in EV.
    destruct (usable (length E) k1 o1); [|discriminate]. injection EV as <- <-. simpl.
    split; [reflexivity|]. split.
    + destruct (careful1 b s1 s T (CB s1 eq_refl)) as [M1 M2]. rewrite <- H1 in M1, M2, H3.
      apply (kept_named _ _ _ H2 H3 M1 M2).
    + rewrite (call1_Pv _ _ _ T). discriminate.
  - destruct C as [C1 [C2 CB]].
    destruct (typecheck (tys E) t1) as [s1|] eqn:Q1; [|discriminate].
    destruct (typecheck (tys E) t2) as [s2|] eqn:Q2; [|discriminate].
    destruct (eval E k t1) as [| |[o1 k1]] eqn:EV1; try discriminate.
    destruct (eval E k1 t2) as [| |[o2 k2]] eqn:EV2; try discriminate.
    destruct (IH1 k _ o1 k1 C1 eq_refl EV1) as [A1 [A2 A3]].
    destruct (IH2 k1 _ o2 k2 C2 eq_refl EV2) as [B1 [B2 B3]].
    rewrite A1, B1, T in EV.
    destruct (usable (length E) k2 o1 && usable (length E) k2 o2); [|discriminate]. injection EV as <- <-. simpl.
    split; [reflexivity|]. split.
    + destruct (careful2 b s1 s2 s T (CB s1 s2 eq_refl eq_refl)) as [M [N1 [N2 L]]]. rewrite M, L. simpl.
      rewrite <- A1 in A3, N1. rewrite <- B1 in B3, N2.
      intros a I. apply in_app_or in I. destruct I as [I|I].
      * apply (kept_named _ Keep o1 A2 A3); auto; discriminate.
      * apply (kept_named _ Keep o2 B2 B3); auto; discriminate.
    + rewrite (call2_Pv _ _ _ _ T). discriminate.
Qed.

(** * Programs *)
Lemma tys_app : forall E o, tys (E ++ [o]) = tys E ++ [fst (osig o)].
Proof. intros. unfold tys. rewrite map_app. reflexivity. Qed.
Lemma bound_sig : forall n o, fst (osig (bound n o)) = fst (osig o).
Proof. reflexivity. Qed.
Lemma named_S : forall n m a, n <= m -> named n a -> named m a.
Proof. intros n m a H [y [-> Hy]]. exists y. split; [reflexivity|lia]. Qed.

Lemma scope_bound : forall E o, scope E -> (forall a, In a (orefs o) -> named (length E) a) -> scope (E ++ [bound (length E) o]).
Proof.
  intros E o SC R o' a I Ia. rewrite app_length. apply (named_S (length E)); [simpl; lia|].
  apply in_app_or in I. destruct I as [I|[<-|[]]]; [apply (SC o' a I Ia)|].
  simpl in Ia. destruct (is_array (fst (osig o))); [destruct Ia|]. apply R; exact Ia.
Qed.

Lemma careful_runs : forall p E, scope E -> compiles (tys E) p = true -> careful_prog (tys E) p -> runs E p = true.
Proof.
  induction p as [|t p IH|t p IH|p IHp q IHq]; intros E SC CO CA; simpl in CO, CA |- *.
  - reflexivity.
  - destruct CA as [C CP]. destruct (typecheck (tys E) t) as [s|] eqn:T; [|discriminate].
    apply andb_prop in CO. destruct CO as [_ CO].
    destruct (eval_full E t SC 0 s (careful_no_matvec _ _ _ C T) T) as [o [k [EV [SG [_ U]]]]].
    destruct (eval_careful E t SC 0 s o k C T EV) as [_ [R _]].
    rewrite EV, U, orb_true_r. simpl. apply IH.
    + apply scope_bound; assumption.
    + rewrite tys_app, bound_sig, SG. exact CO.
    + rewrite tys_app, bound_sig, SG. exact (CP s eq_refl).
  - destruct CA as [NM CP]. destruct (typecheck (tys E) t) as [s|] eqn:T; [|discriminate].
    destruct (eval_full E t SC 0 s NM T) as [o [k [EV [SG [_ U]]]]].
    rewrite EV, U. simpl. apply IH; assumption.
  - destruct CA as [C1 C2]. apply andb_prop in CO. destruct CO as [O1 O2].
    rewrite IHp, IHq by assumption. reflexivity.
Qed.

Lemma scope_nil : scope []. Proof. intros o a []. Qed.

Lemma careful_safe : forall p, compiles [] p = true -> careful_prog [] p -> runs [] p = true.
Proof. intros p. apply (careful_runs p [] scope_nil). Qed.

Lemma guarded_careful : forall G t, guarded t -> careful G t.
Proof.
  intros G t. induction t as [x|ty|t IH|t IH|b t IH|b t1 IH1 t2 IH2]; simpl; try tauto.
  - intros [B GT]. split; [auto|]. intros s _. destruct b; simpl in B; tauto.
  - intros [B [G1 G2]]. split; [auto|split; [auto|]]. intros s1 s2 _ _. destruct b; simpl in B; tauto.
Qed.
Lemma guarded_no_matvec : forall t, guarded t -> no_matvec t.
Proof.
  induction t as [x|ty|t IH|t IH|b t IH|b t1 IH1 t2 IH2]; simpl; try tauto.
  intros [B [G1 G2]]. split; [|tauto]. intros ->. exact B.
Qed.
Lemma guarded_careful_prog : forall p G, guarded_prog p -> careful_prog G p.
Proof.
  induction p as [|t p IH|t p IH|p IHp q IHq]; intros G; simpl; try tauto.
  - intros [A B]. split; [apply guarded_careful; exact A|]. intros s _. apply IH; exact B.
  - intros [A B]. split; [apply guarded_no_matvec; exact A|]. apply IH; exact B.
  - intros [A B]. split; auto.
Qed.
Lemma guarded_safe : forall p, compiles [] p = true -> guarded_prog p -> runs [] p = true.
Proof. intros p C G. apply careful_safe; [exact C|]. apply guarded_careful_prog; exact G. Qed.

(** * What dangles *)
Lemma eval_sig : forall E t k o k', eval E k t = Fine (o, k') -> typecheck (tys E) t = Some (osig o).
Proof.
  intros E t. induction t as [x|ty|t IH|t IH|b t IH|b t1 IH1 t2 IH2]; intros k o k' EV; simpl in EV |- *.
  - rewrite nth_tys. destruct (nth_error E x) as [o0|]; [|discriminate]. injection EV as <- <-. reflexivity.
  - destruct (tkind ty); try discriminate; injection EV as <- <-; reflexivity.
  - destruct (eval E k t) as [| |[o1 k1]] eqn:EV1; try discriminate. rewrite (IH _ _ _ EV1). destruct (osig o1) as [ty c]. simpl in EV.
    destruct (is_rvalue c && is_base ty); [|discriminate]. injection EV as <- <-. reflexivity.
  - destruct (eval E k t) as [| |[o1 k1]] eqn:EV1; try discriminate. rewrite (IH _ _ _ EV1). destruct (osig o1) as [ty []]; try discriminate.
    injection EV as <- <-. reflexivity.
  - destruct (eval E k t) as [| |[o1 k1]] eqn:EV1; try discriminate. rewrite (IH _ _ _ EV1).
    destruct (call1 b (osig o1)) as [s|]; [|discriminate]. destruct (usable _ _ _); [|discriminate]. injection EV as <- <-. reflexivity.
  - destruct (eval E k t1) as [| |[o1 k1]] eqn:EV1; try discriminate. rewrite (IH1 _ _ _ EV1).
    destruct (eval E k1 t2) as [| |[o2 k2]] eqn:EV2; try discriminate. rewrite (IH2 _ _ _ EV2).
    destruct (call2 b (osig o1) (osig o2)) as [s|]; [|discriminate]. destruct (_ && _); [|discriminate]. injection EV as <- <-. reflexivity.
Qed.

Lemma eval_Pv : forall E t k o k', eval E k t = Fine (o, k') -> snd (osig o) = Pv -> exists j, oaddr o = ATemp j.
Proof.
  intros E t. destruct t as [x|ty|t|t|b t|b t1 t2]; intros k o k' EV P; simpl in EV.
  - destruct (nth_error E x) as [o0|]; [|discriminate]. injection EV as <- <-. discriminate P.
  - destruct (tkind ty); try discriminate; injection EV as <- <-; eexists; reflexivity.
  - destruct (eval E k t) as [| |[o1 k1]]; try discriminate. destruct (_ && _); [|discriminate]. injection EV as <- <-. discriminate P.
  - destruct (eval E k t) as [| |[o1 k1]]; try discriminate. destruct (osig o1) as [ty []]; try discriminate. injection EV as <- <-. discriminate P.
  - destruct (eval E k t) as [| |[o1 k1]]; try discriminate. destruct (call1 b (osig o1)) as [s|]; [|discriminate].
    destruct (usable _ _ _); [|discriminate]. injection EV as <- <-. eexists; reflexivity.
  - destruct (eval E k t1) as [| |[o1 k1]]; try discriminate. destruct (eval E k1 t2) as [| |[o2 k2]]; try discriminate.
    destruct (call2 b (osig o1) (osig o2)) as [s|]; [|discriminate]. destruct (_ && _); [|discriminate]. injection EV as <- <-. eexists; reflexivity.
Qed.

Lemma dead_temp : forall n l j, In (ATemp j) l -> forallb (live n 0) l = false.
Proof.
  intros n l j I. apply not_true_is_false. intros F. rewrite forallb_forall in F. specialize (F _ I). discriminate F.
Qed.
Lemma dead_local : forall n k l, In ALocal l -> forallb (live n k) l = false.
Proof.
  intros n k l I. apply not_true_is_false. intros F. rewrite forallb_forall in F. specialize (F _ I). discriminate F.
Qed.

(** Programs that start with declarations. *)
Lemma lets_runs : forall ts E G p, types (tys E) ts = Some G ->
  (forall E', tys E' = G -> length E' = length E + length ts -> runs E' p = false) -> runs E (lets ts p) = false.
Proof.
  induction ts as [|t ts IH]; intros E G p T H; simpl in T |- *.
  - injection T as <-. apply H; [reflexivity|simpl; lia].
  - destruct (eval E 0 t) as [| |[o k]] eqn:EV; try reflexivity. rewrite (eval_sig _ _ _ _ _ EV) in T.
    apply andb_false_iff. right. apply (IH _ G).
    + rewrite tys_app, bound_sig. exact T.
    + intros E' H1 H2. apply H; [exact H1|]. rewrite H2, app_length. simpl. lia.
Qed.

(** A declared object that keeps a temporary, or the local of a function, and is not an array. *)
Lemma let_use_dangles : forall E t, (forall o k, eval E 0 t = Fine (o, k) ->
    is_array (fst (osig o)) = false /\ ((exists j, In (ATemp j) (orefs o)) \/ In ALocal (orefs o))) ->
  runs E (let_use (length E) t) = false.
Proof.
  intros E t H. simpl. destruct (eval E 0 t) as [| |[o k]] eqn:EV; try reflexivity.
  destruct (H o k eq_refl) as [A D]. apply andb_false_iff. right.
  rewrite nth_error_app2 by lia. rewrite Nat.sub_diag. simpl. rewrite A. unfold usable. simpl.
  replace (forallb (live (length (E ++ [bound (length E) o])) 0) (orefs o)) with false.
  - rewrite andb_false_r. reflexivity.
  - symmetry. destruct D as [[j D]|D]; [apply (dead_temp _ _ j D) | apply dead_local; exact D].
Qed.


Lemma unguarded1_dangles : forall b ts t G ty, unguarded1 b -> types [] ts = Some G -> typecheck G t = Some (ty, Pv) -> tkind ty = KArray ->
  runs [] (lets ts (let_use (length ts) (TApp1 b t))) = false.
Proof.
  intros b ts t G ty U TS T K. apply (lets_runs ts [] G); [exact TS|]. intros E HE LE. simpl in LE. rewrite <- LE. rewrite <- HE in T.
  apply let_use_dangles. intros o k EV. simpl in EV.
  destruct (eval E 0 t) as [| |[o1 k1]] eqn:EV1; try discriminate.
  pose proof (eval_sig _ _ _ _ _ EV1) as SG. rewrite T in SG. injection SG as SG.
  destruct (eval_Pv _ _ _ _ _ EV1) as [j J]; [rewrite <- SG; reflexivity|].
  rewrite <- SG in EV.
  destruct (call1 b (ty, Pv)) as [s|] eqn:C; [|discriminate]. destruct (usable _ _ _); [|discriminate]. injection EV as <- <-. simpl.
  assert (KE : kept (mode1 b) o1 = [ATemp j]).
  { unfold kept. rewrite <- SG. simpl. rewrite K, J. destruct b; simpl in U; try contradiction; reflexivity. }
  rewrite KE. split; [|left; exists j; left; reflexivity].
  unfold call1 in C. destruct (accepts1 b (fst (ty, Pv))) as [r|] eqn:A; [|discriminate]. destruct (_ || _); [discriminate|]. injection C as <-. simpl.
  destruct b; simpl in U; try contradiction; simpl in A; destruct (is_base ty && _); try discriminate; injection A as <-; unfold is_array; simpl; rewrite ?K; reflexivity.
Qed.

Lemma call2_not_array : forall b s1 s2 s, call2 b s1 s2 = Some s -> is_array (fst s) = false.
Proof.
  unfold call2. intros b s1 s2 s H. destruct (accepts2 b (fst s1) (fst s2)) as [r|] eqn:A; [|discriminate].
  destruct (_ || _); [discriminate|]. injection H as <-. simpl.
  destruct b; simpl in A; destruct (is_base _ && is_base _ && _); try discriminate; injection A as <-; reflexivity.
Qed.

Lemma unguarded2_dangles : forall b ts t1 t2 G ty1 ty2 c1 c2, unguarded2 b -> types [] ts = Some G ->
  typecheck G t1 = Some (ty1, c1) -> typecheck G t2 = Some (ty2, c2) ->
  (c1 = Pv /\ tkind ty1 = KArray) \/ (c2 = Pv /\ tkind ty2 = KArray) ->
  runs [] (lets ts (let_use (length ts) (TApp2 b t1 t2))) = false.
Proof.
  intros b ts t1 t2 G ty1 ty2 c1 c2 U TS T1 T2 D. apply (lets_runs ts [] G); [exact TS|]. intros E HE LE. simpl in LE. rewrite <- LE.
  rewrite <- HE in T1, T2. apply let_use_dangles. intros o k EV. simpl in EV.
  destruct (eval E 0 t1) as [| |[o1 k1]] eqn:EV1; try discriminate.
  destruct (eval E k1 t2) as [| |[o2 k2]] eqn:EV2; try discriminate.
  pose proof (eval_sig _ _ _ _ _ EV1) as S1. rewrite T1 in S1. injection S1 as S1.
  pose proof (eval_sig _ _ _ _ _ EV2) as S2. rewrite T2 in S2. injection S2 as S2.
  rewrite <- S1, <- S2 in EV.
  destruct (call2 b (ty1, c1) (ty2, c2)) as [s|] eqn:C; [|discriminate]. destruct (_ && _); [|discriminate]. injection EV as <- <-. simpl.
  split; [apply (call2_not_array _ _ _ _ C)|].
  assert (M : modes2 b = (Keep, Keep)) by (destruct b; simpl in U; try contradiction; reflexivity). rewrite M. simpl.
  left. destruct D as [[-> K]|[-> K]].
  - destruct (eval_Pv _ _ _ _ _ EV1) as [j J]; [rewrite <- S1; reflexivity|]. exists j.
    apply in_or_app. right. apply in_or_app. left. unfold kept. rewrite <- S1. simpl. rewrite K, J. left. reflexivity.
  - destruct (eval_Pv _ _ _ _ _ EV2) as [j J]; [rewrite <- S2; reflexivity|]. exists j.
    apply in_or_app. right. apply in_or_app. right. unfold kept. rewrite <- S2. simpl. rewrite K, J. left. reflexivity.
Qed.

Lemma transpose_dangles : forall ts t G ty, types [] ts = Some G -> typecheck G t = Some (ty, Pv) ->
  runs [] (lets ts (let_use (length ts) (TApp1 B1Transpose t))) = false.
Proof.
  intros ts t G ty TS T. apply (lets_runs ts [] G); [exact TS|]. intros E HE LE. simpl in LE. rewrite <- LE. rewrite <- HE in T.
  apply let_use_dangles. intros o k EV. simpl in EV.
  destruct (eval E 0 t) as [| |[o1 k1]] eqn:EV1; try discriminate.
  pose proof (eval_sig _ _ _ _ _ EV1) as SG. rewrite T in SG. injection SG as SG.
  destruct (eval_Pv _ _ _ _ _ EV1) as [j J]; [rewrite <- SG; reflexivity|].
  rewrite <- SG in EV.
  destruct (call1 B1Transpose (ty, Pv)) as [s|] eqn:C; [|discriminate]. destruct (usable _ _ _); [|discriminate]. injection EV as <- <-. simpl.
  split; [|left; exists j; left; exact J].
  unfold call1 in C. destruct (accepts1 B1Transpose (fst (ty, Pv))) as [r|] eqn:A; [|discriminate]. destruct (_ || _); [discriminate|].
  injection C as <-. simpl in A. destruct (is_base ty && _); [|discriminate]. injection A as <-. reflexivity.
Qed.

Lemma matvec_dangles : forall ts t1 t2 G, types [] ts = Some G -> runs [] (lets ts (PUse (TApp2 B2Matvec t1 t2) PDone)) = false.
Proof.
  intros ts t1 t2 G TS. apply (lets_runs ts [] G); [exact TS|]. intros E HE LE. simpl.
  destruct (eval E 0 t1) as [| |[o1 k1]]; try reflexivity.
  destruct (eval E k1 t2) as [| |[o2 k2]]; try reflexivity.
  destruct (call2 B2Matvec (osig o1) (osig o2)) as [s|]; [|reflexivity]. destruct (_ && _); [|reflexivity].
  unfold usable. simpl. rewrite andb_false_r. reflexivity.
Qed.

Lemma lval_dangles : forall ts b t G ty, types [] ts = Some G -> typecheck G t = Some (ty, Pv) -> tkind ty = KArray -> guarded1 b ->
  runs [] (lets ts (let_use (length ts) (TApp1 b (TLval t)))) = false.
Proof.
  intros ts b t G ty TS T K GB. apply (lets_runs ts [] G); [exact TS|]. intros E HE LE. simpl in LE. rewrite <- LE. rewrite <- HE in T.
  apply let_use_dangles. intros o k EV. simpl in EV.
  destruct (eval E 0 t) as [| |[o1 k1]] eqn:EV1; try discriminate.
  pose proof (eval_sig _ _ _ _ _ EV1) as SG. rewrite T in SG. injection SG as SG.
  destruct (eval_Pv _ _ _ _ _ EV1) as [j J]; [rewrite <- SG; reflexivity|].
  rewrite <- SG in EV. simpl in EV. destruct (is_base ty); [|discriminate]. simpl in EV.
  destruct (call1 b (ty, Lv)) as [s|] eqn:C; [|discriminate]. destruct (usable _ _ _); [|discriminate]. injection EV as <- <-. simpl.
  rewrite (guarded1_mode b GB). unfold kept. simpl. rewrite K, J. split; [|left; exists j; left; reflexivity].
  unfold call1 in C. destruct (accepts1 b (fst (ty, Lv))) as [r|] eqn:A; [|discriminate]. destruct (_ || _); [discriminate|]. injection C as <-. simpl.
  destruct b; simpl in GB; try contradiction; simpl in A; destruct (is_base ty && _); try discriminate; injection A as <-; unfold is_array; simpl; rewrite ?K; reflexivity.
Qed.

(** * Accepted operands *)
Ltac suit := unfold number, integer, floating, boolean; cbv;
  split; let H := fresh in intros H; first [exact I | reflexivity | discriminate | contradiction | (exfalso; apply H; reflexivity) | (intros X; discriminate X)].
Lemma unary_suits_b : forall u e, unary_dom u e = true <-> unary_suits u e.
Proof. intros u e. destruct u, e; suit. Qed.
Lemma op_suits_b : forall o e, binop_dom o e = true <-> op_suits o e.
Proof. intros u e. destruct u, e; suit. Qed.
Lemma dim_eqb_eq : forall a b, dim_eqb a b = true <-> a = b.
Proof. intros [] []; simpl; intuition congruence. Qed.
Lemma accepts1_suits : forall b t, (exists r, accepts1 b t = Some r) <-> tkind t <> KRef /\ suits1 b t.
Proof.
  intros b t.
  assert (W : forall (cnd : bool) (P : Prop) x, (cnd = true <-> P) ->
    ((exists r : ty, (if is_base t && cnd then Some x else None) = Some r) <-> tkind t <> KRef /\ P)).
  { intros cnd P x H. rewrite <- H. unfold is_base. destruct (tkind t), cnd; simpl; split; intros A; try (destruct A as [? A]; discriminate);
      try (split; congruence); try (eexists; reflexivity); destruct A; congruence. }
  destruct b; simpl; apply W; try apply dim_eqb_eq; try apply unary_suits_b; try apply op_suits_b; try tauto.
  - unfold is_array. destruct (tkind t); split; congruence.
  - rewrite andb_true_iff, dim_eqb_eq. destruct (tkind t); intuition congruence.
Qed.
Lemma real_b : forall e, is_real e = true <-> number e.
Proof. intros []; suit. Qed.
Lemma floating_b : forall e, is_floating e = true <-> floating e.
Proof. intros []; suit. Qed.
Lemma accepts2_suits : forall b t1 t2, (exists r, accepts2 b t1 t2 = Some r) <-> tkind t1 <> KRef /\ tkind t2 <> KRef /\ suits2 b t1 t2.
Proof.
  intros b t1 t2.
  assert (W : forall (cnd : bool) (P : Prop) x, (cnd = true <-> P) ->
    ((exists r : ty, (if is_base t1 && is_base t2 && cnd then Some x else None) = Some r) <-> tkind t1 <> KRef /\ tkind t2 <> KRef /\ P)).
  { intros cnd P x H. rewrite <- H. unfold is_base. destruct (tkind t1), (tkind t2), cnd; simpl; split; intros A; try (destruct A as [? A]; discriminate);
      first [exists x; reflexivity | split; [discriminate|split; [discriminate|reflexivity]] | exfalso; destruct A as [? [? ?]]; congruence]. }
  destruct b; simpl; apply W; rewrite ?andb_true_iff, ?dim_eqb_eq, ?elt_eqb_eq, ?op_suits_b, ?real_b, ?floating_b; try tauto; try (intuition congruence).
  destruct (telt t2); simpl; intuition congruence.
Qed.

Lemma call1_some : forall b s, (exists r, call1 b s = Some r) <-> call1 b s <> None.
Proof. intros b s. destruct (call1 b s); split; intros H; try congruence; [eexists; reflexivity | destruct H; discriminate]. Qed.
Lemma call2_some : forall b s1 s2, (exists r, call2 b s1 s2 = Some r) <-> call2 b s1 s2 <> None.
Proof. intros b s1 s2. destruct (call2 b s1 s2); split; intros H; try congruence; [eexists; reflexivity | destruct H; discriminate]. Qed.

Lemma acc_none1 : forall b t, accepts1 b t = None <-> ~ (tkind t <> KRef /\ suits1 b t).
Proof.
  intros b t. rewrite <- accepts1_suits. destruct (accepts1 b t); split; intros H; try congruence; [|intros [? ?]; discriminate].
  exfalso; apply H; eexists; reflexivity.
Qed.
Lemma acc_none2 : forall b t1 t2, accepts2 b t1 t2 = None <-> ~ (tkind t1 <> KRef /\ tkind t2 <> KRef /\ suits2 b t1 t2).
Proof.
  intros b t1 t2. rewrite <- accepts2_suits. destruct (accepts2 b t1 t2); split; intros H; try congruence; [|intros [? ?]; discriminate].
  exfalso; apply H; eexists; reflexivity.
Qed.
Lemma temp_dec : forall s, temp_array s \/ ~ temp_array s.
Proof.
  intros s. destruct (is_rvalue (snd s) && is_array (fst s)) eqn:E; [left; apply temp_array_b; exact E|].
  right. rewrite temp_array_b. congruence.
Qed.

Lemma guarded1_accepts : forall b t c, guarded1 b ->
  (exists r, call1 b (t, c) = Some r) <-> tkind t <> KRef /\ tkind t <> KRand /\ suits1 b t /\ ~ temp_array (t, c).
Proof.
  intros b t c G. rewrite call1_some. rewrite (guarded1_call b t c G), acc_none1.
  destruct (temp_dec (t, c)), (accepts1 b t) eqn:A; destruct (tkind t) eqn:K;
    try (assert (Q : tkind t <> KRef /\ suits1 b t) by (apply accepts1_suits; eexists; exact A));
    try (apply acc_none1 in A); rewrite ?K in *; try tauto; intuition congruence.
Qed.
Lemma guarded2_accepts : forall b t1 c1 t2 c2, guarded2 b ->
  (exists r, call2 b (t1, c1) (t2, c2) = Some r) <->
  (tkind t1 <> KRef /\ tkind t1 <> KRand /\ ~ temp_array (t1, c1)) /\ (tkind t2 <> KRef /\ tkind t2 <> KRand /\ ~ temp_array (t2, c2)) /\ suits2 b t1 t2.
Proof.
  intros b t1 c1 t2 c2 G. rewrite call2_some. rewrite (guarded2_call b t1 c1 t2 c2 G), acc_none2.
  destruct (accepts2 b t1 t2) eqn:A.
  - assert (Q : tkind t1 <> KRef /\ tkind t2 <> KRef /\ suits2 b t1 t2) by (apply accepts2_suits; eexists; exact A). tauto.
  - apply acc_none2 in A. tauto.
Qed.
Lemma pointing_accepts : forall b t c, pointing b -> (exists r, call1 b (t, c) = Some r) <-> tkind t <> KRef /\ suits1 b t /\ c = Lv.
Proof.
  intros b t c G. rewrite call1_some. rewrite (pointing_call b t c G), acc_none1.
  destruct (accepts1 b t) eqn:A.
  - assert (Q : tkind t <> KRef /\ suits1 b t) by (apply accepts1_suits; eexists; exact A). destruct c; intuition congruence.
  - apply acc_none1 in A. tauto.
Qed.
Lemma detached_accepts : forall b t c, detached b -> (exists r, call1 b (t, c) = Some r) <-> tkind t <> KRef /\ suits1 b t.
Proof.
  intros b t c G. rewrite call1_some. rewrite (detached_call b t c G), acc_none1.
  destruct (accepts1 b t) eqn:A.
  - assert (Q : tkind t <> KRef /\ suits1 b t) by (apply accepts1_suits; eexists; exact A). tauto.
  - apply acc_none1 in A. tauto.
Qed.

(** The operands the unguarded functions do reject. *)
Lemma tensor_accepts : forall t1 c1 t2 c2,
  (exists r, call2 B2Tensor (t1, c1) (t2, c2) = Some r) <->
  tkind t1 <> KRef /\ tkind t2 <> KRef /\ suits2 B2Tensor t1 t2 /\ tkind t1 <> KRand /\ tkind t2 <> KRand /\
  ~ (c1 <> Lv /\ c2 <> Lv /\ (tkind t1 = KArray \/ tkind t2 = KArray)).
Proof.
  intros t1 c1 t2 c2. pose proof (accepts2_suits B2Tensor t1 t2) as A.
  rewrite call2_some. unfold call2. simpl fst. destruct (accepts2 B2Tensor t1 t2) as [r|] eqn:E.
  - assert (Q : tkind t1 <> KRef /\ tkind t2 <> KRef /\ suits2 B2Tensor t1 t2) by (apply A; eexists; reflexivity).
    destruct Q as [Q1 [Q2 Q3]]. simpl in Q3. destruct Q3 as [D1 [D2 [N E1]]].
    assert (D : deleted2 B2Tensor (t1, c1) (t2, c2) = is_rvalue c1 && is_rvalue c2 && (is_array t1 || is_array t2)).
    { simpl. rewrite expr_deleted_of; simpl.
      - destruct (is_rvalue c1), (is_rvalue c2); simpl; reflexivity.
      - unfold is_base. destruct (tkind t1); congruence.
      - unfold is_base. destruct (tkind t2); congruence.
      - apply real_b; exact N.
      - apply elt_eqb_eq; exact E1.
      - apply dim_eqb_eq; congruence. }
    rewrite D. unfold is_array, keepable. simpl. destruct c1, c2, (tkind t1), (tkind t2); simpl; intuition congruence.
  - split; [congruence|]. intros [Q1 [Q2 [Q3 _]]]. exfalso. assert (X : exists r, @None ty = Some r) by (apply A; auto).
    destruct X; discriminate.
Qed.

(** ** Declarations *)
Lemma declares t G s : typecheck G t = Some s -> (compiles G (PLet t PDone) = true <-> (tkind (fst s) = KRand -> snd s = Pv)).
Proof. intros E. cbn. rewrite E, andb_true_r. unfold copyable. destruct (tkind (fst s)), (snd s); split; intros H; try reflexivity; try discriminate; try (specialize (H eq_refl)); congruence. Qed.
