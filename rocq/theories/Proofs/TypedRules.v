(** Programs on typed arrays: no conversions, what stays unchanged, mismatches, builds, absence of undefined behaviour. *)
From Coq Require Import ZArith Bool List Lia.
From Verif Require Import Base.Outcome Base.ZList Model.IntModel Model.Scalars Model.Typed.
From Verif Require Import Spec.IntSpec Spec.ScalarSpec Spec.TypedSpec Proofs.TypingProofs Proofs.TypedProofs Proofs.TypedMeaning Proofs.TypedThms.
Import ListNotations.
Local Open Scope Z_scope.

(** ** No conversions *)
Lemma un_same o b b' : un_result o b = Some b' -> b' = b.
Proof. destruct o, b as [|[]|]; cbn; congruence. Qed.
Lemma op_same o b b' : acmp o = false -> op_result o b = Some b' -> b' = b.
Proof. destruct o, b; cbn; congruence. Qed.
Lemma one_type K G e t : uncast e -> atyp K G e = Some t -> forall k, In k (names e) -> nth_error K k = Some (adim t, ael t).
Proof.
  revert t. induction e as [j|o e IH|e IH|e IH|o e1 IH1 e2 IH2|o x e IH|o e IH x|b e IH|e IH]; cbn [uncast atyp names]; intros t U H k I.
  - destruct I as [->|[]]. destruct (nth_error K k) as [[d b]|]; [|discriminate]. now injection H as <-.
  - destruct (atyp K G e) as [[d b [|]]|]; try discriminate. destruct (un_result o b) as [b'|] eqn:R; [|discriminate]. injection H as <-. apply un_same in R. subst b'. now apply (IH _ U eq_refl).
  - destruct (atyp K G e) as [[d b [|]]|]; try discriminate. destruct (is_real b); [|discriminate]. injection H as <-. now apply (IH _ U eq_refl).
  - destruct (atyp K G e) as [[d b [|]]|]; try discriminate. destruct (is_flt b); [|discriminate]. injection H as <-. now apply (IH _ U eq_refl).
  - destruct U as (U1 & U2). destruct (atyp K G e1) as [[d b [|]]|]; try discriminate. destruct (atyp K G e2) as [[d' b' [|]]|]; try discriminate.
    destruct (eqb d d' && bty_eqb b b' && negb (acmp o)) eqn:Q; [|discriminate]. apply andb_prop in Q as (Q & Qc). apply andb_prop in Q as (Qd & Qb). apply eqb_prop in Qd. apply bty_eqb_eq in Qb. subst d' b'.
    destruct (op_result o b) as [r|] eqn:R; [|discriminate]. injection H as <-. apply op_same in R; [|now destruct (acmp o)]. subst r.
    apply in_app_or in I as [I|I]; [now apply (IH1 _ U1 eq_refl)|now apply (IH2 _ U2 eq_refl)].
  - destruct (typ G x) as [[|b']|]; try discriminate. destruct (atyp K G e) as [[d b [|]]|]; try discriminate. destruct (bty_eqb b b' && negb (acmp o)) eqn:Q; [|discriminate]. apply andb_prop in Q as (_ & Qc).
    destruct (op_result o b) as [r|] eqn:R; [|discriminate]. injection H as <-. apply op_same in R; [|now destruct (acmp o)]. subst r. now apply (IH _ U eq_refl).
  - destruct (typ G x) as [[|b']|]; try discriminate. destruct (atyp K G e) as [[d b [|]]|]; try discriminate. destruct (bty_eqb b b' && negb (acmp o)) eqn:Q; [|discriminate]. apply andb_prop in Q as (_ & Qc).
    destruct (op_result o b) as [r|] eqn:R; [|discriminate]. injection H as <-. apply op_same in R; [|now destruct (acmp o)]. subst r. now apply (IH _ U eq_refl).
  - destruct U.
  - destruct (atyp K G e) as [[d b t']|]; [|discriminate]. injection H as <-. now apply (IH _ U eq_refl).
Qed.

(** ** What a program leaves alone *)
Section KEEP.
Context (c : cfg).
Definition state_of (r : mut state) : option state := match r with MOk s | MFail _ s => Some s | MUB => None end.
Definition grown (k : option nat) (s s' : state) : Prop :=
  (exists more, snd s' = snd s ++ more) /\ forall j a, Some j <> k -> nth_error (fst s) j = Some a -> nth_error (fst s') j = Some a.
Lemma grown_refl k s : grown k s s.
Proof. split; [exists []; now rewrite app_nil_r|auto]. Qed.
Lemma andthen_grown {A} k s (o : option (outcome A)) (f : A -> option (mut state)) r s' :
  andthen s o f = Some r -> state_of r = Some s' -> (forall x, f x = Some r -> grown k s s') -> grown k s s'.
Proof. destruct o as [[x|e|]|]; cbn; intros H E F; [now apply (F x)|injection H as <-; injection E as <-; apply grown_refl|injection H as <-; discriminate|discriminate]. Qed.
Lemma grown_upd k s a : grown (Some k) s (upd (fst s) k a, snd s).
Proof. split; [exists []; now rewrite app_nil_r|]. cbn. intros j b N E. rewrite upd_other; congruence. Qed.
Lemma store_grown k g l : forall s r s', store s k g l = Some r -> state_of r = Some s' -> grown (Some k) s s'.
Proof.
  induction l as [|x l IH]; intros s r s' H E; cbn in H.
  - injection H as <-. injection E as <-. apply grown_refl.
  - destruct (nth_error (fst s) k) as [a|] eqn:Ea; [|discriminate]. eapply andthen_grown; [exact H|exact E|]. intros a' H'. destruct (IH _ _ _ H' E) as ((m & M) & F).
    split; [exists m; exact M|]. intros j b N Eb. apply F; [exact N|]. cbn. rewrite upd_other; congruence.
Qed.
Lemma push_grown k s t o r s' : push s t o = Some r -> state_of r = Some s' -> grown k s s'.
Proof. intros H E. eapply andthen_grown; [exact H|exact E|]. intros v [= <-]. injection E as <-. split; [eexists; reflexivity|auto]. Qed.
Lemma step_grown s t r s' : step c s t = Some r -> state_of r = Some s' -> grown (target t) s s'.
Proof.
  intros H E. rewrite (surjective_pairing s) in H at 1.
  destruct t as [x|e|e1 e2|k is|k is x|e|k e|k x|o k e|o k x|k e]; cbn [step] in H; rewrite <- ?surjective_pairing in H; cbn [target].
  - destruct (typ _ x); [|discriminate]. eapply push_grown; eauto.
  - destruct (atyp_in _ _ e); [|discriminate]. eapply push_grown; eauto.
  - eapply push_grown; eauto.
  - destruct (nth_error _ k); [|discriminate]. eapply push_grown; eauto.
  - destruct (nth_error _ k); [|discriminate]. eapply andthen_grown; [exact H|exact E|]. intros a' [= <-]. injection E as <-. apply grown_upd.
  - destruct (atyp_in _ _ e); [|discriminate]. eapply andthen_grown; [exact H|exact E|]. intros a' [= <-]. injection E as <-. split; [exists []; now rewrite app_nil_r|].
    cbn. intros j b _ Ea. rewrite nth_error_app1; [exact Ea|]. apply nth_error_Some. congruence.
  - destruct (nth_error (fst s) k) as [a|]; [|discriminate]. eapply andthen_grown; [exact H|exact E|]. intros p H'.
    assert (forall p, assign c s k a p = Some r -> grown (Some k) s s') as R.
    { clear -E. intros p H. unfold assign in H. destruct (psh _ p); [|discriminate]. destruct (same_shape _ _); [|discriminate]. eapply andthen_grown; [exact H|exact E|]. intros ? H'; cbv beta in H'. eapply store_grown; eauto. }
    cbv beta in H'. destruct p; try now apply (R _ H'). destruct (bty_eqb _ _); [|discriminate]. eapply andthen_grown; [exact H'|exact E|]. intros a' [= <-]. injection E as <-. apply grown_upd.
  - destruct (nth_error (fst s) k) as [a|]; [|discriminate]. eapply andthen_grown; [exact H|exact E|]. intros v H'. cbv beta in H'. destruct (bty_eqb _ _); [|discriminate]. eapply store_grown; eauto.
  - destruct (nth_error (fst s) k) as [a|]; [|discriminate]. eapply andthen_grown; [exact H|exact E|]. intros p H'. cbv beta in H'. unfold update in H'. destruct (psh _ p); [|discriminate]. destruct (same_shape _ _); [|discriminate].
    eapply andthen_grown; [exact H'|exact E|]. intros ? H''. cbv beta in H''. eapply store_grown; eauto.
  - destruct (nth_error (fst s) k) as [a|]; [|discriminate]. eapply andthen_grown; [exact H|exact E|]. intros v H'. cbv beta in H'. eapply store_grown; eauto.
  - destruct (nth_error (fst s) k) as [a|]; [|discriminate]. destruct (atyp_in _ _ e); [|discriminate]. eapply andthen_grown; [exact H|exact E|]. intros a' H'. cbv beta in H'. destruct (bty_eqb _ _); [|discriminate].
    injection H' as <-. injection E as <-. apply grown_upd.
Qed.
Theorem untouched l : forall s r s', run c s l = Some r -> state_of r = Some s' ->
  (exists more, snd s' = snd s ++ more) /\ forall j a, (forall t, In t l -> target t <> Some j) -> nth_error (fst s) j = Some a -> nth_error (fst s') j = Some a.
Proof.
  induction l as [|t l IH]; intros s r s' H E; cbn in H.
  - injection H as <-. injection E as <-. split; [exists []; now rewrite app_nil_r|auto].
  - destruct (step c s t) as [[s1|f s1|]|] eqn:ST; try discriminate.
    + destruct (step_grown _ _ _ _ ST eq_refl) as ((m1 & M1) & F1). destruct (IH _ _ _ H E) as ((m & M) & F). split; [exists (m1 ++ m); now rewrite M, M1, app_assoc|].
      intros j a N Ea. apply F; [intros t' I; apply N; now right|]. apply F1; [|exact Ea]. apply not_eq_sym, N. now left.
    + injection H as <-. injection E as <-. destruct (step_grown _ _ _ _ ST eq_refl) as ((m1 & M1) & F1). split; [eauto|]. intros j a N Ea. apply F1; [|exact Ea]. apply not_eq_sym, N. now left.
    + injection H as <-. discriminate.
Qed.

(** ** Sizes *)
Definition kept (s s' : state) : Prop :=
  forall j a, nth_error (fst s) j = Some a -> exists a', nth_error (fst s') j = Some a' /\ tty a' = tty a /\ tsh a' = tsh a /\ zlen (tel a') = zlen (tel a).
Lemma kept_refl s : kept s s.
Proof. intros j a E. eauto. Qed.
Lemma kept_trans s s1 s2 : kept s s1 -> kept s1 s2 -> kept s s2.
Proof. intros H1 H2 j a E. destruct (H1 _ _ E) as (a1 & E1 & A & B & C). destruct (H2 _ _ E1) as (a2 & E2 & A' & B' & C'). exists a2. repeat split; congruence. Qed.
Lemma andthen_kept {A} s (o : option (outcome A)) (f : A -> option (mut state)) r s' :
  andthen s o f = Some r -> state_of r = Some s' -> (forall x, o = Some (Ok x) -> f x = Some r -> kept s s') -> kept s s'.
Proof. destruct o as [[x|e|]|]; cbn; intros H E F; [now apply (F x)|injection H as <-; injection E as <-; apply kept_refl|injection H as <-; discriminate|discriminate]. Qed.
Lemma kept_upd (s : state) k a a' : nth_error (fst s) k = Some a -> tty a' = tty a -> tsh a' = tsh a -> zlen (tel a') = zlen (tel a) -> kept s (upd (fst s) k a', snd s).
Proof.
  intros E A B C j b Eb. cbn. destruct (Nat.eq_dec j k) as [->|N]; [rewrite E in Eb; injection Eb as <-; rewrite (upd_nth_same _ _ _ _ E); eauto|]. rewrite upd_other by congruence. eauto.
Qed.
Lemma twrite_kept a x v a' : twrite a x v = Some (Ok a') -> tty a' = tty a /\ tsh a' = tsh a /\ zlen (tel a') = zlen (tel a).
Proof.
  unfold twrite. destruct (place _ _) as [[p|f|]|]; cbn; try discriminate. unfold oset. destruct ((0 <=? p) && (p <? zlen (tel a))); cbn; intros [= <-]. cbn. rewrite zlen_zupd. auto.
Qed.
Lemma store_kept k g l : forall s r s', store s k g l = Some r -> state_of r = Some s' -> kept s s'.
Proof.
  induction l as [|x l IH]; intros s r s' H E; cbn in H.
  - injection H as <-. injection E as <-. apply kept_refl.
  - destruct (nth_error (fst s) k) as [a|] eqn:Ea; [|discriminate]. eapply andthen_kept; [exact H|exact E|]. intros a' W H'. destruct (g _ _ _) as [[v|f|]|]; cbn [bindo] in W; try discriminate.
    destruct (twrite_kept _ _ _ _ W) as (A & B & C). eapply kept_trans; [eapply kept_upd; eauto|]. eapply IH; eauto.
Qed.
Lemma push_kept s t o r s' : push s t o = Some r -> state_of r = Some s' -> kept s s'.
Proof. intros H E. eapply andthen_kept; [exact H|exact E|]. intros v _ [= <-]. injection E as <-. exact (kept_refl s). Qed.
Lemma own_tmp e st sc p : prep c st sc e = Some (Ok p) -> (forall e', e <> ATemp e') -> match p with PTmp _ => False | _ => True end.
Proof.
  intros H N. destruct e; cbn [prep] in H; try (destruct (nth_error _ _); [|discriminate]); repeat match type of H with bindo _ _ = _ => apply bindo_iff in H as (? & _ & H) end; try (injection H as <-; exact I);
    try (now destruct (N e)); unfold binary in H; repeat match type of H with match ?x with _ => _ end = _ => destruct x; try discriminate end;
    repeat match type of H with bindo _ _ = _ => apply bindo_iff in H as (? & _ & H) end; injection H as <-; exact I.
Qed.
Lemma step_kept s t r s' : step c s t = Some r -> state_of r = Some s' -> ~ moves t -> ~ resizes t -> kept s s'.
Proof.
  intros H E NM NR. rewrite (surjective_pairing s) in H at 1.
  destruct t as [x|e|e1 e2|k is|k is x|e|k e|k x|o k e|o k x|k e]; cbn [step] in H; rewrite <- ?surjective_pairing in H.
  - destruct (typ _ x); [|discriminate]. eapply push_kept; eauto.
  - destruct (atyp_in _ _ e); [|discriminate]. eapply push_kept; eauto.
  - eapply push_kept; eauto.
  - destruct (nth_error _ k); [|discriminate]. eapply push_kept; eauto.
  - destruct (nth_error _ k) as [a|] eqn:A; [|discriminate]. eapply andthen_kept; [exact H|exact E|]. intros a' W [= <-]. injection E as <-. apply bindo_iff in W as (v & _ & W). apply bindo_iff in W as (y & _ & W).
    destruct (bty_eqb _ _); [|discriminate]. destruct (twrite_kept _ _ _ _ W) as (B & C & D). eapply kept_upd; eauto.
  - destruct (atyp_in _ _ e); [|discriminate]. eapply andthen_kept; [exact H|exact E|]. intros a' _ [= <-]. injection E as <-. intros j b Eb. exists b. cbn. rewrite nth_error_app1; [auto|]. apply nth_error_Some. congruence.
  - destruct (nth_error (fst s) k) as [a|]; [|discriminate]. eapply andthen_kept; [exact H|exact E|]. intros p P H'; cbv beta in H'.
    assert (match p with PTmp _ => False | _ => True end) as NT by (eapply own_tmp; [exact P|]; intros e' ->; now apply NM).
    assert (assign c s k a p = Some r) as R by (destruct p; try exact H'; destruct NT). unfold assign in R. destruct (psh _ p); [|discriminate]. destruct (same_shape _ _); [|discriminate].
    eapply andthen_kept; [exact R|exact E|]. intros ? _ R'; cbv beta in R'. eapply store_kept; eauto.
  - destruct (nth_error (fst s) k) as [a|]; [|discriminate]. eapply andthen_kept; [exact H|exact E|]. intros v _ H'; cbv beta in H'. destruct (bty_eqb _ _); [|discriminate]. eapply store_kept; eauto.
  - destruct (nth_error (fst s) k) as [a|]; [|discriminate]. eapply andthen_kept; [exact H|exact E|]. intros p _ R; cbv beta in R. unfold update in R. destruct (psh _ p); [|discriminate]. destruct (same_shape _ _); [|discriminate].
    eapply andthen_kept; [exact R|exact E|]. intros ? _ R'; cbv beta in R'. eapply store_kept; eauto.
  - destruct (nth_error (fst s) k) as [a|]; [|discriminate]. eapply andthen_kept; [exact H|exact E|]. intros v _ H'; cbv beta in H'. eapply store_kept; eauto.
  - now destruct NR.
Qed.
Theorem sizes_kept l : forall s r s', run c s l = Some r -> state_of r = Some s' -> Forall (fun t => ~ moves t /\ ~ resizes t) l -> kept s s'.
Proof.
  induction l as [|t l IH]; intros s r s' H E F; cbn in H; [injection H as <-; injection E as <-; apply kept_refl|].
  inversion F as [|? ? (F1 & F2) F3]; subst. destruct (step c s t) as [[s1|f s1|]|] eqn:ST; try discriminate.
  - eapply kept_trans; [exact (step_kept _ _ _ _ ST eq_refl F1 F2)|eauto].
  - injection H as <-. injection E as <-. exact (step_kept _ _ _ _ ST eq_refl F1 F2).
  - injection H as <-. discriminate.
Qed.
Theorem types_kept l : forall E E', ptyp E l = Some E' -> exists K G, fst E' = fst E ++ K /\ snd E' = snd E ++ G.
Proof.
  induction l as [|t l IH]; intros E E' H; cbn in H.
  - injection H as <-. exists [], []. now rewrite !app_nil_r.
  - destruct (styp E t) as [E1|] eqn:Y; [|discriminate]. destruct (IH _ _ H) as (K2 & G2 & -> & ->).
    assert (exists K G, fst E1 = fst E ++ K /\ snd E1 = snd E ++ G) as (K1 & G1 & -> & ->).
    { clear -Y. destruct E as [K G], t; cbn in Y; repeat some_case Y; injection Y as <-; cbn; first [exists [], []; rewrite !app_nil_r; split; reflexivity | exists []; eexists; split; [symmetry; apply app_nil_r|reflexivity] | eexists; exists []; split; [reflexivity|symmetry; apply app_nil_r]]. }
    exists (K1 ++ K2), (G1 ++ G2). now rewrite !app_assoc.
Qed.

(** ** Sizes that do not match *)
Section ONE.
Context (s : state) (T : typed s) (SZ : sized s) (K : checked c = true).
Notation st := (fst s). Notation sc := (snd s).
Lemma clash_fails e : forall u, ax_consts e -> atyp_in st sc e = Some u -> clash c s e -> prep c st sc e = Some (Fail (report c)).
Proof using T SZ K.
  induction e as [j|o e IH|e IH|e IH|o e1 IH1 e2 IH2|o x e IH|o e IH x|b e IH|e IH]; intros u C A H; pose proof (typed_parts s _ _ A) as TP; cbn [ax_consts clash prep] in *.
  - destruct H.
  - destruct TP as (t & TP). now rewrite (IH _ C TP H).
  - destruct TP as (t & TP). now rewrite (IH _ C TP H).
  - destruct TP as (t & TP). now rewrite (IH _ C TP H).
  - destruct TP as ((t1 & T1) & (t2 & T2)), C as (C1 & C2). destruct H as [H|(h1 & S1 & M1 & H)]; [now rewrite (IH1 _ C1 T1 H)|].
    destruct (prepare c s T SZ e1 _ h1 C1 T1 S1 M1) as (p & (_ & _ & E1 & MP1 & _ & _ & D1 & _)). rewrite E1. cbn [bindo].
    destruct H as [H|(h2 & S2 & M2 & N)]; [now rewrite (IH2 _ C2 T2 H)|].
    destruct (prepare c s T SZ e2 _ h2 C2 T2 S2 M2) as (q & (_ & _ & E2 & MP2 & _ & _ & D2 & _)). rewrite E2. cbn [bindo]. unfold binary. rewrite (psh_pshape _ _ _ (proj1 MP1)), (psh_pshape _ _ _ (proj1 MP2)).
    assert (adim t1 = adim t2) as D.
    { unfold atyp_in in A, T1, T2. cbn [atyp] in A. rewrite T1, T2 in A. destruct t1 as [d b [|]], t2 as [d' b' [|]]; try discriminate. destruct (eqb d d') eqn:Q; [now apply eqb_prop in Q|discriminate]. }
    destruct (same_shape h1 h2) as [[|]|] eqn:E; [apply same_shape_true in E; contradiction|now rewrite (check_debug_false _ K)|]. destruct h1, h2; cbn in *; congruence.
  - destruct TP as (t & TP), C as (C1 & C2), H as ((v & V) & H). unfold seval. unfold scalar in V. rewrite V. cbn [bindo]. now rewrite (IH _ C2 TP H).
  - destruct TP as (t & TP), C as (C1 & C2). now rewrite (IH _ C2 TP H).
  - destruct TP as (t & TP). now rewrite (IH _ C TP H).
  - destruct TP as (t & TP). rewrite TP. now rewrite (IH _ C TP H).
Qed.
Theorem mismatch E' t : stm_consts t -> styp (types_of s) t = Some E' -> mismatched c s t -> step c s t = Some (MFail (report c) s).
Proof using T SZ K.
  intros C Y H. unfold types_of in Y.
  assert (forall e u k a h p, ax_consts e -> atyp_in st sc e = Some u -> nth_error st k = Some a -> adim u = two (tsh a) -> prepared c s e h p u -> h <> tsh a ->
    assign c s k a p = Some (MFail (report c) s) /\ forall o, update c s k a o p = Some (MFail (report c) s)) as AS.
  { intros e u k a h p Ce A NA D (_ & _ & _ & MP & _ & _ & D' & _) N. unfold assign, update. rewrite (psh_pshape _ _ _ (proj1 MP)).
    destruct (same_shape (tsh a) h) as [[|]|] eqn:SH; [apply same_shape_true in SH; congruence| |destruct (tsh a), h; cbn in *; congruence]. rewrite (check_debug_false _ K). auto. }
  rewrite (surjective_pairing s) at 1.
  destruct t as [x|e|e1 e2|k is|k is x|e|k e|k x|o k e|o k x|k e]; try easy; cbn [step]; rewrite <- ?surjective_pairing; cbn [styp stm_consts mismatched] in *.
  - fold (atyp_in st sc e) in Y. destruct (atyp_in st sc e) as [u|] eqn:A; [|discriminate]. now rewrite (clash_fails _ _ C A H).
  - fold (atyp_in st sc e1) in Y. fold (atyp_in st sc e2) in Y. destruct (atyp_in st sc e1) as [u1|] eqn:A1; [|discriminate]. destruct (atyp_in st sc e2) as [u2|] eqn:A2; [|discriminate].
    destruct C as (C1 & C2). destruct H as [H|((h & S1 & M1) & H)]; [now rewrite (clash_fails _ _ C1 A1 H)|].
    destruct (prepare c s T SZ e1 _ h C1 A1 S1 M1) as (p & (_ & _ & E1 & _)). rewrite E1. cbn [bindo]. now rewrite (clash_fails _ _ C2 A2 H).
  - fold (atyp_in st sc e) in Y. destruct (atyp_in st sc e) as [u|] eqn:A; [|discriminate]. now rewrite (clash_fails _ _ C A H).
  - fold (atyp_in st sc e) in Y. destruct (nth_error (kinds _) k) as [[d b]|] eqn:KN; [|discriminate]. destruct (kinds_nth _ _ _ _ KN) as (a & NA & Da & Ba). rewrite NA.
    destruct (atyp_in st sc e) as [u|] eqn:A; [|discriminate]. destruct (eqb d (adim u) && bty_eqb b (ael u)) eqn:Q; [|discriminate]. apply andb_prop in Q as (Qd & Qb). apply eqb_prop in Qd.
    destruct H as [H|(NM & a' & h & NA' & S1 & M1 & N)]; [now rewrite (clash_fails _ _ C A H)|].
    rewrite NA in NA'. injection NA' as <-. destruct (prepare c s T SZ e u h C A S1 M1) as (p & P). pose proof P as (_ & _ & E & _ & _ & TM & _). rewrite E. cbn [andthen].
    assert (istmp p = false) as NT.
    { rewrite TM. clear -A NM. destruct e; unfold atyp_in in A; cbn in A, NM; repeat some_case A; try (injection A as <-; reflexivity); tauto. }
    destruct (AS e u k a h p C A NA ltac:(congruence) P N) as (R & _). destruct p; try exact R. discriminate NT.
  - fold (atyp_in st sc e) in Y. destruct (nth_error (kinds _) k) as [[d b]|] eqn:KN; [|discriminate]. destruct (kinds_nth _ _ _ _ KN) as (a & NA & Da & Ba). rewrite NA.
    destruct (atyp_in st sc e) as [u|] eqn:A; [|discriminate]. destruct (eqb d (adim u) && bty_eqb b (ael u) && _) eqn:Q; [|discriminate]. apply andb_prop in Q as (Q & _). apply andb_prop in Q as (Qd & Qb). apply eqb_prop in Qd.
    destruct H as [H|(a' & h & NA' & S1 & M1 & N)]; [now rewrite (clash_fails _ _ C A H)|].
    rewrite NA in NA'. injection NA' as <-. destruct (prepare c s T SZ e u h C A S1 M1) as (p & P). pose proof P as (_ & _ & E & _ & _ & TM & _). rewrite E. cbn [andthen].
    now apply (AS e u k a h p C A NA ltac:(congruence) P N).
  - fold (atyp_in st sc e) in Y. destruct (nth_error (kinds _) k) as [[d b]|] eqn:KN; [|discriminate]. destruct (kinds_nth _ _ _ _ KN) as (a & NA & _). rewrite NA.
    destruct (atyp_in st sc e) as [u|] eqn:A; [|discriminate]. now rewrite (clash_fails _ _ C A H).
Qed.
End ONE.
End KEEP.

(** ** Builds *)
Section BUILDS.
Context (c c' : cfg) (K : checked c = true \/ checked c' = false) (AM : amax c <= amax c').
Lemma bindo_config {A} (x x' : option (outcome A)) k k' (u : value) : (forall v, x = Some (Ok v) -> x' = Some (Ok v)) -> (forall v, k v = Some (Ok u) -> k' v = Some (Ok u)) ->
  bindo x k = Some (Ok u) -> bindo x' k' = Some (Ok u).
Proof. intros X F H. apply bindo_iff in H as (v & V & H). rewrite (X _ V). cbn. auto. Qed.
Lemma vabs_config v u : vabs c v = Some (Ok u) -> vabs c' v = Some (Ok u).
Proof using K.
  destruct v as [b|t z|f x]; cbn [vabs]; auto.
Qed.
Lemma vinv_config v u : vinv c v = Some (Ok u) -> vinv c' v = Some (Ok u).
Proof using K.
  destruct v as [b|t z|f x]; cbn [vinv]; auto.
Qed.
Lemma scalar_config s x v : scalar c s x v -> scalar c' s x v.
Proof using K. unfold scalar. now apply config_ok. Qed.
Lemma elem_config s e : forall i v, elem c s e i v -> elem c' s e i v.
Proof using K.
  induction e as [j|o e IH|e IH|e IH|o e1 IH1 e2 IH2|o x e IH|o e IH x|b e IH|e IH]; cbn; intros i v H; auto.
  - destruct H as (u & U & A). eauto.
  - destruct H as (u & U & A). exists u. split; [auto|now apply vabs_config].
  - destruct H as (u & U & A). exists u. split; [auto|now apply vinv_config].
  - destruct H as (u & w & U & W & A). exists u, w. repeat split; auto. eapply apply2_config; eauto.
  - destruct H as (u & w & U & W & A). exists u, w. repeat split; auto; [now apply scalar_config|eapply apply2_config; eauto].
  - destruct H as (u & w & U & W & A). exists u, w. repeat split; auto; [now apply scalar_config|eapply apply2_config; eauto].
  - destruct H as (u & U & A). eauto.
Qed.
Lemma shaped_config s e h : shaped c s e h -> shaped c' s e h.
Proof using K.
  induction e as [j|o e IH|e IH|e IH|o e1 IH1 e2 IH2|o x e IH|o e IH x|b e IH|e IH]; cbn; auto.
  - tauto.
  - intros ((v & V) & H). split; [exists v; now apply scalar_config|auto].
  - intros ((v & V) & H). split; [exists v; now apply scalar_config|auto].
  - intros (H & F). split; [auto|]. intros i I. destruct (F i I) as (v & V). exists v. now apply elem_config.
Qed.
Lemma fits_config e h : fits_memory c e h -> fits_memory c' e h.
Proof using AM. clear K. induction e; cbn; auto; try tauto. intros (A & B). split; [lia|auto]. Qed.
Lemma array_of_config s e a : array_of c s e a -> array_of c' s e a.
Proof using K AM.
  intros (H & M & L & F). split; [now apply shaped_config|]. split; [now apply fits_config|]. split; [exact L|]. intros i v V. now apply elem_config, F.
Qed.
Lemma adds_config l : forall v r, adds c v l r -> adds c' v l r.
Proof using K. induction l as [|w l IH]; cbn; intros v r H; auto. Qed.
Lemma elems_equal_config s e1 e2 i r : elems_equal c s e1 e2 i r -> elems_equal c' s e1 e2 i r.
Proof using K. intros (v & w & V & W & A). exists v, w. split; [now apply elem_config|]. split; [now apply elem_config|]. eapply apply2_config; eauto. Qed.
Lemma index_config s x n i : index_is c s x n i -> index_is c' s x n i.
Proof using K. intros (B & [V|V]); (split; [exact B|]); [left|right]; now apply scalar_config. Qed.
Lemma position_config s h is p : position c s h is p -> position c' s h is p.
Proof using K.
  destruct h, is as [|x [|y [|]]]; cbn; auto; [apply index_config|]. intros (i & j & I & J & E). exists i, j. repeat split; auto using index_config.
  all: try apply index_config in I; try apply index_config in J; try apply I; try apply J.
Qed.
Lemma does_config s t s' : does c s t s' -> does c' s t s'.
Proof using K AM.
  destruct t as [x|e|e1 e2|k is|k is x|e|k e|k x|o k e|o k x|k e]; cbn [does].
  - intros (v & b & B & V & ->). exists v, b. auto using scalar_config.
  - intros (a & v & A & T & S & ->). exists a, v. split; [now apply array_of_config|]. split; [exact T|]. split; [|reflexivity]. destruct (tel a); cbn [sums_to] in *; [exact S|now apply adds_config].
  - intros (r & (h1 & h2 & H1 & M1 & H2 & M2 & R) & ->). exists r. split; [|reflexivity]. exists h1, h2. split; [now apply shaped_config|]. split; [now apply fits_config|]. split; [now apply shaped_config|]. split; [now apply fits_config|].
    destruct r.
    + destruct R as (E & R). split; [exact E|]. intros i I. now apply elems_equal_config, R.
    + destruct R as [R|(i & I & R & N)]; [now left|]. right. exists i. split; [exact I|]. split; [|now apply elems_equal_config]. intros j J. now apply elems_equal_config, R.
  - intros (a & p & v & A & P & V & ->). exists a, p, v. auto using position_config.
  - intros (a & p & v & A & P & V & ->). exists a, p, v. auto using position_config, scalar_config.
  - intros (a & A & T & ->). exists a. split; [now apply array_of_config|]. auto.
  - intros (a & a' & A & H & R). exists a, a'. split; [exact A|]. split; [now apply array_of_config|exact R].
  - intros (a & v & A & V & R). exists a, v. auto using scalar_config.
  - intros (a & a' & a'' & A & H & SH & T & S2 & L & G & R). exists a, a', a''. split; [exact A|]. split; [now apply array_of_config|]. repeat (split; [assumption|]). split; [|exact R].
    intros i v w u V W U. eapply apply2_config; [exact K|]. eauto.
  - intros (a & w & a'' & A & V & T & S2 & L & G & R). exists a, w, a''. split; [exact A|]. split; [now apply scalar_config|]. repeat (split; [assumption|]). split; [|exact R].
    intros i v u V' U. eapply apply2_config; [exact K|]. eauto.
  - intros (a & a' & A & H & R). exists a, a'. split; [exact A|]. split; [now apply array_of_config|exact R].
Qed.
Lemma performs_config l : forall s s', performs c s l s' -> performs c' s l s'.
Proof using K AM. induction l as [|t l IH]; cbn; intros s s' H; auto. destruct H as (s1 & D & P). exists s1. auto using does_config. Qed.
End BUILDS.
Theorem builds_agree c c' E E' s l s' : cfg_ok c -> cfg_ok c' -> checked c = true -> amax c <= amax c' -> has_types E s -> sized s -> Forall stm_consts l -> Forall (fun t => ~ moves t) l ->
  ptyp E l = Some E' -> run c s l = Some (MOk s') -> run c' s l = Some (MOk s').
Proof.
  intros O O' K AM T SZ C NM Y H. apply (run_performs c l E E' s O K T SZ C NM Y) in H. eapply (performs_run c' l E E' s O' T SZ C Y). now apply (performs_config c c' (or_introl K) AM).
Qed.
