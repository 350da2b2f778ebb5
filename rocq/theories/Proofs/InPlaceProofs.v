From Verif Require Import Base.Outcome Model.IntModel Model.InPlace Spec.InPlaceSpec Proofs.IntProofs.

Scheme ex_mut := Induction for ex Sort Prop with lv_mut := Induction for lv Sort Prop.
Combined Scheme ex_lv_ind from ex_mut, lv_mut.

Section P.
Context (c : cfg) (t : ity).
Notation runv := (runv c t).
Notation runl := (runl c t).

Lemma v_lit o z s : runv o (Lit z) s = RV s z. Proof. reflexivity. Qed.
Lemma v_val o l s : runv o (Val l) s = rbind (runl o l s) (fun s i => RV s (s i)). Proof. reflexivity. Qed.
Lemma v_bin o op e1 e2 s : runv o (Bin op e1 e2) s = if left_first op || o []
      then rbind (runv (inl_ o) e1 s) (fun s x => rbind (runv (inr_ o) e2 s) (fun s y => rlift (bapply c t op x y) s (RV s)))
      else rbind (runv (inr_ o) e2 s) (fun s y => rbind (runv (inl_ o) e1 s) (fun s x => rlift (bapply c t op x y) s (RV s))).
Proof. reflexivity. Qed.
Lemma v_post o up l s : runv o (Post up l) s = rbind (runl o l s) (fun s i => rlift (step_by t up (s i)) s (fun v => RV (put s i v) (s i))). Proof. reflexivity. Qed.
Lemma l_name o i s : runl o (Name i) s = RV s i. Proof. reflexivity. Qed.
Lemma l_pre o up l s : runl o (Pre up l) s = rbind (runl o l s) (fun s i => rlift (step_by t up (s i)) s (fun v => RV (put s i v) i)). Proof. reflexivity. Qed.
Lemma l_upd o op l e s : runl o (Upd op l e) s = rbind (runv (inr_ o) e s) (fun s y => rbind (runl (inl_ o) l s) (fun s i => rlift (bapply c t op (s i) y) s (fun v => RV (put s i v) i))).
Proof. reflexivity. Qed.
Lemma l_asgv o l e s : runl o (AsgV l e) s = rbind (runv (inr_ o) e s) (fun s y => rbind (runl (inl_ o) l s) (fun s i => RV (put s i y) i)). Proof. reflexivity. Qed.
Lemma l_asgl o l k s : runl o (AsgL l k) s = rbind (runl (inr_ o) k s) (fun s j => rbind (runl (inl_ o) l s) (fun s i => RV (put s i (s j)) i)). Proof. reflexivity. Qed.
Ltac ru := repeat first [rewrite v_lit|rewrite v_val|rewrite v_bin|rewrite v_post|rewrite l_name|rewrite l_pre|rewrite l_upd|rewrite l_asgv|rewrite l_asgl].
Lemma target_used : forall l, uses_l l (target l).
Proof. fix IH 1. intros [i|up l|op l e|l e|l k]; cbn [target uses_l]; [reflexivity|apply IH|left; apply IH|left; apply IH|left; apply IH]. Qed.
Lemma changed_used : (forall e i, changes e i -> uses e i) /\ (forall l i, changes_l l i -> uses_l l i).
Proof.
  apply ex_lv_ind; cbn [changes changes_l uses uses_l].
  - tauto.
  - intros l IH i. apply IH.
  - intros op e1 IH1 e2 IH2 i [H|H]; auto.
  - intros up l IH i [->|H]; [apply target_used|auto].
  - tauto.
  - intros up l IH i [->|H]; [apply target_used|auto].
  - intros op l IHl e IHe i [->|[H|H]]; [left; apply target_used|auto|auto].
  - intros l IHl e IHe i [->|[H|H]]; [left; apply target_used|auto|auto].
  - intros l IHl e IHe i [->|[H|H]]; [left; apply target_used|auto|auto].
Qed.
Lemma put_same s i v : put s i v i = v.
Proof. unfold put. now rewrite Nat.eqb_refl. Qed.
Lemma put_other s i v k : k <> i -> put s i v k = s k.
Proof. unfold put. intros H. now destruct (Nat.eqb_spec k i). Qed.
Lemma put_agree (s s' : store) i v k : (k = i \/ s k = s' k) -> put s i v k = put s' i v k.
Proof. unfold put. destruct (Nat.eqb_spec k i); [reflexivity|]. intros [|]; [contradiction|assumption]. Qed.

Lemma target_of : forall l o s s1 i, runl o l s = RV s1 i -> i = target l.
Proof.
  fix IH 1. intros [k|up l|op l e|l e|l k] o s s1 i; ru; cbn [target].
  - now intros [= _ <-].
  - destruct (runl o l s) as [s2 j| |] eqn:E; cbn [rbind]; try discriminate. destruct (step_by t up (s2 j)); cbn [rlift]; try discriminate. intros [= _ <-]. eapply IH; eassumption.
  - destruct (runv (inr_ o) e s) as [s2 y| |]; cbn [rbind]; try discriminate. destruct (runl (inl_ o) l s2) as [s3 j| |] eqn:E; cbn [rbind]; try discriminate. destruct (bapply c t op (s3 j) y); cbn [rlift]; try discriminate. intros [= _ <-]. eapply IH; eassumption.
  - destruct (runv (inr_ o) e s) as [s2 y| |]; cbn [rbind]; try discriminate. destruct (runl (inl_ o) l s2) as [s3 j| |] eqn:E; cbn [rbind]; try discriminate. intros [= _ <-]. eapply IH; eassumption.
  - destruct (runl (inr_ o) k s) as [s2 y| |]; cbn [rbind]; try discriminate. destruct (runl (inl_ o) l s2) as [s3 j| |] eqn:E; cbn [rbind]; try discriminate. intros [= _ <-]. eapply IH; eassumption.
Qed.
(** What is not changed stays. *)
Lemma frame : (forall e o s s1 v, runv o e s = RV s1 v -> forall i, ~ changes e i -> s1 i = s i) /\ (forall l o s s1 k, runl o l s = RV s1 k -> forall i, ~ changes_l l i -> s1 i = s i).
Proof.
  apply ex_lv_ind; cbn [changes changes_l].
  - intros z o s s1 v. ru. intros [= <- _] i _. reflexivity.
  - intros l IH o s s1 v. ru. destruct (runl o l s) as [s2 j| |] eqn:E; cbn [rbind]; try discriminate. intros [= <- _]. eapply IH; eassumption.
  - intros op e1 IH1 e2 IH2 o s s1 v. ru. destruct (left_first op || o []).
    + destruct (runv (inl_ o) e1 s) as [s2 x| |] eqn:E1; cbn [rbind]; try discriminate. destruct (runv (inr_ o) e2 s2) as [s3 y| |] eqn:E2; cbn [rbind]; try discriminate. destruct (bapply c t op x y); cbn [rlift]; try discriminate. intros [= <- _] i Hi.
      rewrite (IH2 _ _ _ _ E2) by tauto. apply (IH1 _ _ _ _ E1). tauto.
    + destruct (runv (inr_ o) e2 s) as [s2 x| |] eqn:E1; cbn [rbind]; try discriminate. destruct (runv (inl_ o) e1 s2) as [s3 y| |] eqn:E2; cbn [rbind]; try discriminate. destruct (bapply c t op y x); cbn [rlift]; try discriminate. intros [= <- _] i Hi.
      rewrite (IH1 _ _ _ _ E2) by tauto. apply (IH2 _ _ _ _ E1). tauto.
  - intros up l IH o s s1 v. ru. destruct (runl o l s) as [s2 j| |] eqn:E; cbn [rbind]; try discriminate. destruct (step_by t up (s2 j)); cbn [rlift]; try discriminate. intros [= <- _] i Hi. rewrite (target_of _ _ _ _ _ E). rewrite put_other by tauto. eapply IH; [eassumption|tauto].
  - intros k o s s1 j. ru. intros [= <- _] i _. reflexivity.
  - intros up l IH o s s1 k. ru. destruct (runl o l s) as [s2 j| |] eqn:E; cbn [rbind]; try discriminate. destruct (step_by t up (s2 j)); cbn [rlift]; try discriminate. intros [= <- _] i Hi. rewrite (target_of _ _ _ _ _ E). rewrite put_other by tauto. eapply IH; [eassumption|tauto].
  - intros op l IHl e IHe o s s1 k. ru. destruct (runv (inr_ o) e s) as [s2 y| |] eqn:E1; cbn [rbind]; try discriminate. destruct (runl (inl_ o) l s2) as [s3 j| |] eqn:E; cbn [rbind]; try discriminate. destruct (bapply c t op (s3 j) y); cbn [rlift]; try discriminate.
    intros [= <- _] i Hi. rewrite (target_of _ _ _ _ _ E). rewrite put_other by tauto. rewrite (IHl _ _ _ _ E) by tauto. apply (IHe _ _ _ _ E1). tauto.
  - intros l IHl e IHe o s s1 k. ru. destruct (runv (inr_ o) e s) as [s2 y| |] eqn:E1; cbn [rbind]; try discriminate. destruct (runl (inl_ o) l s2) as [s3 j| |] eqn:E; cbn [rbind]; try discriminate.
    intros [= <- _] i Hi. rewrite (target_of _ _ _ _ _ E). rewrite put_other by tauto. rewrite (IHl _ _ _ _ E) by tauto. apply (IHe _ _ _ _ E1). tauto.
  - intros l IHl e IHe o s s1 k. ru. destruct (runl (inr_ o) e s) as [s2 y| |] eqn:E1; cbn [rbind]; try discriminate. destruct (runl (inl_ o) l s2) as [s3 j| |] eqn:E; cbn [rbind]; try discriminate.
    intros [= <- _] i Hi. rewrite (target_of _ _ _ _ _ E). rewrite put_other by tauto. rewrite (IHl _ _ _ _ E) by tauto. apply (IHe _ _ _ _ E1). tauto.
Qed.
Lemma changes_dec : (forall e i, changes e i \/ ~ changes e i) /\ (forall l i, changes_l l i \/ ~ changes_l l i).
Proof.
  apply ex_lv_ind; cbn [changes changes_l].
  - tauto.
  - auto.
  - intros op e1 IH1 e2 IH2 i. destruct (IH1 i), (IH2 i); tauto.
  - intros up l IH i. destruct (Nat.eq_dec i (target l)), (IH i); tauto.
  - tauto.
  - intros up l IH i. destruct (Nat.eq_dec i (target l)), (IH i); tauto.
  - intros op l IH e IH2 i. destruct (Nat.eq_dec i (target l)), (IH i), (IH2 i); tauto.
  - intros l IH e IH2 i. destruct (Nat.eq_dec i (target l)), (IH i), (IH2 i); tauto.
  - intros l IH e IH2 i. destruct (Nat.eq_dec i (target l)), (IH i), (IH2 i); tauto.
Qed.
(** Stores that agree on a set of variables containing those used stay in agreement, whatever the choices. *)
Lemma order_gen : (forall e, separate e -> forall (U : nat -> Prop) o o' s s' s1 v, (forall i, uses e i -> U i) -> (forall i, U i -> s i = s' i) -> runv o e s = RV s1 v ->
    exists s1', runv o' e s' = RV s1' v /\ forall i, U i -> s1 i = s1' i) /\
  (forall l, separate_l l -> forall (U : nat -> Prop) o o' s s' s1 k, (forall i, uses_l l i -> U i) -> (forall i, U i -> s i = s' i) -> runl o l s = RV s1 k ->
    exists s1', runl o' l s' = RV s1' k /\ forall i, U i -> s1 i = s1' i).
Proof.
  apply ex_lv_ind; cbn [uses uses_l separate separate_l].
  - intros z _ U o o' s s' s1 v _ HA. ru. intros [= <- <-]. eauto.
  - intros l IH HS U o o' s s' s1 v HU HA. ru. destruct (runl o l s) as [s2 j| |] eqn:E; cbn [rbind]; try discriminate. intros [= <- <-]. destruct (IH HS U o o' s s' s2 j HU HA E) as (s2' & -> & HA2). cbn [rbind]. exists s2'. split; [|exact HA2].
    rewrite (HA2 j); [reflexivity|]. apply HU. rewrite (target_of _ _ _ _ _ E). apply target_used.
  - intros op e1 IH1 e2 IH2 (S1 & S2 & HS) U o o' s s' s1 v HU HA. ru.
    assert (forall i, uses e1 i -> U i) as U1 by auto. assert (forall i, uses e2 i -> U i) as U2 by auto.
    (* left then right *)
    assert (forall oa ob oa' ob' sa sb x y, runv oa e1 s = RV sa x -> runv ob e2 sa = RV sb y -> exists sa' sb', runv oa' e1 s' = RV sa' x /\ runv ob' e2 sa' = RV sb' y /\ forall i, U i -> sb i = sb' i) as LR.
    { intros oa ob oa' ob' sa sb x y E1 E2. destruct (IH1 S1 U oa oa' s s' sa x U1 HA E1) as (sa' & F1 & HA1). destruct (IH2 S2 U ob ob' sa sa' sb y U2 HA1 E2) as (sb' & F2 & HA2). eauto. }
    assert (forall oa ob oa' ob' sa sb x y, runv oa e2 s = RV sa x -> runv ob e1 sa = RV sb y -> exists sa' sb', runv oa' e2 s' = RV sa' x /\ runv ob' e1 sa' = RV sb' y /\ forall i, U i -> sb i = sb' i) as RL.
    { intros oa ob oa' ob' sa sb x y E1 E2. destruct (IH2 S2 U oa oa' s s' sa x U2 HA E1) as (sa' & F1 & HA1). destruct (IH1 S1 U ob ob' sa sa' sb y U1 HA1 E2) as (sb' & F2 & HA2). eauto. }
    (* exchanging two evaluations that do not meet *)
    assert (forall a b oa ob sa sb x y, (a = e1 /\ b = e2 \/ a = e2 /\ b = e1) -> (forall i, ~ (changes e1 i /\ uses e2 i) /\ ~ (uses e1 i /\ changes e2 i)) ->
      runv oa a s = RV sa x -> runv ob b sa = RV sb y -> exists sa' sb', runv ob b s = RV sa' y /\ runv oa a sa' = RV sb' x /\ forall i, sb i = sb' i) as SW.
    { intros a b oa ob sa sb x y HE HD E1 E2.
      assert (forall i, ~ (changes a i /\ uses b i) /\ ~ (uses a i /\ changes b i)) as HDab by (intros i; specialize (HD i); destruct HE as [(-> & ->)|(-> & ->)]; tauto).
      assert (forall (U : nat -> Prop) o o' s s' s1 v, (forall i, uses a i -> U i) -> (forall i, U i -> s i = s' i) -> runv o a s = RV s1 v -> exists s1', runv o' a s' = RV s1' v /\ forall i : nat, U i -> s1 i = s1' i) as IHa by (destruct HE as [(-> & ->)|(-> & ->)]; [exact (IH1 S1)|exact (IH2 S2)]).
      assert (forall (U : nat -> Prop) o o' s s' s1 v, (forall i, uses b i -> U i) -> (forall i, U i -> s i = s' i) -> runv o b s = RV s1 v -> exists s1', runv o' b s' = RV s1' v /\ forall i : nat, U i -> s1 i = s1' i) as IHb by (destruct HE as [(-> & ->)|(-> & ->)]; [exact (IH2 S2)|exact (IH1 S1)]).
      destruct (IHb (uses b) ob ob sa s sb y ltac:(auto)) as (sa' & F1 & G1); [|exact E2|].
      { intros i Hi. apply (proj1 frame _ _ _ _ _ E1). intros Hc. apply (proj1 (HDab i)). auto. }
      destruct (IHa (uses a) oa oa s sa' sa x ltac:(auto)) as (sb' & F2 & G2); [|exact E1|].
      { intros i Hi. symmetry. apply (proj1 frame _ _ _ _ _ F1). intros Hc. apply (proj2 (HDab i)). auto. }
      exists sa', sb'. split; [exact F1|]. split; [exact F2|]. intros i.
      destruct (proj1 changes_dec a i) as [Ca|Ca].
      - assert (uses a i) as Ua by now apply changed_used. rewrite <- (G2 i Ua). apply (proj1 frame _ _ _ _ _ E2). intros Hc. apply (proj2 (HDab i)). auto.
      - rewrite (proj1 frame _ _ _ _ _ F2 i Ca). destruct (proj1 changes_dec b i) as [Cb|Cb].
        + apply G1. now apply changed_used.
        + rewrite (proj1 frame _ _ _ _ _ F1 i Cb), (proj1 frame _ _ _ _ _ E2 i Cb). now apply (proj1 frame _ _ _ _ _ E1). }
    destruct (left_first op || o []) eqn:Eo; destruct (left_first op || o' []) eqn:Eo'.
    + destruct (runv (inl_ o) e1 s) as [s2 x| |] eqn:E1; cbn [rbind]; try discriminate. destruct (runv (inr_ o) e2 s2) as [s3 y| |] eqn:E2; cbn [rbind]; try discriminate.
      destruct (LR _ _ (inl_ o') (inr_ o') _ _ _ _ E1 E2) as (a & b & -> & F & G). cbn [rbind]. rewrite F. cbn [rbind]. destruct (bapply c t op x y); cbn [rlift]; try discriminate. intros [= <- <-]. eauto.
    + destruct HS as [[->| ->]|HS]; [discriminate|discriminate|].
      destruct (runv (inl_ o) e1 s) as [s2 x| |] eqn:E1; cbn [rbind]; try discriminate. destruct (runv (inr_ o) e2 s2) as [s3 y| |] eqn:E2; cbn [rbind]; try discriminate.
      destruct (SW e1 e2 _ _ _ _ _ _ ltac:(auto) HS E1 E2) as (p & q & F1 & F2 & G). destruct (RL _ _ (inr_ o') (inl_ o') _ _ _ _ F1 F2) as (a & b & -> & F & G'). cbn [rbind]. rewrite F. cbn [rbind]. destruct (bapply c t op x y); cbn [rlift]; try discriminate. intros [= <- <-]. exists b. split; [reflexivity|]. intros i Hi. rewrite G. now apply G'.
    + destruct HS as [[->| ->]|HS]; [discriminate|discriminate|].
      destruct (runv (inr_ o) e2 s) as [s2 x| |] eqn:E1; cbn [rbind]; try discriminate. destruct (runv (inl_ o) e1 s2) as [s3 y| |] eqn:E2; cbn [rbind]; try discriminate.
      destruct (SW e2 e1 _ _ _ _ _ _ ltac:(auto) HS E1 E2) as (p & q & F1 & F2 & G). destruct (LR _ _ (inl_ o') (inr_ o') _ _ _ _ F1 F2) as (a & b & -> & F & G'). cbn [rbind]. rewrite F. cbn [rbind]. destruct (bapply c t op y x); cbn [rlift]; try discriminate. intros [= <- <-]. exists b. split; [reflexivity|]. intros i Hi. rewrite G. now apply G'.
    + destruct (runv (inr_ o) e2 s) as [s2 x| |] eqn:E1; cbn [rbind]; try discriminate. destruct (runv (inl_ o) e1 s2) as [s3 y| |] eqn:E2; cbn [rbind]; try discriminate.
      destruct (RL _ _ (inr_ o') (inl_ o') _ _ _ _ E1 E2) as (a & b & -> & F & G). cbn [rbind]. rewrite F. cbn [rbind]. destruct (bapply c t op y x); cbn [rlift]; try discriminate. intros [= <- <-]. eauto.
  - intros up l IH HS U o o' s s' s1 v HU HA. ru. destruct (runl o l s) as [s2 j| |] eqn:E; cbn [rbind]; try discriminate. destruct (IH HS U o o' s s' s2 j HU HA E) as (s2' & -> & HA2). cbn [rbind].
    assert (s2 j = s2' j) as EJ by (apply HA2, HU; rewrite (target_of _ _ _ _ _ E); apply target_used). cbv zeta. rewrite <- EJ. destruct (step_by t up (s2 j)); cbn [rlift]; try discriminate. intros [= <- <-]. eexists. split; [reflexivity|]. intros i Hi. apply put_agree. auto.
  - intros k _ U o o' s s' s1 j _ HA. ru. intros [= <- <-]. eauto.
  - intros up l IH HS U o o' s s' s1 k HU HA. ru. destruct (runl o l s) as [s2 j| |] eqn:E; cbn [rbind]; try discriminate. destruct (IH HS U o o' s s' s2 j HU HA E) as (s2' & -> & HA2). cbn [rbind].
    assert (s2 j = s2' j) as EJ by (apply HA2, HU; rewrite (target_of _ _ _ _ _ E); apply target_used). rewrite <- EJ. destruct (step_by t up (s2 j)); cbn [rlift]; try discriminate. intros [= <- <-]. eexists. split; [reflexivity|]. intros i Hi. apply put_agree. auto.
  - intros op l IHl e IHe (Sl & Se) U o o' s s' s1 k HU HA. ru. destruct (runv (inr_ o) e s) as [s2 y| |] eqn:E1; cbn [rbind]; try discriminate. destruct (runl (inl_ o) l s2) as [s3 j| |] eqn:E; cbn [rbind]; try discriminate.
    destruct (IHe Se U _ (inr_ o') s s' s2 y ltac:(auto) HA E1) as (s2' & -> & HA2). cbn [rbind]. destruct (IHl Sl U _ (inl_ o') s2 s2' s3 j ltac:(auto) HA2 E) as (s3' & -> & HA3). cbn [rbind].
    assert (s3 j = s3' j) as EJ by (apply HA3, HU; left; rewrite (target_of _ _ _ _ _ E); apply target_used). rewrite <- EJ. destruct (bapply c t op (s3 j) y); cbn [rlift]; try discriminate. intros [= <- <-]. eexists. split; [reflexivity|]. intros i Hi. apply put_agree. auto.
  - intros l IHl e IHe (Sl & Se) U o o' s s' s1 k HU HA. ru. destruct (runv (inr_ o) e s) as [s2 y| |] eqn:E1; cbn [rbind]; try discriminate. destruct (runl (inl_ o) l s2) as [s3 j| |] eqn:E; cbn [rbind]; try discriminate.
    destruct (IHe Se U _ (inr_ o') s s' s2 y ltac:(auto) HA E1) as (s2' & -> & HA2). cbn [rbind]. destruct (IHl Sl U _ (inl_ o') s2 s2' s3 j ltac:(auto) HA2 E) as (s3' & -> & HA3). cbn [rbind].
    intros [= <- <-]. eexists. split; [reflexivity|]. intros i Hi. apply put_agree. auto.
  - intros l IHl e IHe (Sl & Se) U o o' s s' s1 k HU HA. ru. destruct (runl (inr_ o) e s) as [s2 y| |] eqn:E1; cbn [rbind]; try discriminate. destruct (runl (inl_ o) l s2) as [s3 j| |] eqn:E; cbn [rbind]; try discriminate.
    destruct (IHe Se U _ (inr_ o') s s' s2 y ltac:(auto) HA E1) as (s2' & -> & HA2). cbn [rbind]. destruct (IHl Sl U _ (inl_ o') s2 s2' s3 j ltac:(auto) HA2 E) as (s3' & -> & HA3). cbn [rbind].
    assert (s3 y = s3' y) as EJ by (apply HA3, HU; right; rewrite (target_of _ _ _ _ _ E1); apply target_used). rewrite <- EJ. intros [= <- <-]. eexists. split; [reflexivity|]. intros i Hi. apply put_agree. auto.
Qed.
Lemma pure_separate : (forall e, (forall i, ~ changes e i) -> separate e) /\ (forall l, (forall i, ~ changes_l l i) -> separate_l l).
Proof.
  apply ex_lv_ind; cbn [changes changes_l separate separate_l].
  - auto.
  - auto.
  - intros op e1 IH1 e2 IH2 H. split; [apply IH1; intros i Hi; apply (H i); auto|]. split; [apply IH2; intros i Hi; apply (H i); auto|]. right. intros i. specialize (H i). tauto.
  - intros up l IH H. exfalso. apply (H (target l)). auto.
  - auto.
  - intros up l IH H. exfalso. apply (H (target l)). auto.
  - intros op l IHl e IHe H. exfalso. apply (H (target l)). auto.
  - intros l IHl e IHe H. exfalso. apply (H (target l)). auto.
  - intros l IHl e IHe H. exfalso. apply (H (target l)). auto.
Qed.
Theorem order_free e o s s1 v : separate e -> runv o e s = RV s1 v -> forall o', exists s2, runv o' e s = RV s2 v /\ same_store s1 s2.
Proof. intros HS E o'. destruct (proj1 order_gen e HS (fun _ => True) o o' s s s1 v) as (s2 & E2 & H); auto. exists s2. split; [exact E2|]. intros i. now apply H. Qed.
Theorem update_sets op i e o s s1 y : runv (inr_ o) e s = RV s1 y -> sets s1 i (bapply c t op (s1 i) y) (runl o (Upd op (Name i) e) s).
Proof.
  intros E. ru. rewrite E. cbn [rbind]. ru. cbn [rbind]. destruct (bapply c t op (s1 i) y) as [v|f|]; cbn [rlift sets]; auto.
  - split; [reflexivity|]. split; [apply put_same|]. intros j Hj. now apply put_other.
  - split; [reflexivity|]. now intros j.
Qed.
Lemma sets_agree s s' i w r : same_store s s' -> sets s i w r -> sets s' i w r.
Proof.
  intros H. unfold sets. destruct w as [v|f|], r as [s2 k|f' s2|]; auto.
  - intros (H1 & H2 & H3). split; [exact H1|]. split; [exact H2|]. intros j Hj. rewrite H3 by assumption. apply H.
  - intros (H1 & H2). split; [exact H1|]. intros j. rewrite <- H. apply H2.
Qed.
Theorem compound_sets op i e o0 s s0 y : pure e -> runv o0 e s = RV s0 y -> forall o,
  sets s i (bapply c t op (s i) y) (runl o (Upd op (Name i) e) s) /\ sets s i (bapply c t op (s i) y) (runl o (AsgV (Name i) (Bin op (Val (Name i)) e)) s).
Proof.
  intros HP E o. assert (forall o', exists s2, runv o' e s = RV s2 y /\ same_store s2 s) as HE.
  { intros o'. destruct (order_free e o0 s s0 y (proj1 pure_separate e HP) E o') as (s2 & E2 & _). exists s2. split; [exact E2|]. intros j. apply (proj1 frame _ _ _ _ _ E2). apply HP. }
  split.
  - destruct (HE (inr_ o)) as (s2 & E2 & H2). rewrite <- (H2 i). apply (sets_agree s2 s); [exact H2|]. now apply update_sets.
  - ru. destruct (left_first op || inr_ o []).
    + ru. cbn [rbind]. destruct (HE (inr_ (inr_ o))) as (s2 & -> & H2). cbn [rbind]. destruct (bapply c t op (s i) y) as [v|f|]; cbn [rlift rbind]; ru; cbn [rbind sets]; auto.
      * split; [reflexivity|]. split; [apply put_same|]. intros j Hj. rewrite put_other by assumption. apply H2.
      * split; [reflexivity|]. intros j. symmetry. apply H2.
    + destruct (HE (inr_ (inr_ o))) as (s2 & -> & H2). cbn [rbind]. ru. cbn [rbind]. rewrite (H2 i). destruct (bapply c t op (s i) y) as [v|f|]; cbn [rlift rbind]; ru; cbn [rbind sets]; auto.
      * split; [reflexivity|]. split; [apply put_same|]. intros j Hj. rewrite put_other by assumption. apply H2.
      * split; [reflexivity|]. intros j. symmetry. apply H2.
Qed.
Theorem increment_sets up i o s : sets s i (next t up (s i)) (runl o (Pre up (Name i)) s) /\
  match runv o (Post up (Name i)) s with RV s' old => old = s i /\ sets s i (next t up (s i)) (RV s' i) | RF _ _ => False | RU => next t up (s i) = UB end.
Proof.
  ru. cbn [rbind]. assert (step_by t up (s i) = next t up (s i)) as E by (destruct up; reflexivity). rewrite E.
  destruct (next t up (s i)) as [v|f|] eqn:EN; cbn [rlift sets].
  - repeat split; try apply put_same; intros j Hj; now apply put_other.
  - exfalso. unfold next in EN. destruct (signed t); [|discriminate]. destruct (_ && _); discriminate.
  - auto.
Qed.
Theorem operands op e1 e2 o1 o2 s s1 s2 x y v : separate (Bin op e1 e2) -> runv o1 e1 s = RV s1 x -> runv o2 e2 s1 = RV s2 y -> bapply c t op x y = Ok v ->
  forall o, exists s3, runv o (Bin op e1 e2) s = RV s3 v /\ same_store s2 s3.
Proof.
  intros HS E1 E2 EV o. set (oo := fun p : list bool => match p with [] => true | true :: p => o1 p | false :: p => o2 p end).
  apply (order_free (Bin op e1 e2) oo s s2 v HS). rewrite v_bin. change (oo []) with true. rewrite orb_true_r.
  change (inl_ oo) with o1. change (inr_ oo) with o2. rewrite E1. cbn [rbind]. rewrite E2. cbn [rbind]. now rewrite EV.
Qed.
Theorem assign_sets i e o s s1 y : runv (inr_ o) e s = RV s1 y -> sets s1 i (Ok y) (runl o (AsgV (Name i) e) s).
Proof. intros E. ru. rewrite E. cbn [rbind]. ru. cbn [rbind sets]. split; [reflexivity|]. split; [apply put_same|]. intros j Hj. now apply put_other. Qed.
Theorem copy_sets i k o s s1 j : runl (inr_ o) k s = RV s1 j -> sets s1 i (Ok (s1 j)) (runl o (AsgL (Name i) k) s).
Proof. intros E. ru. rewrite E. cbn [rbind]. ru. cbn [rbind sets]. split; [reflexivity|]. split; [apply put_same|]. intros q Hq. now apply put_other. Qed.
Theorem read_of l o s s1 j : runl o l s = RV s1 j -> runv o (Val l) s = RV s1 (s1 j) /\ j = target l.
Proof. intros E. split; [ru; now rewrite E|]. eapply target_of. exact E. Qed.
Theorem bapply_computed op x y v : bapply c t op x y = Ok v -> computed t op x y v.
Proof.
  destruct op; cbn [bapply computed]; unfold iadd, isub, imul, arith, exact.
  1-3: destruct (signed t); [destruct (inr t _); [|discriminate]|]; now intros [= <-].
  - unfold idiv. destruct (check_debug c _); cbn [bind]; try discriminate. destruct (Z.eqb_spec y 0); [discriminate|]. destruct (inr t _); [|discriminate]. intros [= <-]. auto.
  - unfold imod. destruct (check_debug c _); cbn [bind]; try discriminate. destruct (Z.eqb_spec y 0); [discriminate|]. destruct (inr t _); [|discriminate]. intros [= <-]. split; [assumption|]. apply Z.quot_rem'.
  - unfold ishl. destruct (if signed t then _ else _); cbn [bind]; try discriminate. destruct ((y <? 0) || (bits t <=? y)) eqn:E; [discriminate|]. apply orb_false_iff in E. destruct E as (E1 & E2). apply Z.ltb_ge in E1. apply Z.leb_gt in E2.
    intros [= <-]. split; [lia|]. destruct (wrap_cong t (x * 2 ^ y)) as (k & ->). replace (2 ^ bits t) with (tmod t) by (now destruct t). apply Z.mod_add. now destruct t.
  - unfold ishr. destruct (if signed t then _ else _); cbn [bind]; try discriminate. destruct ((y <? 0) || (bits t <=? y)) eqn:E; [discriminate|]. apply orb_false_iff in E. destruct E as (E1 & E2). apply Z.ltb_ge in E1. apply Z.leb_gt in E2.
    intros [= <-]. split; [lia|]. assert (0 < 2 ^ y) by (apply Z.pow_pos_nonneg; lia). pose proof (Z.div_mod x (2 ^ y) ltac:(lia)). pose proof (Z.mod_pos_bound x (2 ^ y) ltac:(lia)). nia.
  - intros [= <-] k. apply Z.land_spec.
  - intros [= <-] k. apply Z.lor_spec.
  - intros [= <-] k. apply Z.lxor_spec.
Qed.
Lemma frame_fail : (forall e o s f s1, runv o e s = RF f s1 -> forall i, ~ changes e i -> s1 i = s i) /\ (forall l o s f s1, runl o l s = RF f s1 -> forall i, ~ changes_l l i -> s1 i = s i).
Proof.
  pose proof (proj1 frame) as FV. pose proof (proj2 frame) as FL.
  apply ex_lv_ind; cbn [changes changes_l].
  - intros z o s f s1. ru. discriminate.
  - intros l IH o s f s1. ru. destruct (runl o l s) as [s2 j|g s2|] eqn:E; cbn [rbind]; try discriminate. intros [= -> ->]. eapply IH; eassumption.
  - assert (forall (a b : ex) oa ob s f s1 (k : Z -> Z -> outcome Z), (forall o s f s1, runv o a s = RF f s1 -> forall i, ~ changes a i -> s1 i = s i) -> (forall o s f s1, runv o b s = RF f s1 -> forall i, ~ changes b i -> s1 i = s i) ->
      rbind (runv oa a s) (fun s x => rbind (runv ob b s) (fun s y => rlift (k x y) s (fun v => RV s v))) = RF f s1 -> forall i, ~ changes a i -> ~ changes b i -> s1 i = s i) as K.
    { intros a b oa ob s f s1 k IHa IHb. destruct (runv oa a s) as [s2 x|g s2|] eqn:E1; cbn [rbind]; try discriminate.
      - destruct (runv ob b s2) as [s3 y|g s3|] eqn:E2; cbn [rbind]; try discriminate.
        + destruct (k x y); cbn [rlift]; try discriminate. intros [= _ <-] i Ha Hb. rewrite (FV _ _ _ _ _ E2 i Hb). now apply (FV _ _ _ _ _ E1).
        + intros [= _ <-] i Ha Hb. rewrite (IHb _ _ _ _ E2 i Hb). now apply (FV _ _ _ _ _ E1).
      - intros [= _ <-] i Ha _. now apply (IHa _ _ _ _ E1). }
    intros op e1 IH1 e2 IH2 o s f s1. ru. destruct (left_first op || o []); intros E i Hi.
    + apply (K e1 e2 _ _ _ _ _ (bapply c t op) IH1 IH2 E); tauto.
    + apply (K e2 e1 _ _ _ _ _ (fun y x => bapply c t op x y) IH2 IH1 E); tauto.
  - intros up l IH o s f s1. ru. destruct (runl o l s) as [s2 j|g s2|] eqn:E; cbn [rbind]; try discriminate.
    + destruct (step_by t up (s2 j)); cbn [rlift]; try discriminate. intros [= _ <-] i Hi. apply (FL _ _ _ _ _ E). tauto.
    + intros [= _ <-] i Hi. apply (IH _ _ _ _ E). tauto.
  - intros k o s f s1. ru. discriminate.
  - intros up l IH o s f s1. ru. destruct (runl o l s) as [s2 j|g s2|] eqn:E; cbn [rbind]; try discriminate.
    + destruct (step_by t up (s2 j)); cbn [rlift]; try discriminate. intros [= _ <-] i Hi. apply (FL _ _ _ _ _ E). tauto.
    + intros [= _ <-] i Hi. apply (IH _ _ _ _ E). tauto.
  - intros op l IHl e IHe o s f s1. ru. destruct (runv (inr_ o) e s) as [s2 y|g s2|] eqn:E1; cbn [rbind]; try discriminate.
    + destruct (runl (inl_ o) l s2) as [s3 j|g s3|] eqn:E; cbn [rbind]; try discriminate.
      * destruct (bapply c t op (s3 j) y); cbn [rlift]; try discriminate. intros [= _ <-] i Hi. rewrite (FL _ _ _ _ _ E) by tauto. apply (FV _ _ _ _ _ E1). tauto.
      * intros [= _ <-] i Hi. rewrite (IHl _ _ _ _ E) by tauto. apply (FV _ _ _ _ _ E1). tauto.
    + intros [= _ <-] i Hi. apply (IHe _ _ _ _ E1). tauto.
  - intros l IHl e IHe o s f s1. ru. destruct (runv (inr_ o) e s) as [s2 y|g s2|] eqn:E1; cbn [rbind]; try discriminate.
    + destruct (runl (inl_ o) l s2) as [s3 j|g s3|] eqn:E; cbn [rbind]; try discriminate.
      intros [= _ <-] i Hi. rewrite (IHl _ _ _ _ E) by tauto. apply (FV _ _ _ _ _ E1). tauto.
    + intros [= _ <-] i Hi. apply (IHe _ _ _ _ E1). tauto.
  - intros l IHl e IHe o s f s1. ru. destruct (runl (inr_ o) e s) as [s2 y|g s2|] eqn:E1; cbn [rbind]; try discriminate.
    + destruct (runl (inl_ o) l s2) as [s3 j|g s3|] eqn:E; cbn [rbind]; try discriminate.
      intros [= _ <-] i Hi. rewrite (IHl _ _ _ _ E) by tauto. apply (FL _ _ _ _ _ E1). tauto.
    + intros [= _ <-] i Hi. apply (IHe _ _ _ _ E1). tauto.
Qed.
End P.
