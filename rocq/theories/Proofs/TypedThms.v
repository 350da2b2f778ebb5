(** Programs on typed arrays: running a program does what its statements mean, and only that. *)
From Coq Require Import ZArith Bool List Lia.
From Verif Require Import Base.Outcome Base.ZList Model.IntModel Model.Scalars Model.Typed.
From Verif Require Import Spec.IntSpec Spec.ScalarSpec Spec.TypedSpec Proofs.TypingProofs Proofs.TypedProofs Proofs.TypedMeaning.
Import ListNotations.
Local Open Scope Z_scope.

Ltac some_case H := match type of H with context [match ?m with _ => _ end] => destruct m eqn:?; try discriminate H end.
Section STEPS.
Context (c : cfg).
Lemma andthen_iff {A} (s : state) (o : option (outcome A)) k s' : andthen s o k = Some (MOk s') <-> exists x, o = Some (Ok x) /\ k x = Some (MOk s').
Proof.
  split.
  - destruct o as [[x|f|]|]; cbn; intros H; try discriminate. eauto.
  - intros (x & -> & H). exact H.
Qed.
Lemma push_iff (s : state) t o s' : push s t o = Some (MOk s') <-> exists v, o = Some (Ok v) /\ s' = with_scalar s t v.
Proof. unfold push. rewrite andthen_iff. split; intros (v & V & H); exists v; (split; [exact V|]); [now injection H as <-|now subst]. Qed.
Lemma list_len2 {A B} (l : list A) (r : list B) i v : zlen l = zlen r -> znth l i = Some v -> exists w, znth r i = Some w.
Proof. intros E H. apply znth_lt in H. apply znth_some. lia. Qed.

Section ONE.
Context (s : state) (T : typed s) (SZ : sized s).
Notation st := (fst s). Notation sc := (snd s).
Definition elems (e : ax) (h : shape) (l : list value) : Prop := zlen l = total h /\ forall i v, znth l i = Some v -> elem c s e i v.
Lemma elems_fun e h l l' : elems e h l -> elems e h l' -> l = l'.
Proof.
  intros (L & F) (L' & F'). apply list_ext_zlen; [lia|]. intros i I. destruct (znth_some l i I) as (v & V). destruct (znth_some l' i) as (w & W); [lia|].
  rewrite V, W. f_equal. eapply elem_fun; eauto.
Qed.
Lemma reads_elems e h p xs l : hok h -> meant c s e h p -> places h 0 xs -> (reads st p xs = Some (Ok l) <-> elems e h l).
Proof.
  intros O (P & F) W. rewrite (reads_places _ _ _ _ O P _ W). apply places_length in W. rewrite Z.sub_0_r in W. rewrite W. unfold elems.
  split; intros (L & H); (split; [exact L|]); intros i v V; pose proof (znth_lt _ _ _ V); apply H in V; apply F in V; auto; lia.
Qed.
Lemma sum_elems e h p b r : hok h -> meant c s e h p -> (sum c st b p = Some (Ok r) <-> exists l, elems e h l /\ sums_to c b l r).
Proof.
  intros O M. rewrite (sum_reads _ _ _ _ _ _ (psh_pshape _ _ _ (proj1 M))).
  split; intros (l & L & A); exists l; (split; [|exact A]); apply (reads_elems e h p (lin (total h)) l O M (places_all _ O)); exact L.
Qed.
Lemma array_sized k a : nth_error st k = Some a -> hok (tsh a) /\ same a (tsh a).
Proof using T SZ. intros E. destruct (sized_nth _ _ _ SZ E) as (L & B & H). repeat split; auto. Qed.
Lemma assign_elems e p k a d : nth_error st k = Some a -> pok c (kinds st) d p (tty a) -> meant c s e (tsh a) p ->
  forall s', assign c s k a p = Some (MOk s') <-> exists l, elems e (tsh a) l /\ s' = with_array s k (mktarr (tty a) (tsh a) l).
Proof using T SZ.
  intros E PO M s'. destruct (array_sized _ _ E) as (O & SA). pose proof M as (P & F).
  unfold assign. rewrite (psh_pshape _ _ _ P), same_shape_refl, check_debug_true. cbn [andthen].
  replace s with (st, sc) at 1 by (destruct s; reflexivity).
  rewrite (store_all st sc k a _ (fun j => pel st p (At1 j))); [|exact O|exact (proj2 SA)|exact E|now apply places_walk|].
  - unfold elems. split.
    + intros (vs & L & G & ->). exists vs. split; [split; [exact L|]|destruct s; reflexivity]. intros i v V. apply F; [|auto]. apply znth_lt in V. lia.
    + intros (vs & (L & G) & ->). exists vs. split; [exact L|]. split; [|destruct s; reflexivity]. intros i v V. apply F; [|auto]. apply znth_lt in V. lia.
  - intros a' j x Ty SA' W Z. rewrite (pel_local _ _ _ _ _ _ _ _ O P E SA SA' Z W). cbv beta.
    destruct (pel_fine c st d p (tty a) (At1 j) (proj1 T) PO I) as (r & R & V). rewrite R. destruct r as [v|f|]; cbn [bindo]; auto.
    destruct V as (V & _). now rewrite Ty, V, eqb_refl_bty.
Qed.
Lemma update_elems e p k a o : nth_error st k = Some a -> meant c s e (tsh a) p ->
  forall s', update c s k a o p = Some (MOk s') <-> exists l l', elems e (tsh a) l /\ zlen l' = zlen (tel a) /\
    (forall i v w u, znth (tel a) i = Some v -> znth l i = Some w -> znth l' i = Some u -> apply2 c o v w = Some (Ok u)) /\
    s' = with_array s k (mktarr (tty a) (tsh a) l').
Proof using T SZ.
  intros E M s'. destruct (array_sized _ _ E) as (O & SA). pose proof M as (P & F).
  unfold update. rewrite (psh_pshape _ _ _ P), same_shape_refl, check_debug_true. cbn [andthen].
  replace s with (st, sc) at 1 by (destruct s; reflexivity).
  rewrite (store_all st sc k a _ (fun j => bindo (Some (oget (tel a) j)) (fun v => bindo (pel st p (At1 j)) (fun w => apply2 c o v w)))); [|exact O|exact (proj2 SA)|exact E|now apply places_all|].
  - pose proof (proj2 SA) as L0. split.
    + intros (vs & L & G & ->).
      destruct (choose_list (fun i v => elem c s e i v) (total (tsh a)) (total_nonneg _ O)) as (l & Ll & Lf).
      { intros i I. destruct (znth_some vs i) as (u & U); [lia|]. apply G in U. apply bindo_iff in U as (v & _ & U). apply bindo_iff in U as (w & W & _). exists w. now apply F. }
      exists l, vs. split; [split; auto|]. split; [lia|]. split; [|destruct s; reflexivity].
      intros i v w u V W U. pose proof (znth_lt _ _ _ V) as I. apply G in U. apply bindo_iff in U as (v' & V' & U). injection V' as V'. apply oget_iff in V'.
      apply bindo_iff in U as (w' & W' & U). apply F in W'; [|lia]. apply Lf in W. rewrite (elem_fun _ _ _ _ _ _ W W'). congruence.
    + intros (l & vs & (Ll & Lf) & L & G & ->). exists vs. split; [lia|]. split; [|destruct s; reflexivity].
      intros i u U. pose proof (znth_lt _ _ _ U) as I. destruct (znth_some (tel a) i) as (v & V); [lia|]. destruct (znth_some l i) as (w & W); [lia|].
      apply bindo_iff. exists v. split; [f_equal; now apply oget_iff|]. apply bindo_iff. exists w. split; [apply F; [lia|auto]|eauto].
  - intros a' j x Ty SA' W Z. rewrite (tread_within _ _ _ _ O SA' W), (pel_local _ _ _ _ _ _ _ _ O P E SA SA' Z W). unfold oget. now rewrite Z.
Qed.
Lemma scalar_update k a o w : nth_error st k = Some a ->
  forall s', store s k (fun _ a x => bindo (tread a x) (fun v => apply2 c o v w)) (lin (total (tsh a))) = Some (MOk s') <->
    exists l', zlen l' = zlen (tel a) /\ (forall i v u, znth (tel a) i = Some v -> znth l' i = Some u -> apply2 c o v w = Some (Ok u)) /\
    s' = with_array s k (mktarr (tty a) (tsh a) l').
Proof using T SZ.
  intros E s'. destruct (array_sized _ _ E) as (O & SA). replace s with (st, sc) at 1 by (destruct s; reflexivity).
  rewrite (store_all st sc k a _ (fun j => bindo (Some (oget (tel a) j)) (fun v => apply2 c o v w))); [|exact O|exact (proj2 SA)|exact E|now apply places_all|].
  - pose proof (proj2 SA) as L0. split.
    + intros (vs & L & G & ->). exists vs. split; [lia|]. split; [|destruct s; reflexivity].
      intros i v u V U. apply G in U. apply bindo_iff in U as (v' & V' & U). injection V' as V'. apply oget_iff in V'. congruence.
    + intros (vs & L & G & ->). exists vs. split; [lia|]. split; [|destruct s; reflexivity].
      intros i u U. pose proof (znth_lt _ _ _ U) as I. destruct (znth_some (tel a) i) as (v & V); [lia|].
      apply bindo_iff. exists v. split; [f_equal; now apply oget_iff|]. eauto.
  - intros a' j x Ty SA' W Z. rewrite (tread_within _ _ _ _ O SA' W). unfold oget. now rewrite Z.
Qed.
Lemma fill_all k a v : nth_error st k = Some a ->
  forall s', store s k (fun _ _ _ => Some (Ok v)) (lin (total (tsh a))) = Some (MOk s') <->
    s' = with_array s k (mktarr (tty a) (tsh a) (map (fun _ => v) (tel a))).
Proof using T SZ.
  intros E s'. destruct (array_sized _ _ E) as (O & SA). replace s with (st, sc) at 1 by (destruct s; reflexivity).
  rewrite (store_all st sc k a _ (fun _ => Some (Ok v))); [|exact O|exact (proj2 SA)|exact E|now apply places_all|reflexivity].
  pose proof (proj2 SA) as L0. split.
  - intros (vs & L & G & ->). replace vs with (map (fun _ => v) (tel a)); [destruct s; reflexivity|].
    apply list_ext_zlen; [rewrite zlen_map; lia|]. intros i I. rewrite zlen_map in I. destruct (znth_some vs i) as (u & U); [lia|]. rewrite U. apply G in U. injection U as <-.
    rewrite znth_map. destruct (znth_some (tel a) i I) as (x & ->). reflexivity.
  - intros ->. exists (map (fun _ => v) (tel a)). split; [rewrite zlen_map; lia|]. split; [|destruct s; reflexivity].
    intros i u U. rewrite znth_map in U. destruct (znth (tel a) i); [|discriminate]. injection U as <-. reflexivity.
Qed.
Lemma own_elems e u p h : ax_consts e -> atyp_in st sc e = Some u -> prep c st sc e = Some (Ok p) -> shaped c s e h -> meant c s e h p -> total h <= amax c ->
  forall a, own c st (ael u) p = Some (Ok a) <-> tty a = ael u /\ tsh a = h /\ elems e h (tel a).
Proof using T SZ.
  intros C A E H M L a. rewrite (own_meant c s e h p (ael u) (shaped_hok _ _ _ _ SZ H) M (own_cond c s T _ _ _ h C A E L)). unfold same, elems. tauto.
Qed.
Lemma equal_elems e1 e2 h1 h2 p q r : hok h1 -> two h1 = two h2 -> meant c s e1 h1 p -> meant c s e2 h2 q -> (equal c st p q = Some (Ok r) <->
  (h1 = h2 /\ r = VB true /\ forall i, 0 <= i < total h1 -> elems_equal c s e1 e2 i true) \/
  (r = VB false /\ (h1 <> h2 \/ (h1 = h2 /\ exists i, 0 <= i < total h1 /\ (forall j, 0 <= j < i -> elems_equal c s e1 e2 j true) /\ elems_equal c s e1 e2 i false)))).
Proof.
  intros O1 D (P & F) (Q & G). unfold equal. rewrite (psh_pshape _ _ _ P), (psh_pshape _ _ _ Q).
  destruct (same_shape h1 h2) as [[|]|] eqn:SH.
  - apply same_shape_true in SH. subst h2. unfold lin. rewrite differ_lin. rewrite !Z.add_0_l, !Z2Nat.id by now apply total_nonneg.
    assert (forall i b, 0 <= i < total h1 -> (eqat c st p q i b <-> elems_equal c s e1 e2 i b)) as R.
    { intros i b I. split; intros (v & w & V & W & B); exists v, w; (repeat split; [now apply F|now apply G|exact B]). }
    split.
    + intros [(-> & H)|(-> & i & I & H & N)].
      * left. repeat split. intros i I. now apply R, H.
      * right. split; [reflexivity|]. right. split; [reflexivity|]. exists i. split; [exact I|]. split; [|now apply R]. intros j J. apply R; [lia|]. now apply H.
    + intros [(_ & -> & H)|(-> & [N|(_ & i & I & H & N)])].
      * left. split; [reflexivity|]. intros i I. now apply R, H.
      * congruence.
      * right. split; [reflexivity|]. exists i. split; [exact I|]. split; [|now apply R]. intros j J. apply R; [lia|]. now apply H.
  - apply same_shape_false in SH. split.
    + intros [= <-]. auto.
    + intros [(H & _)|(-> & _)]; [congruence|reflexivity].
  - destruct h1, h2; cbn in *; congruence.
Qed.

(** What is known of a prepared object. *)
Definition prepared (e : ax) (h : shape) (p : pex) (u : aty) : Prop :=
  shaped c s e h /\ fits_memory c e h /\ prep c st sc e = Some (Ok p) /\ meant c s e h p /\ pok c (kinds st) (adim u) p (ael u) /\ istmp p = atmp u /\ two h = adim u /\ hok h.
Lemma prepare e u h : ax_consts e -> atyp_in st sc e = Some u -> shaped c s e h -> fits_memory c e h -> exists p, prepared e h p u.
Proof using T SZ.
  intros C A H M. destruct (prep_meant c s T SZ e u h C A H M) as (p & E & P). destruct (prep_pok c s T _ _ _ C A E) as (PO & TM). exists p.
  destruct (psh_ok _ _ _ _ _ PO) as (h' & E' & D). rewrite (psh_pshape _ _ _ (proj1 P)) in E'. injection E' as <-.
  pose proof (shaped_hok _ _ _ _ SZ H) as O. exact (conj H (conj M (conj E (conj P (conj PO (conj TM (conj D O))))))).
Qed.
Lemma prepare' e u p : checked c = true -> ax_consts e -> atyp_in st sc e = Some u -> prep c st sc e = Some (Ok p) -> exists h, prepared e h p u.
Proof using T SZ.
  intros K C A E. destruct (prep_inv c s T SZ e K u p C A E) as (h & H & M). exists h. destruct (prepare e u h C A H M) as (q & Q).
  pose proof Q as (_ & _ & E' & _). rewrite E in E'. injection E' as <-. exact Q.
Qed.
Lemma own_memory e u p h a : prepared e h p u -> own c st (ael u) p = Some (Ok a) -> total h <= amax c.
Proof.
  intros (H & M & E & P & PO & TM & D & O) Ha.
  pose proof (psh_pshape _ _ _ (proj1 P)) as PS.
  destruct p as [k|b|f q|f q q'|h' v]; cbn [own] in Ha; try (unfold build in Ha; rewrite PS in Ha; destruct (amax c <? total h) eqn:L; [discriminate|lia]).
  clear -M E. destruct e; cbn [prep] in E; repeat (apply bindo_iff in E as (? & ? & E)); try discriminate; cbn in M; try tauto.
  - now destruct (nth_error st k).
  - unfold binary in E. destruct (psh st x), (psh st x0); try discriminate. destruct (same_shape _ _); [|discriminate]. apply bindo_iff in E as (? & ? & E). discriminate.
  - destruct (psh st x0); [|discriminate]. unfold binary in E. destruct (psh st (PCon _ _)), (psh st x0); try discriminate. destruct (same_shape _ _); [|discriminate]. apply bindo_iff in E as (? & ? & E). discriminate.
  - destruct (psh st x) as [h0|] eqn:Ep; [|discriminate]. unfold binary in E. rewrite Ep in E. cbn [psh] in E. destruct (same_shape _ _); [|discriminate]. apply bindo_iff in E as (? & ? & E). discriminate.
Qed.
Lemma array_of_elems e a : array_of c s e a <-> shaped c s e (tsh a) /\ fits_memory c e (tsh a) /\ elems e (tsh a) (tel a).
Proof. unfold array_of, elems. tauto. Qed.
Lemma temp_of_elems e a : array_of c s (ATemp e) a <-> shaped c s e (tsh a) /\ fits_memory c e (tsh a) /\ total (tsh a) <= amax c /\ elems e (tsh a) (tel a).
Proof.
  rewrite array_of_elems. cbn [shaped fits_memory]. unfold elems. cbn [elem]. split; [tauto|]. intros (H & M & A & L & G). repeat split; auto.
  intros i I. destruct (znth_some (tel a) i) as (v & V); [lia|]. eauto.
Qed.
Lemma scalar_type x t v : consts_valid x -> typ (map fst sc) x = Some t -> seval c sc x = Some (Ok v) -> tyof v = base t.
Proof using T.
  intros C Y E. destruct (seval_fine c sc x t (proj2 T) C Y) as (r & R & H). rewrite E in R. injection R as <-. apply H.
Qed.
Ltac bools H := repeat match type of H with _ && _ = true => apply andb_prop in H as (H & ?) end.

Lemma step_means t E' s' : checked c = true -> stm_consts t -> styp (types_of s) t = Some E' -> ~ moves t -> step c s t = Some (MOk s') -> does c s t s'.
Proof using T SZ.
  intros K C Y NM H. unfold types_of in Y. rewrite (surjective_pairing s) in H at 1.
  destruct t as [x|e|e1 e2|k is|k is x|e|k e|k x|o k e|o k x|k e]; cbn [step] in H; rewrite <- ?surjective_pairing in H;
    cbn [styp stm_consts does moves] in *.
  - destruct (typ (map fst sc) x) as [b|] eqn:B; [|discriminate]. apply push_iff in H as (v & V & ->). exists v, b. auto.
  - fold (atyp_in st sc e) in Y. destruct (atyp_in st sc e) as [u|] eqn:A; [|discriminate]. apply push_iff in H as (v & V & ->). apply bindo_iff in V as (p & P & V).
    destruct (prepare' _ _ _ K C A P) as (h & (H & M & E & MP & PO & TM & D & O)). destruct (proj1 (sum_elems e h p _ v O MP) V) as (l & L & V').
    exists (mktarr (ael u) h l), v. cbn [tty tsh tel]. split; [apply array_of_elems; auto|]. split; [|auto]. destruct u as [d b t]. exists d, t. exact A.
  - fold (atyp_in st sc e1) in Y. fold (atyp_in st sc e2) in Y. destruct (atyp_in st sc e1) as [u1|] eqn:A1; [|discriminate]. destruct (atyp_in st sc e2) as [u2|] eqn:A2; [|discriminate].
    destruct (eqb (adim u1) (adim u2) && _) eqn:Q; [|discriminate]. bools Q. apply eqb_prop in Q. destruct C as (C1 & C2).
    apply push_iff in H as (v & V & ->). apply bindo_iff in V as (p & P & V). apply bindo_iff in V as (q & Qq & V).
    destruct (prepare' _ _ _ K C1 A1 P) as (h1 & (H1 & M1 & E1 & MP1 & PO1 & TM1 & D1 & O1)). destruct (prepare' _ _ _ K C2 A2 Qq) as (h2 & (H2 & M2 & E2 & MP2 & PO2 & TM2 & D2 & O2)).
    assert (two h1 = two h2) as DD by congruence. clear Y. destruct (proj1 (equal_elems e1 e2 h1 h2 p q v O1 DD MP1 MP2) V) as [(-> & -> & V')|(-> & V')]; clear V; rename V' into V.
    + exists true. split; [|reflexivity]. exists h2, h2. auto 10.
    + exists false. split; [|reflexivity]. exists h1, h2. repeat (split; [assumption|]). destruct V as [V|(_ & V)]; auto.
  - destruct (nth_error st k) as [a|] eqn:A; [|discriminate]. apply push_iff in H as (v & V & ->). apply bindo_iff in V as (x & X & V).
    destruct (array_sized _ _ A) as (O & SA). destruct (indices_inv _ _ _ _ _ K X) as (p & P). destruct (indices_of _ _ _ _ _ O P) as (x' & X' & W). rewrite X in X'. injection X' as <-.
    rewrite (tread_within _ _ _ _ O SA W) in V. injection V as V. apply oget_iff in V. exists a, p, v. auto.
  - destruct (nth_error st k) as [a|] eqn:A; [|discriminate]. apply andthen_iff in H as (a' & H & [= <-]). apply bindo_iff in H as (v & V & H). apply bindo_iff in H as (x' & X & H).
    destruct (bty_eqb _ _); [|discriminate].
    destruct (array_sized _ _ A) as (O & SA). destruct (indices_inv _ _ _ _ _ K X) as (p & P). destruct (indices_of _ _ _ _ _ O P) as (x'' & X' & W). rewrite X in X'. injection X' as <-.
    unfold twrite in H. rewrite (place_within _ _ _ O W) in H. cbn [bindo] in H. rewrite oset_ok in H by (rewrite (proj2 SA); exact (proj1 W)). injection H as <-. exists a, p, v. auto.
  - fold (atyp_in st sc e) in Y. destruct (atyp_in st sc e) as [u|] eqn:A; [|discriminate]. apply andthen_iff in H as (a & H & [= <-]). apply bindo_iff in H as (p & P & H).
    destruct (prepare' _ _ _ K C A P) as (h & PR). pose proof (own_memory _ _ _ _ _ PR H) as MM. destruct PR as (HS & M & E & MP & PO & TM & D & O).
    destruct (proj1 (own_elems e u p h C A E HS MP MM _) H) as (B & <- & L). exists a. split; [apply temp_of_elems; auto|]. split; [|reflexivity].
    destruct u as [d b t]. cbn in B. rewrite B. exists d, t. exact A.
  - fold (atyp_in st sc e) in Y. destruct (nth_error (kinds st) k) as [[d b]|] eqn:KN; [|discriminate]. destruct (kinds_nth _ _ _ _ KN) as (a & NA & Da & Ba). rewrite NA in H.
    destruct (atyp_in st sc e) as [u|] eqn:A; [|discriminate]. destruct (eqb d (adim u) && bty_eqb b (ael u)) eqn:Q; [|discriminate]. apply andb_prop in Q as (Qd & Qb). apply eqb_prop in Qd. apply bty_eqb_eq in Qb.
    apply andthen_iff in H as (p & P & H). destruct (prepare' _ _ _ K C A P) as (h & (HS & M & E & MP & PO & TM & D & O)).
    assert (istmp p = false) as NT.
    { rewrite TM. clear -A NM. destruct e; unfold atyp_in in A; cbn in A, NM; repeat some_case A; try (injection A as <-; reflexivity); tauto. }
    assert (assign c s k a p = Some (MOk s')) as HA by (destruct p; try exact H; discriminate NT). clear H.
    assert (h = tsh a) as ->.
    { unfold assign in HA. rewrite (psh_pshape _ _ _ (proj1 MP)) in HA. destruct (same_shape (tsh a) h) as [[|]|] eqn:SH; [now apply same_shape_true in SH| |discriminate].
      rewrite (check_debug_false _ K) in HA. discriminate. }
    assert (pok c (kinds st) (adim u) p (tty a)) as PT by (rewrite Ba, Qb; exact PO).
    destruct (proj1 (assign_elems e p k a (adim u) NA PT MP s') HA) as (l & L & ->). exists a, (mktarr (tty a) (tsh a) l). cbn [tty tsh]. split; [exact NA|]. split; [apply array_of_elems; auto|]. auto.
  - destruct (nth_error st k) as [a|] eqn:A; [|discriminate]. apply andthen_iff in H as (v & V & H). destruct (bty_eqb _ _); [|discriminate]. apply (fill_all k a v A) in H. exists a, v. auto.
  - fold (atyp_in st sc e) in Y. destruct (nth_error (kinds st) k) as [[d b]|] eqn:KN; [|discriminate]. destruct (kinds_nth _ _ _ _ KN) as (a & NA & Da & Ba). rewrite NA in H.
    destruct (atyp_in st sc e) as [u|] eqn:A; [|discriminate].
    apply andthen_iff in H as (p & P & H). destruct (prepare' _ _ _ K C A P) as (h & (HS & M & E & MP & PO & TM & D & O)).
    assert (h = tsh a) as ->.
    { unfold update in H. rewrite (psh_pshape _ _ _ (proj1 MP)) in H. destruct (same_shape (tsh a) h) as [[|]|] eqn:SH; [now apply same_shape_true in SH| |discriminate].
      rewrite (check_debug_false _ K) in H. discriminate. }
    destruct (proj1 (update_elems e p k a o NA MP s') H) as (l & l' & L & L' & G & ->). exists a, (mktarr (tty a) (tsh a) l), (mktarr (tty a) (tsh a) l'). cbn [tty tsh tel].
    split; [exact NA|]. split; [apply array_of_elems; auto|]. auto 10.
  - destruct (nth_error st k) as [a|] eqn:A; [|discriminate]. apply andthen_iff in H as (w & V & H). destruct (proj1 (scalar_update k a o w A s') H) as (l' & L' & G & ->).
    exists a, w, (mktarr (tty a) (tsh a) l'). cbn [tty tsh tel]. auto 10.
  - destruct (nth_error st k) as [a|] eqn:NA; [|discriminate]. fold (atyp_in st sc e) in Y. destruct (atyp_in st sc e) as [u|] eqn:A; [|discriminate].
    apply andthen_iff in H as (a' & H & HA). destruct (bty_eqb (tty a') (tty a)) eqn:B; [|discriminate]. apply bty_eqb_eq in B. injection HA as <-. apply bindo_iff in H as (p & P & H).
    destruct (prepare' _ _ _ K C A P) as (h & PR). pose proof (own_memory _ _ _ _ _ PR H) as MM. destruct PR as (HS & M & E & MP & PO & TM & D & O).
    destruct (proj1 (own_elems e u p h C A E HS MP MM _) H) as (_ & <- & L). exists a, a'. split; [reflexivity|]. split; [apply temp_of_elems; auto|]. auto.
Qed.

Lemma means_step t E' s' : stm_consts t -> styp (types_of s) t = Some E' -> does c s t s' -> step c s t = Some (MOk s').
Proof using T SZ.
  intros C Y H. unfold types_of in Y. rewrite (surjective_pairing s) at 1.
  destruct t as [x|e|e1 e2|k is|k is x|e|k e|k x|o k e|o k x|k e]; cbn [step]; rewrite <- ?surjective_pairing;
    cbn [styp stm_consts does moves] in *.
  - destruct H as (v & b & B & V & ->). rewrite B. apply push_iff. exists v. split; [exact V|reflexivity].
  - destruct H as (a & v & AO & (d & t & A) & V & ->). change (atyp_in st sc e = Some (mkaty d (tty a) t)) in A. rewrite A. apply push_iff. exists v. split; [|reflexivity].
    apply array_of_elems in AO as (H & M & L). destruct (prepare _ _ _ C A H M) as (p & (_ & _ & E & MP & PO & TM & D & O)). rewrite E. cbn [bindo ael].
    apply (proj2 (sum_elems e (tsh a) p (tty a) v O MP)). eauto.
  - fold (atyp_in st sc e1) in Y. fold (atyp_in st sc e2) in Y. destruct (atyp_in st sc e1) as [u1|] eqn:A1; [|discriminate]. destruct (atyp_in st sc e2) as [u2|] eqn:A2; [|discriminate].
    destruct (eqb (adim u1) (adim u2) && _) eqn:Q; [|discriminate]. apply andb_prop in Q as (Q & _). apply eqb_prop in Q. destruct C as (C1 & C2).
    destruct H as (r & (h1 & h2 & H1 & M1 & H2 & M2 & R) & ->).
    destruct (prepare _ _ _ C1 A1 H1 M1) as (p & (_ & _ & E1 & MP1 & PO1 & TM1 & D1 & O1)). destruct (prepare _ _ _ C2 A2 H2 M2) as (q & (_ & _ & E2 & MP2 & PO2 & TM2 & D2 & O2)).
    apply push_iff. exists (VB r). split; [|reflexivity]. rewrite E1, E2. cbn [bindo]. assert (two h1 = two h2) as DD by congruence.
    apply (proj2 (equal_elems e1 e2 h1 h2 p q (VB r) O1 DD MP1 MP2)). destruct r; [left|right]; [tauto|]. split; [reflexivity|]. destruct R as [R|R]; [tauto|].
    destruct (same_shape h1 h2) as [[|]|] eqn:SH; [apply same_shape_true in SH; tauto|apply same_shape_false in SH; tauto|]. destruct h1, h2; cbn in *; congruence.
  - destruct H as (a & p & v & A & P & V & ->). rewrite A. apply push_iff. exists v. split; [|reflexivity]. destruct (array_sized _ _ A) as (O & SA).
    destruct (indices_of _ _ _ _ _ O P) as (x & -> & W). cbn [bindo]. rewrite (tread_within _ _ _ _ O SA W). f_equal. now apply oget_iff.
  - destruct H as (a & p & v & A & P & V & ->). rewrite A. destruct (array_sized _ _ A) as (O & SA). rewrite (kinds_nth' _ _ _ A) in Y.
    destruct (_ && is_str (tty a) _) eqn:Q; [|discriminate]. apply andb_prop in Q as (_ & Q). apply is_str_inv in Q.
    apply andthen_iff. exists (mktarr (tty a) (tsh a) (zupd (tel a) p v)). split; [|reflexivity]. unfold seval. unfold scalar in V. rewrite V. cbn [bindo].
    destruct (indices_of _ _ _ _ _ O P) as (x' & -> & W). cbn [bindo]. rewrite (scalar_type _ _ _ (proj2 C) Q V). cbn [base]. rewrite eqb_refl_bty.
    unfold twrite. rewrite (place_within _ _ _ O W). cbn [bindo]. rewrite oset_ok by (rewrite (proj2 SA); exact (proj1 W)). reflexivity.
  - destruct H as (a & AO & (d & t & A) & ->). change (atyp_in st sc e = Some (mkaty d (tty a) t)) in A. rewrite A. apply temp_of_elems in AO as (H & M & MM & L).
    destruct (prepare _ _ _ C A H M) as (p & (_ & _ & E & MP & PO & TM & D & O)). apply andthen_iff. exists a. split; [|reflexivity]. rewrite E. cbn [bindo].
    apply (proj2 (own_elems e _ p (tsh a) C A E H MP MM a)). auto.
  - destruct H as (a & a' & NA & AO & TY & SH & ->). rewrite NA. rewrite (kinds_nth' _ _ _ NA) in Y. fold (atyp_in st sc e) in Y. destruct (atyp_in st sc e) as [u|] eqn:A; [|discriminate].
    destruct (eqb _ _ && bty_eqb (tty a) (ael u)) eqn:Q; [|discriminate]. apply andb_prop in Q as (_ & Qb). apply bty_eqb_eq in Qb.
    apply array_of_elems in AO as (H & M & L). rewrite SH in H, M, L. destruct (prepare _ _ _ C A H M) as (p & (_ & _ & E & MP & PO & TM & D & O)).
    apply andthen_iff. exists p. split; [exact E|].
    assert (assign c s k a p = Some (MOk (with_array s k a'))) as R.
    { apply (proj2 (assign_elems e p k a (adim u) NA ltac:(rewrite Qb; exact PO) MP _)). exists (tel a'). split; [exact L|]. destruct a'; cbn in *. now subst. }
    destruct p as [j|t|f p|f p q|h v]; try exact R. clear R. cbn in PO. destruct PO as (_ & B & _). rewrite B, Qb, eqb_refl_bty.
    destruct MP as ((P1 & P2) & MP). assert (t = a') as ->.
    { destruct t as [b1 s1 l1], a' as [b2 s2 l2]. cbn in *. subst. f_equal; [congruence|]. destruct L as (L1 & L2). apply list_ext_zlen; [lia|]. intros i I.
      destruct (znth_some l2 i) as (w & W); [lia|]. rewrite W. pose proof (L2 _ _ W) as W'. apply MP in W'; [|lia]. unfold tread in W'. cbn in W'. injection W' as W'. now apply oget_iff. }
    unfold move. rewrite SH, same_shape_refl, check_normal_true. cbn [bind]. unfold andthen, with_array. replace (match tsh a with Sh1 _ => a' | Sh2 _ _ => mktarr (tty a) (tsh a) (tel a') end) with a'; [reflexivity|].
    rewrite <- TY, <- SH. destruct a' as [b1 s1 l]. now destruct s1.
  - destruct H as (a & v & A & V & ->). rewrite A. rewrite (kinds_nth' _ _ _ A) in Y. destruct (is_str (tty a) _) eqn:Q; [|discriminate]. apply is_str_inv in Q.
    apply andthen_iff. exists v. split; [exact V|]. rewrite (scalar_type _ _ _ C Q V). cbn [base]. rewrite eqb_refl_bty. now apply (proj2 (fill_all k a v A _)).
  - destruct H as (a & a' & a'' & NA & AO & SH & TY & SH2 & L2 & G & ->). rewrite NA. rewrite (kinds_nth' _ _ _ NA) in Y. fold (atyp_in st sc e) in Y. destruct (atyp_in st sc e) as [u|] eqn:A; [|discriminate].
    apply array_of_elems in AO as (H & M & L). rewrite SH in H, M, L. destruct (prepare _ _ _ C A H M) as (p & (_ & _ & E & MP & PO & TM & D & O)).
    apply andthen_iff. exists p. split; [exact E|]. apply (proj2 (update_elems e p k a o NA MP _)). exists (tel a'), (tel a''). split; [exact L|]. split; [exact L2|]. split; [exact G|].
    destruct a''; cbn in *. now subst.
  - destruct H as (a & w & a'' & NA & V & TY & SH2 & L2 & G & ->). rewrite NA. apply andthen_iff. exists w. split; [exact V|]. apply (proj2 (scalar_update k a o w NA _)). exists (tel a'').
    split; [exact L2|]. split; [exact G|]. destruct a''; cbn in *. now subst.
  - destruct H as (a & a' & NA & AO & TY & ->). rewrite NA. rewrite (kinds_nth' _ _ _ NA) in Y. fold (atyp_in st sc e) in Y. destruct (atyp_in st sc e) as [u|] eqn:A; [|discriminate].
    destruct (eqb _ _ && bty_eqb (tty a) (ael u)) eqn:Q; [|discriminate]. apply andb_prop in Q as (_ & Qb). apply bty_eqb_eq in Qb.
    apply temp_of_elems in AO as (H & M & MM & L). destruct (prepare _ _ _ C A H M) as (p & (_ & _ & E & MP & PO & TM & D & O)).
    apply andthen_iff. exists a'. split; [|now rewrite TY, eqb_refl_bty]. rewrite E. cbn [bindo]. apply (proj2 (own_elems e u p (tsh a') C A E H MP MM a')). split; [congruence|auto].
Qed.
(** Sizes stay right. *)
Lemma shaped_sized e h l : amax c <= LONG_MAX -> shaped c s e h -> zlen l = total h -> forall b, arr_sized (mktarr b h l).
Proof using SZ. clear T. intros M H L b. destruct (shaped_hok _ _ _ _ SZ H) as (A & B). repeat split; auto. Qed.
Lemma does_sized t s' : amax c <= LONG_MAX -> does c s t s' -> sized s'.
Proof using SZ.
  clear T. intros AM H. assert (forall k a a', nth_error st k = Some a -> tsh a' = tsh a -> zlen (tel a') = zlen (tel a) -> sized (with_array s k a')) as U.
  { intros k a a' NA SH L. unfold sized, with_array. cbn. apply Forall_upd; [exact SZ|]. destruct (sized_nth _ _ _ SZ NA) as (A & B & C). unfold arr_sized. rewrite SH, L. auto. }
  destruct t as [x|e|e1 e2|k is|k is x|e|k e|k x|o k e|o k x|k e]; cbn [does] in H.
  - destruct H as (v & b & _ & _ & ->). exact SZ.
  - destruct H as (a & v & _ & _ & _ & ->). exact SZ.
  - destruct H as (r & _ & ->). exact SZ.
  - destruct H as (a & p & v & _ & _ & _ & ->). exact SZ.
  - destruct H as (a & p & v & NA & _ & _ & ->). eapply U; [exact NA|reflexivity|]. cbn. now rewrite zlen_zupd.
  - destruct H as (a & AO & _ & ->). apply temp_of_elems in AO as (H & _ & _ & L & _). unfold sized. cbn. apply Forall_app. split; [exact SZ|]. constructor; [|constructor].
    destruct a as [b h l]. now apply (shaped_sized e h l).
  - destruct H as (a & a' & NA & AO & _ & SH & ->). apply array_of_elems in AO as (H & _ & L & _). eapply U; [exact NA|exact SH|]. destruct (sized_nth _ _ _ SZ NA) as (A & _). rewrite A, <- SH. exact L.
  - destruct H as (a & v & NA & _ & ->). eapply U; [exact NA|reflexivity|]. cbn. now rewrite zlen_map.
  - destruct H as (a & a' & a'' & NA & _ & _ & _ & SH & L & _ & ->). eapply U; eauto.
  - destruct H as (a & w & a'' & NA & _ & _ & SH & L & _ & ->). eapply U; eauto.
  - destruct H as (a & a' & NA & AO & _ & ->). apply temp_of_elems in AO as (H & _ & _ & L & _). unfold sized, with_array. cbn. apply Forall_upd; [exact SZ|]. destruct a' as [b h l]. now apply (shaped_sized e h l).
Qed.
End ONE.

Theorem performs_run l : forall E E' s, cfg_ok c -> has_types E s -> sized s -> Forall stm_consts l -> ptyp E l = Some E' ->
  forall s', performs c s l s' -> run c s l = Some (MOk s').
Proof.
  induction l as [|t l IH]; intros E E' s OK (T & <-) SZ C Y s' H; cbn [performs run ptyp] in *; [now subst|].
  destruct (styp (types_of s) t) as [E1|] eqn:Y1; [|discriminate]. inversion C as [|? ? C1 C2]; subst. destruct H as (s1 & D & P).
  pose proof (means_step s T SZ t E1 s1 C1 Y1 D) as ST. rewrite ST.
  destruct (step_sound c _ _ s t (conj T eq_refl) C1 Y1) as (r & R & HT). rewrite ST in R. injection R as <-.
  eapply IH; eauto. eapply does_sized; eauto. apply OK.
Qed.
Theorem run_performs l : forall E E' s, cfg_ok c -> checked c = true -> has_types E s -> sized s -> Forall stm_consts l -> Forall (fun t => ~ moves t) l -> ptyp E l = Some E' ->
  forall s', run c s l = Some (MOk s') -> performs c s l s'.
Proof.
  induction l as [|t l IH]; intros E E' s OK K (T & <-) SZ C NM Y s' H; cbn [performs run ptyp] in *; [now injection H as <-|].
  destruct (styp (types_of s) t) as [E1|] eqn:Y1; [|discriminate]. inversion C as [|? ? C1 C2]; subst. inversion NM as [|? ? N1 N2]; subst.
  destruct (step_sound c _ _ s t (conj T eq_refl) C1 Y1) as (r & R & HT). destruct r as [s1|f s1|]; rewrite R in H; try discriminate.
  pose proof (step_means s T SZ t E1 s1 K C1 Y1 N1 R) as D. exists s1. split; [exact D|]. eapply IH; eauto. eapply does_sized; eauto. apply OK.
Qed.
End STEPS.
