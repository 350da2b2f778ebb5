(** Programs on typed arrays: no undefined behaviour in a checked build. *)
From Coq Require Import ZArith Bool List Lia.
From Verif Require Import Base.Outcome Base.ZList Model.IntModel Model.Scalars Model.Typed.
From Verif Require Import Spec.IntSpec Spec.ScalarSpec Spec.TypedSpec Proofs.TypingProofs Proofs.TypedProofs Proofs.TypedMeaning Proofs.TypedThms Proofs.TypedRules.
Import ListNotations.
Local Open Scope Z_scope.

Definition defined {A} (o : option (outcome A)) : Prop := o <> Some UB.
Lemma defined_ok {A} (x : A) : defined (Some (Ok x)). Proof. discriminate. Qed.
Lemma defined_bind {A B} (o : option (outcome A)) (k : A -> option (outcome B)) : defined o -> (forall x, o = Some (Ok x) -> defined (k x)) -> defined (bindo o k).
Proof. unfold defined. destruct o as [[x|f|]|]; cbn; auto; congruence. Qed.
Lemma defined_check c b : defined (Some (check_debug c (Ok b))).
Proof. destruct (check_debug_cases c b) as [(-> & _)|(-> & _)]; discriminate. Qed.
Lemma defined_num t (o : outcome Z) : o <> UB -> defined (Some (z <- o ;; Ok (VI t z))).
Proof. destruct o; cbn; intros H; [discriminate|discriminate|congruence]. Qed.
Lemma quot_fits t x y : signed t = false -> fits (signed t) (bits t) x -> fits (signed t) (bits t) y -> y <> 0 -> inr t (Z.quot x y) = true.
Proof.
  intros S0 X Y N. unfold fits in *. rewrite S0 in *. assert (0 <= Z.quot x y <= x).
  { rewrite Z.quot_div_nonneg by lia. split; [apply Z.div_pos; lia|]. apply Z.div_le_upper_bound; [lia|]. nia. }
  destruct t; try discriminate S0; unfold inr, tmin, tmax; cbn [bits] in *; lia.
Qed.
Lemma div_defined c t x y r : checked c = true -> signed t = false -> fits (signed t) (bits t) x -> fits (signed t) (bits t) y ->
  (check_debug c (Ok (negb (y =? 0))) ;;; if y =? 0 then UB else if inr t (Z.quot x y) then Ok r else UB) <> (UB : outcome Z).
Proof.
  intros K S0 X Y. destruct (y =? 0) eqn:E; cbn [negb]; [rewrite (check_debug_false _ K); discriminate|]. rewrite check_debug_true. cbn [bind]. rewrite quot_fits; auto; [discriminate|lia].
Qed.
Lemma apply2_defined c o b v w : checked c = true -> steady b -> no_shift o -> vgood b v -> vgood b w -> defined (apply2 c o v w).
Proof.
  intros K SB (N1 & N2) (Tv & V) (Tw & W). subst b. destruct v as [x|t x|f x], w as [y|t' y|g y]; cbn in Tw; try discriminate.
  - cbn. destruct o; cbn; try discriminate.
  - injection Tw as ->. cbn [apply2]. destruct (ity_eqb t t); [|discriminate]. cbn in SB, V, W. unfold iop.
    destruct o; try congruence; try discriminate; apply defined_num; unfold iadd, isub, imul, arith; rewrite ?SB; try discriminate; apply div_defined; auto.
  - cbn [apply2]. destruct (fmt_eq g f); [|discriminate]. destruct o; cbn; discriminate.
Qed.
Lemma apply1_defined o b b' v : steady b -> un_result o b = Some b' -> vgood b v -> defined (apply1 o v).
Proof.
  intros SB R (Tv & V). subst b. destruct v as [x|t x|f x], o; cbn in *; try discriminate. rewrite SB in R. discriminate.
Qed.
Lemma vabs_defined c b v : checked c = true -> steady b -> vgood b v -> defined (vabs c v).
Proof.
  intros K SB (Tv & V). subst b. destruct v as [x|t x|f x]; cbn [vabs tyof steady] in *; try discriminate; [rewrite SB; discriminate|].
  apply defined_bind.
  - apply defined_bind; [cbn; discriminate|]. intros z Z. cbn [apply2]. unfold constant, cast in Z. injection Z as <-. destruct (fmt_eq f f); discriminate.
  - intros u U. destruct u as [[|]| |]; discriminate.
Qed.
Lemma vinv_defined c v : defined (vinv c v).
Proof.
  destruct v as [x|t x|f x]; cbn [vinv]; try discriminate. apply defined_bind; [cbn; discriminate|]. intros z Z. unfold constant, cast in Z. injection Z as <-. cbn [apply2]. destruct (fmt_eq f f); discriminate.
Qed.
Lemma simple_defined c G r x : simple x -> defined (eval c G r x).
Proof.
  induction x; cbn [simple eval]; try tauto; intros H; auto; try discriminate; try (apply defined_bind; [auto|]; intros v _; destruct (bty_eqb _ _); discriminate).
  destruct (nth_error r n); discriminate.
Qed.

Section SAFE.
Context (c : cfg) (K : checked c = true).
Section ONE.
Context (s : state) (T : typed s) (SZ : sized s) (ST : Forall (fun x => steady (snd x)) (kinds (fst s))).
Notation st := (fst s). Notation sc := (snd s).
Fixpoint pcalm (d : bool) (p : pex) : Prop :=
  match p with
  | PVar _ | PTmp _ | PCon _ _ => True
  | PUn f p => pcalm d p /\ exists b, pok c (kinds st) d p b /\ forall v, vgood b v -> defined (f v)
  | PBin f p q => pcalm d p /\ pcalm d q /\ exists b b', pok c (kinds st) d p b /\ pok c (kinds st) d q b' /\ forall v w, vgood b v -> vgood b' w -> defined (f v w)
  end.
Lemma pel_good d p b x v : pok c (kinds st) d p b -> ixok d x -> pel st p x = Some (Ok v) -> vgood b v.
Proof using T. intros P X E. destruct (pel_fine c st d p b x (proj1 T) P X) as (r & R & H). rewrite E in R. now injection R as <-. Qed.
Lemma pel_defined d p h i : pcalm d p -> pshape st p h -> 0 <= i < total h -> defined (pel st p (At1 i)).
Proof using T.
  intros C P I. induction p as [k|a|f p IH|f p IHp q IHq|h' v]; cbn [pel pcalm pshape] in *.
  - destruct P as (a & -> & (_ & L)). unfold tread. cbn [place bindo]. destruct (znth_some (tel a) i) as (v & V); [lia|]. rewrite (oget_ok _ _ _ V). discriminate.
  - destruct P as (_ & L). unfold tread. cbn [place bindo]. destruct (znth_some (tel a) i) as (v & V); [lia|]. rewrite (oget_ok _ _ _ V). discriminate.
  - destruct C as (C & b & PO & F). apply defined_bind; [auto|]. intros v V. apply F. eapply pel_good; eauto. exact Logic.I.
  - destruct C as (C1 & C2 & b & b' & PO & PO' & F), P as (P1 & P2). apply defined_bind; [auto|]. intros v V. apply defined_bind; [auto|]. intros w W. apply F; eapply pel_good; eauto; exact Logic.I.
  - discriminate.
Qed.
Lemma reads_defined d p h xs : pcalm d p -> pshape st p h -> hok h -> forall j, places h j xs -> defined (reads st p xs).
Proof using T.
  intros C P O. induction xs as [|x xs IH]; intros j PL; cbn [reads]; [discriminate|]. destruct PL as (W & PL). apply defined_bind.
  - rewrite (pel_within _ _ _ _ _ O P W). eapply pel_defined; eauto. apply W.
  - intros v _. apply defined_bind; [eapply IH; eauto|]. discriminate.
Qed.
Lemma own_defined d p h b : pcalm d p -> pshape st p h -> hok h -> defined (own c st b p).
Proof using T.
  intros C P O. assert (defined (build c st b p)) as R.
  { unfold build. rewrite (psh_pshape _ _ _ P). destruct (amax c <? total h); [discriminate|]. apply defined_bind; [|discriminate]. eapply reads_defined; eauto. now apply places_walk. }
  destruct p; try exact R. discriminate.
Qed.
Lemma steady_type e u : gentle e -> atyp_in st sc e = Some u -> steady (ael u).
Proof using ST.
  clear T SZ. intros G A. assert (uncast e) as U by (clear -G; induction e; cbn in *; try tauto).
  assert (exists k, In k (names e)) as (k & I).
  { clear. induction e as [j|o e IH|e IH|e IH|o e1 IH1 e2 IH2|o x e IH|o e IH x|b e IH|e IH]; cbn; auto; [now exists j; left|]. destruct IH1 as (k & I). exists k. apply in_or_app. now left. }
  pose proof (one_type _ _ _ _ U A k I) as E. rewrite Forall_forall in ST. apply (ST (adim u, ael u)). eapply nth_error_In; eauto.
Qed.
Lemma prep_defined e : forall u, ax_consts e -> gentle e -> atyp_in st sc e = Some u ->
  defined (prep c st sc e) /\ forall p, prep c st sc e = Some (Ok p) -> pcalm (adim u) p.
Proof using T SZ ST K.
  induction e as [j|o e IH|e IH|e IH|o e1 IH1 e2 IH2|o x e IH|o e IH x|b e IH|e IH]; intros u C G A; pose proof A as A0; unfold atyp_in in A; cbn [atyp] in A; cbn [gentle ax_consts] in *.
  - cbn [prep]. destruct (nth_error st j); split; try discriminate. intros p [= <-]. exact I.
  - fold (atyp_in st sc e) in A. destruct (atyp_in st sc e) as [[d b [|]]|] eqn:A1; try discriminate. destruct (un_result o b) as [b'|] eqn:R; [|discriminate]. injection A as <-. cbn [prep adim].
    destruct (IH _ C G eq_refl) as (D & F). split; [apply defined_bind; [exact D|discriminate]|]. intros p H. apply bindo_iff in H as (q & Q & [= <-]). split; [now apply (F q)|].
    exists b. split; [exact (proj1 (prep_pok c s T _ _ _ C A1 Q))|]. intros v V. eapply apply1_defined; eauto. exact (steady_type _ _ G A1).
  - fold (atyp_in st sc e) in A. destruct (atyp_in st sc e) as [[d b [|]]|] eqn:A1; try discriminate. destruct (is_real b) eqn:R; [|discriminate]. injection A as <-. cbn [prep adim].
    destruct (IH _ C G eq_refl) as (D & F). split; [apply defined_bind; [exact D|discriminate]|]. intros p H. apply bindo_iff in H as (q & Q & [= <-]). split; [now apply (F q)|].
    exists b. split; [exact (proj1 (prep_pok c s T _ _ _ C A1 Q))|]. intros v V. eapply vabs_defined; eauto. exact (steady_type _ _ G A1).
  - fold (atyp_in st sc e) in A. destruct (atyp_in st sc e) as [[d b [|]]|] eqn:A1; try discriminate. destruct (is_flt b) eqn:R; [|discriminate]. injection A as <-. cbn [prep adim].
    destruct (IH _ C G eq_refl) as (D & F). split; [apply defined_bind; [exact D|discriminate]|]. intros p H. apply bindo_iff in H as (q & Q & [= <-]). split; [now apply (F q)|].
    exists b. split; [exact (proj1 (prep_pok c s T _ _ _ C A1 Q))|]. intros v V. apply vinv_defined.
  - destruct G as (NS & G1 & G2), C as (C1 & C2). fold (atyp_in st sc e1) in A. fold (atyp_in st sc e2) in A.
    destruct (atyp_in st sc e1) as [[d b [|]]|] eqn:A1; try discriminate. destruct (atyp_in st sc e2) as [[d' b' [|]]|] eqn:A2; try discriminate.
    destruct (eqb d d' && bty_eqb b b' && negb (acmp o)) eqn:Q; [|discriminate]. apply andb_prop in Q as (Q & _). apply andb_prop in Q as (Qd & Qb). apply eqb_prop in Qd. apply bty_eqb_eq in Qb. subst d' b'.
    destruct (op_result o b) as [r|] eqn:R; [|discriminate]. injection A as <-. cbn [prep adim].
    destruct (IH1 _ C1 G1 eq_refl) as (D1 & F1). destruct (IH2 _ C2 G2 eq_refl) as (D2 & F2). split.
    + apply defined_bind; [exact D1|]. intros p _. apply defined_bind; [exact D2|]. intros q _. unfold binary. destruct (psh st p), (psh st q); try discriminate. destruct (same_shape _ _); [|discriminate].
      apply defined_bind; [apply defined_check|discriminate].
    + intros p H. apply bindo_iff in H as (p1 & P1 & H). apply bindo_iff in H as (p2 & P2 & H). unfold binary in H. destruct (psh st p1), (psh st p2); try discriminate. destruct (same_shape _ _); [|discriminate].
      apply bindo_iff in H as (z & _ & [= <-]). split; [now apply (F1 p1)|]. split; [now apply (F2 p2)|]. exists b, b. split; [exact (proj1 (prep_pok c s T _ _ _ C1 A1 P1))|]. split; [exact (proj1 (prep_pok c s T _ _ _ C2 A2 P2))|].
      intros v w V W. eapply apply2_defined; eauto. exact (steady_type _ _ G1 A1).
  - destruct G as (NS & SX & G), C as (C1 & C2). destruct (typ (map fst sc) x) as [[|b']|] eqn:TX; try discriminate. fold (atyp_in st sc e) in A. destruct (atyp_in st sc e) as [[d b [|]]|] eqn:A1; try discriminate.
    destruct (bty_eqb b b' && negb (acmp o)) eqn:Q; [|discriminate]. apply andb_prop in Q as (Qb & _). apply bty_eqb_eq in Qb. subst b'. destruct (op_result o b) as [r|] eqn:R; [|discriminate]. injection A as <-. cbn [prep adim].
    destruct (IH _ C2 G eq_refl) as (D & F). split.
    + apply defined_bind; [now apply simple_defined|]. intros v _. apply defined_bind; [exact D|]. intros p P. destruct (psh st p) as [h|] eqn:Ep; [|discriminate]. unfold binary. cbn [psh]. rewrite Ep. destruct (same_shape _ _); [|discriminate].
      apply defined_bind; [apply defined_check|discriminate].
    + intros p H. apply bindo_iff in H as (v & V & H). apply bindo_iff in H as (q & P & H). destruct (psh st q) as [h|] eqn:Ep; [|discriminate]. unfold binary in H. cbn [psh] in H. rewrite Ep in H. destruct (same_shape _ _); [|discriminate].
      apply bindo_iff in H as (z & _ & [= <-]). split; [exact I|]. split; [now apply (F q)|]. exists b, b. pose proof (proj1 (prep_pok c s T _ _ _ C2 A1 P)) as PO.
      split; [|split; [exact PO|]].
      * cbn. destruct (psh_ok _ _ _ _ _ PO) as (h' & E' & D'). rewrite Ep in E'. injection E' as <-. split; [exact D'|]. destruct (seval_fine c sc x (Str b) (proj2 T) C1 TX) as (r' & R' & H'). rewrite V in R'. injection R' as <-. exact H'.
      * intros v' w V' W. eapply apply2_defined; eauto. exact (steady_type _ _ G A1).
  - destruct G as (NS & SX & G), C as (C1 & C2). destruct (typ (map fst sc) x) as [[|b']|] eqn:TX; try discriminate. fold (atyp_in st sc e) in A. destruct (atyp_in st sc e) as [[d b [|]]|] eqn:A1; try discriminate.
    destruct (bty_eqb b b' && negb (acmp o)) eqn:Q; [|discriminate]. apply andb_prop in Q as (Qb & _). apply bty_eqb_eq in Qb. subst b'. destruct (op_result o b) as [r|] eqn:R; [|discriminate]. injection A as <-. cbn [prep adim].
    destruct (IH _ C2 G eq_refl) as (D & F). split.
    + apply defined_bind; [exact D|]. intros p P. apply defined_bind; [now apply simple_defined|]. intros v _. destruct (psh st p) as [h|] eqn:Ep; [|discriminate]. unfold binary. cbn [psh]. rewrite Ep. destruct (same_shape _ _); [|discriminate].
      apply defined_bind; [apply defined_check|discriminate].
    + intros p H. apply bindo_iff in H as (q & P & H). apply bindo_iff in H as (v & V & H). destruct (psh st q) as [h|] eqn:Ep; [|discriminate]. unfold binary in H. cbn [psh] in H. rewrite Ep in H. destruct (same_shape _ _); [|discriminate].
      apply bindo_iff in H as (z & _ & [= <-]). split; [now apply (F q)|]. split; [exact I|]. exists b, b. pose proof (proj1 (prep_pok c s T _ _ _ C2 A1 P)) as PO.
      split; [exact PO|]. split.
      * cbn. destruct (psh_ok _ _ _ _ _ PO) as (h' & E' & D'). rewrite Ep in E'. injection E' as <-. split; [exact D'|]. destruct (seval_fine c sc x (Str b) (proj2 T) C1 TX) as (r' & R' & H'). rewrite V in R'. injection R' as <-. exact H'.
      * intros v' w V' W. eapply apply2_defined; eauto. exact (steady_type _ _ G A1).
  - destruct G.
  - fold (atyp_in st sc e) in A. destruct (atyp_in st sc e) as [[d b t]|] eqn:A1; try discriminate. injection A as <-. cbn [prep adim]. destruct (IH _ C G eq_refl) as (D & F). split.
    + rewrite A1. apply defined_bind; [exact D|]. intros p P. apply defined_bind; [|discriminate]. destruct (prepare' c s T SZ _ _ _ K C A1 P) as (h & (_ & _ & _ & MP & _ & _ & _ & O)).
      eapply own_defined; [now apply (F p)|exact (proj1 MP)|exact O].
    + rewrite A1. intros p H. apply bindo_iff in H as (q & _ & H). apply bindo_iff in H as (a & _ & [= <-]). exact I.
Qed.
Lemma store_defined k ty h l0 g G : hok h -> (exists a, nth_error st k = Some a) ->
  (forall l' j x, zlen l' = total h -> within h x j -> znth l' j = znth l0 j -> g (upd st k (mktarr ty h l')) (mktarr ty h l') x = G j) -> (forall j, 0 <= j < total h -> defined (G j)) ->
  forall xs j pre suf, places h j xs -> zlen pre = j -> zlen (pre ++ suf) = total h -> (forall i, j <= i -> znth (pre ++ suf) i = znth l0 i) ->
  store (upd st k (mktarr ty h (pre ++ suf)), sc) k g xs <> Some MUB.
Proof using.
  clear T SZ ST K. intros O (a & Ea) GL GD. induction xs as [|x xs IH]; intros j pre suf P L1 L2 Z; cbn [store]; [discriminate|].
  destruct P as (W & P). cbn [fst snd]. rewrite (upd_nth_same _ _ _ _ Ea). rewrite (GL _ j x L2 W (Z j ltac:(lia))).
  pose proof W as (B & _). rewrite zlen_app in L2. destruct suf as [|w suf]; [rewrite zlen_nil in L2; lia|]. rewrite zlen_cons in L2.
  specialize (GD j B). destruct (G j) as [[v|f|]|]; cbn [bindo andthen]; try discriminate; [|now destruct GD].
  unfold twrite. cbn [tsh tel tty]. rewrite (place_within _ _ _ O W). cbn [bindo]. rewrite oset_ok by (rewrite zlen_app, zlen_cons; lia). cbn [bind andthen].
  rewrite zupd_app_r by lia. rewrite L1, Z.sub_diag, upd_upd. change (zupd (w :: suf) 0 v) with ([v] ++ suf). rewrite app_assoc.
  apply (IH (j + 1)); [exact P|rewrite zlen_app, zlen_cons, zlen_nil; lia|rewrite !zlen_app, zlen_cons, zlen_nil; lia|].
  intros i I. rewrite <- (Z i) by lia. rewrite <- app_assoc. rewrite (znth_app_r pre (w :: suf)), (znth_app_r pre ([v] ++ suf)) by lia. cbn [app]. rewrite !znth_cons_pos by lia. reflexivity.
Qed.
Lemma store_all_defined k a g G xs : nth_error st k = Some a -> places (tsh a) 0 xs ->
  (forall a' j x, tty a' = tty a -> same a' (tsh a) -> within (tsh a) x j -> znth (tel a') j = znth (tel a) j -> g (upd st k a') a' x = G j) -> (forall j, 0 <= j < total (tsh a) -> defined (G j)) ->
  store s k g xs <> Some MUB.
Proof using SZ.
  clear T ST K. intros E P GL GD. destruct (sized_nth _ _ _ SZ E) as (L & B & H). assert (hok (tsh a)) as O by (split; auto).
  rewrite (surjective_pairing s). rewrite <- (upd_same st k a E) at 1. replace a with (mktarr (tty a) (tsh a) ([] ++ tel a)) at 1 by (destruct a; reflexivity).
  refine (store_defined k (tty a) (tsh a) (tel a) g G O (ex_intro _ a E) _ GD xs 0 [] (tel a) P eq_refl L (fun i _ => eq_refl)).
  intros l' j x L' W Z. apply GL; auto. split; auto.
Qed.
Lemma andthen_defined {A} (o : option (outcome A)) (k : A -> option (mut state)) : defined o -> (forall x, o = Some (Ok x) -> k x <> Some MUB) -> andthen s o k <> Some MUB.
Proof. unfold defined. destruct o as [[x|f|]|]; cbn; auto; congruence. Qed.
Lemma sums_defined d p h b xs : pcalm d p -> pok c (kinds st) d p b -> pshape st p h -> hok h -> steady b -> is_real b = true -> forall j v, places h j xs -> vgood b v -> defined (sums c st p v xs).
Proof using T K.
  intros C PO P O SB RB. induction xs as [|x xs IH]; intros j v PL V; cbn [sums]; [discriminate|]. destruct PL as (W & PL). rewrite (pel_within _ _ _ _ _ O P W). apply defined_bind; [eapply pel_defined; eauto; apply W|].
  intros w Hw. assert (vgood b w) as GW by (eapply pel_good; eauto; exact Logic.I). apply defined_bind; [eapply apply2_defined; eauto; split; discriminate|].
  intros u U. eapply IH; eauto. assert (op_result OAdd b = Some b) as OR by (destruct b; cbn; try reflexivity; discriminate).
  destruct (apply2_fine c OAdd b b v w OR V GW) as (r & R & H). rewrite U in R. now injection R as <-.
Qed.
Lemma differ_defined d p q h b xs : pcalm d p -> pok c (kinds st) d p b -> pshape st p h -> pcalm d q -> pok c (kinds st) d q b -> pshape st q h -> hok h -> steady b ->
  forall j, places h j xs -> defined (differ c st p q xs).
Proof using T K.
  intros C PO P C' PO' P' O SB. induction xs as [|x xs IH]; intros j PL; cbn [differ]; [discriminate|]. destruct PL as (W & PL). rewrite (pel_within _ _ _ _ _ O P W), (pel_within _ _ _ _ _ O P' W).
  apply defined_bind; [eapply pel_defined; eauto; apply W|]. intros v V. apply defined_bind; [eapply pel_defined; eauto; apply W|]. intros w Hw.
  apply defined_bind; [eapply apply2_defined; eauto; [split; discriminate|exact (pel_good d p b (At1 j) v PO Logic.I V)|exact (pel_good d q b (At1 j) w PO' Logic.I Hw)]|].
  intros u _. destruct u as [[|]| |]; try discriminate; eapply IH; eauto.
Qed.
Lemma index_defined n x : simple x -> defined (index c sc n x).
Proof using.
  intros H. unfold index. apply defined_bind; [now apply simple_defined|]. intros v _. destruct v as [|[]|]; try discriminate; (apply defined_bind; [apply defined_check|discriminate]).
Qed.
Lemma indices_defined h is : Forall simple is -> defined (indices c sc h is).
Proof using.
  intros H. destruct h as [n|m n]; cbn [indices]; destruct is as [|x [|y [|]]]; try discriminate; inversion H as [|? ? H1 H2]; subst.
  - apply defined_bind; [now apply index_defined|discriminate].
  - inversion H2; subst. apply defined_bind; [now apply index_defined|]. intros i _. apply defined_bind; [now apply index_defined|discriminate].
Qed.
Lemma push_defined t o : defined o -> push s t o <> Some MUB.
Proof. intros H. apply andthen_defined; [exact H|discriminate]. Qed.
Theorem step_defined t E' : stm_consts t -> gentle_stm t -> styp (types_of s) t = Some E' -> ~ moves t -> step c s t <> Some MUB.
Proof using T SZ ST K.
  intros C G Y NM. unfold types_of in Y. rewrite (surjective_pairing s) at 1.
  destruct t as [x|e|e1 e2|k is|k is x|e|k e|k x|o k e|o k x|k e]; cbn [step]; rewrite <- ?surjective_pairing; cbn [styp stm_consts gentle_stm] in *.
  - destruct (typ _ x); [|discriminate]. apply push_defined. now apply simple_defined.
  - fold (atyp_in st sc e) in Y. destruct (atyp_in st sc e) as [u|] eqn:A; [|discriminate]. destruct (is_real (ael u)) eqn:R; [|discriminate]. destruct (prep_defined e u C G A) as (D & F). apply push_defined. apply defined_bind; [exact D|].
    intros p P. destruct (prepare' c s T SZ _ _ _ K C A P) as (h & (_ & _ & _ & MP & PO & _ & _ & O)). unfold sum. rewrite (psh_pshape _ _ _ (proj1 MP)).
    pose proof (places_all _ O) as PA. destruct (lin (total h)) as [|x xs]; [destruct (ael u); discriminate|]. destruct PA as (W & PA). rewrite (pel_within _ _ _ _ _ O (proj1 MP) W).
    apply defined_bind; [eapply pel_defined; [now apply (F p)|exact (proj1 MP)|apply W]|]. intros v V. eapply sums_defined; [now apply (F p)|exact PO|exact (proj1 MP)|exact O|exact (steady_type _ _ G A)|exact R|exact PA|].
    eapply pel_good; eauto. exact I.
  - fold (atyp_in st sc e1) in Y. fold (atyp_in st sc e2) in Y. destruct (atyp_in st sc e1) as [u1|] eqn:A1; [|discriminate]. destruct (atyp_in st sc e2) as [u2|] eqn:A2; [|discriminate].
    destruct (eqb _ _ && bty_eqb (ael u1) (ael u2)) eqn:Q; [|discriminate]. apply andb_prop in Q as (Qd & Qb). apply eqb_prop in Qd. apply bty_eqb_eq in Qb. destruct C as (C1 & C2), G as (G1 & G2).
    destruct (prep_defined e1 u1 C1 G1 A1) as (D1 & F1). destruct (prep_defined e2 u2 C2 G2 A2) as (D2 & F2). apply push_defined. apply defined_bind; [exact D1|]. intros p P. apply defined_bind; [exact D2|]. intros q Q.
    destruct (prepare' c s T SZ _ _ _ K C1 A1 P) as (h1 & (_ & _ & _ & MP1 & PO1 & _ & _ & O1)). destruct (prepare' c s T SZ _ _ _ K C2 A2 Q) as (h2 & (_ & _ & _ & MP2 & PO2 & _ & _ & O2)).
    unfold equal. rewrite (psh_pshape _ _ _ (proj1 MP1)), (psh_pshape _ _ _ (proj1 MP2)). destruct (same_shape h1 h2) as [[|]|] eqn:SH; try discriminate. apply same_shape_true in SH. subst h2. rewrite <- Qd, <- Qb in *.
    eapply differ_defined; [now apply (F1 p)|exact PO1|exact (proj1 MP1)|now apply (F2 q)|exact PO2|exact (proj1 MP2)|exact O1|exact (steady_type _ _ G1 A1)|now apply places_all].
  - destruct (nth_error st k) as [a|] eqn:A; [|discriminate]. destruct (array_sized s T SZ _ _ A) as (O & SA). apply push_defined. apply defined_bind; [now apply indices_defined|]. intros x X.
    destruct (indices_inv _ _ _ _ _ K X) as (p & P). destruct (indices_of _ _ _ _ _ O P) as (x' & X' & W). rewrite X in X'. injection X' as <-. rewrite (tread_within _ _ _ _ O SA W).
    destruct (znth_some (tel a) p) as (v & V); [rewrite (proj2 SA); apply W|]. rewrite (oget_ok _ _ _ V). discriminate.
  - destruct (nth_error st k) as [a|] eqn:A; [|discriminate]. destruct (array_sized s T SZ _ _ A) as (O & SA). destruct G as (G1 & G2). apply andthen_defined; [|discriminate]. apply defined_bind; [now apply simple_defined|]. intros v _.
    apply defined_bind; [now apply indices_defined|]. intros x' X. destruct (bty_eqb _ _); [|discriminate].
    destruct (indices_inv _ _ _ _ _ K X) as (p & P). destruct (indices_of _ _ _ _ _ O P) as (x'' & X' & W). rewrite X in X'. injection X' as <-.
    unfold twrite. rewrite (place_within _ _ _ O W). cbn [bindo]. rewrite oset_ok by (rewrite (proj2 SA); exact (proj1 W)). discriminate.
  - fold (atyp_in st sc e) in Y. destruct (atyp_in st sc e) as [u|] eqn:A; [|discriminate]. destruct (prep_defined e u C G A) as (D & F). apply andthen_defined; [|discriminate]. apply defined_bind; [exact D|]. intros p P.
    destruct (prepare' c s T SZ _ _ _ K C A P) as (h & (_ & _ & _ & MP & _ & _ & _ & O)). eapply own_defined; [now apply (F p)|exact (proj1 MP)|exact O].
  - fold (atyp_in st sc e) in Y. destruct (nth_error (kinds _) k) as [[d b]|] eqn:KN; [|discriminate]. destruct (kinds_nth _ _ _ _ KN) as (a & NA & Da & Ba). rewrite NA.
    destruct (atyp_in st sc e) as [u|] eqn:A; [|discriminate]. destruct (eqb d (adim u) && bty_eqb b (ael u)) eqn:Q; [|discriminate]. apply andb_prop in Q as (Qd & Qb). apply eqb_prop in Qd. apply bty_eqb_eq in Qb.
    destruct (prep_defined e u C G A) as (D & F). apply andthen_defined; [exact D|]. intros p P. destruct (prepare' c s T SZ _ _ _ K C A P) as (h & (_ & _ & _ & MP & PO & TM & _ & O)).
    assert (istmp p = false) as NT.
    { rewrite TM. clear -A NM. destruct e; unfold atyp_in in A; cbn in A, NM; repeat some_case A; try (injection A as <-; reflexivity); tauto. }
    assert (assign c s k a p <> Some MUB) as R; [|destruct p; try exact R; discriminate NT].
    unfold assign. rewrite (psh_pshape _ _ _ (proj1 MP)). destruct (same_shape (tsh a) h) as [[|]|] eqn:SH; try discriminate; [|rewrite (check_debug_false _ K); discriminate]. apply same_shape_true in SH. subst h.
    rewrite check_debug_true. cbn [andthen]. destruct (array_sized s T SZ _ _ NA) as (_ & SA).
    apply (store_all_defined k a _ (fun j => pel st p (At1 j))); [exact NA|now apply places_walk| |intros j J; eapply pel_defined; [now apply (F p)|exact (proj1 MP)|exact J]].
    intros a' j x Ty SA' W Z. rewrite (pel_local _ _ _ _ _ _ _ _ O (proj1 MP) NA SA SA' Z W).
    destruct (pel_fine c st (adim u) p (ael u) (At1 j) (proj1 T) PO I) as (r & R & V). rewrite R. destruct r as [v|f|]; cbn [bindo]; auto. destruct V as (V & _). now rewrite Ty, V, Ba, Qb, eqb_refl_bty.
  - destruct (nth_error st k) as [a|] eqn:A; [|discriminate]. destruct (array_sized s T SZ _ _ A) as (O & SA). apply andthen_defined; [now apply simple_defined|]. intros v _. destruct (bty_eqb _ _); [|discriminate].
    apply (store_all_defined k a _ (fun _ => Some (Ok v))); [exact A|now apply places_all|reflexivity|discriminate].
  - fold (atyp_in st sc e) in Y. destruct (nth_error (kinds _) k) as [[d b]|] eqn:KN; [|discriminate]. destruct (kinds_nth _ _ _ _ KN) as (a & NA & Da & Ba). rewrite NA. destruct G as (NS & G).
    destruct (atyp_in st sc e) as [u|] eqn:A; [|discriminate]. destruct (eqb d (adim u) && bty_eqb b (ael u) && _) eqn:Q; [|discriminate]. apply andb_prop in Q as (Q & _). apply andb_prop in Q as (Qd & Qb). apply eqb_prop in Qd. apply bty_eqb_eq in Qb.
    destruct (prep_defined e u C G A) as (D & F). apply andthen_defined; [exact D|]. intros p P. destruct (prepare' c s T SZ _ _ _ K C A P) as (h & (_ & _ & _ & MP & PO & TM & _ & O)).
    unfold update. rewrite (psh_pshape _ _ _ (proj1 MP)). destruct (same_shape (tsh a) h) as [[|]|] eqn:SH; try discriminate; [|rewrite (check_debug_false _ K); discriminate]. apply same_shape_true in SH. subst h.
    rewrite check_debug_true. cbn [andthen]. destruct (array_sized s T SZ _ _ NA) as (_ & SA).
    apply (store_all_defined k a _ (fun j => bindo (Some (oget (tel a) j)) (fun v => bindo (pel st p (At1 j)) (fun w => apply2 c o v w)))); [exact NA|now apply places_all| |].
    + intros a' j x Ty SA' W Z. rewrite (tread_within _ _ _ _ O SA' W), (pel_local _ _ _ _ _ _ _ _ O (proj1 MP) NA SA SA' Z W). unfold oget. now rewrite Z.
    + intros j J. destruct (znth_some (tel a) j) as (v & V); [rewrite (proj2 SA); exact J|]. rewrite (oget_ok _ _ _ V). cbn [bindo]. apply defined_bind; [eapply pel_defined; [now apply (F p)|exact (proj1 MP)|exact J]|].
      intros w Hw. apply (apply2_defined c o (ael u)); auto; [exact (steady_type _ _ G A)| |eapply pel_good; eauto; exact I].
      pose proof (typed_nth _ _ _ (proj1 T) NA) as TA. unfold arr_typed in TA. rewrite Forall_forall in TA. rewrite <- Qb, <- Ba. apply TA. eapply znth_in; eauto.
  - destruct (nth_error (kinds _) k) as [[d b]|] eqn:KN; [|discriminate]. destruct (kinds_nth _ _ _ _ KN) as (a & NA & Da & Ba). rewrite NA. destruct G as (NS & G). destruct (array_sized s T SZ _ _ NA) as (O & SA).
    destruct (is_str b _ && _) eqn:Q; [|discriminate]. apply andb_prop in Q as (Q & _). apply is_str_inv in Q.
    apply andthen_defined; [now apply simple_defined|]. intros w Hw. apply (store_all_defined k a _ (fun j => bindo (Some (oget (tel a) j)) (fun v => apply2 c o v w))); [exact NA|now apply places_all| |].
    + intros a' j x' Ty SA' W Z. rewrite (tread_within _ _ _ _ O SA' W). unfold oget. now rewrite Z.
    + intros j J. destruct (znth_some (tel a) j) as (v & V); [rewrite (proj2 SA); exact J|]. rewrite (oget_ok _ _ _ V). cbn [bindo]. apply (apply2_defined c o b); auto.
      * rewrite Forall_forall in ST. apply (ST (d, b)). eapply nth_error_In; eauto.
      * pose proof (typed_nth _ _ _ (proj1 T) NA) as TA. unfold arr_typed in TA. rewrite Forall_forall in TA. rewrite <- Ba. apply TA. eapply znth_in; eauto.
      * destruct (seval_fine c sc x (Str b) (proj2 T) C Q) as (r' & R' & H'). rewrite Hw in R'. injection R' as <-. exact H'.
  - destruct (nth_error st k) as [a|] eqn:NA; [|discriminate]. fold (atyp_in st sc e) in Y. destruct (nth_error (kinds _) k) as [[d b]|]; [|discriminate]. destruct (atyp_in st sc e) as [u|] eqn:A; [|discriminate].
    destruct (prep_defined e u C G A) as (D & F). apply andthen_defined; [|intros a' _; destruct (bty_eqb (tty a') (tty a)); discriminate]. apply defined_bind; [exact D|]. intros p P.
    destruct (prepare' c s T SZ _ _ _ K C A P) as (h & (_ & _ & _ & MP & _ & _ & _ & O)). eapply own_defined; [now apply (F p)|exact (proj1 MP)|exact O].
Qed.
End ONE.
Lemma steady_styp E t E' : Forall (fun x => steady (snd x)) (fst E) -> gentle_stm t -> styp E t = Some E' -> Forall (fun x => steady (snd x)) (fst E').
Proof using.
  clear K. destruct E as [KK G]. intros S0 GT H. destruct t; cbn in H, GT; repeat some_case H; injection H as <-; auto. cbn. apply Forall_app. split; [exact S0|]. constructor; [|constructor]. cbn.
  assert (uncast e) as U by (clear -GT; induction e; cbn in *; try tauto).
  assert (exists k, In k (names e)) as (k & I).
  { clear. induction e as [j|o e IH|e IH|e IH|o e1 IH1 e2 IH2|o x e IH|o e IH x|b e IH|e IH]; cbn; auto; [now exists j; left|]. destruct IH1 as (k & I). exists k. apply in_or_app. now left. }
  pose proof (one_type _ _ _ _ U Heqo k I) as E. rewrite Forall_forall in S0. apply (S0 (adim a, ael a)). eapply nth_error_In; eauto.
Qed.
Theorem run_defined l : forall E E' s, cfg_ok c -> has_types E s -> sized s -> Forall (fun x => steady (snd x)) (fst E) -> Forall stm_consts l -> Forall gentle_stm l -> Forall (fun t => ~ moves t) l ->
  ptyp E l = Some E' -> run c s l <> Some MUB.
Proof using K.
  induction l as [|t l IH]; intros E E' s OK (T & <-) SZ ST C G NM Y; cbn [run ptyp] in *; [discriminate|].
  destruct (styp (types_of s) t) as [E1|] eqn:Y1; [|discriminate]. inversion C as [|? ? C1 C2]; subst. inversion G as [|? ? G1 G2]; subst. inversion NM as [|? ? N1 N2]; subst.
  pose proof (step_defined s T SZ ST t E1 C1 G1 Y1 N1) as D.
  destruct (step_sound c _ _ s t (conj T eq_refl) C1 Y1) as (r & R & HT). rewrite R in *. destruct r as [s1|f s1|]; [|discriminate|congruence].
  eapply IH; eauto.
  - pose proof (step_means c s T SZ t E1 s1 K C1 Y1 N1 R) as M. eapply does_sized; eauto. apply OK.
  - eapply steady_styp; eauto.
Qed.
End SAFE.
