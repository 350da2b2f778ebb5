(** Programs on typed arrays: type soundness. *)
From Coq Require Import ZArith Bool List Lia.
From Verif Require Import Base.Outcome Base.ZList Model.IntModel Model.Scalars Model.Typed.
From Verif Require Import Spec.IntSpec Spec.ScalarSpec Spec.TypedSpec Proofs.TypingProofs.
Import ListNotations.
Local Open Scope Z_scope.

Section SOUND.
Context (c : cfg).

(** ** Bindings *)
Definition fine {A} (P : A -> Prop) (o : option (outcome A)) : Prop :=
  exists r, o = Some r /\ match r with Ok x => P x | Fail f => reported c f | UB => True end.
Lemma fine_ok {A} (P : A -> Prop) x : P x -> fine P (Some (Ok x)).
Proof. exists (Ok x). auto. Qed.
Lemma fine_bind {A B} (P : A -> Prop) (Q : B -> Prop) o k : fine P o -> (forall x, P x -> fine Q (k x)) -> fine Q (bindo o k).
Proof. intros (r & -> & H) K. destruct r as [x|f|]; cbn [bindo]; [now apply K|exists (Fail f)|exists UB]; auto. Qed.
Lemma fine_mono {A} (P Q : A -> Prop) o : fine P o -> (forall x, P x -> Q x) -> fine Q o.
Proof. intros (r & -> & H) K. exists r. split; [reflexivity|]. destruct r; auto. Qed.
Definition vgood (b : bty) (v : value) : Prop := tyof v = b /\ valid v.
Lemma vgood_bool x : vgood TB (VB x).
Proof. split; exact eq_refl || exact I. Qed.
Lemma goods_fine b o : goods c b o -> fine (vgood b) o.
Proof. intros (r & -> & H). exists r. split; [reflexivity|]. destruct r as [v|f|]; cbn in *; auto. destruct H as (-> & H). left. auto. Qed.
Lemma fine_check b : fine (fun _ => True) (Some (check_debug c (Ok b))).
Proof.
  unfold check_debug, check_always. destruct (dbg c) eqn:D; cbn [bind]; [|now apply fine_ok]. destruct b; [now apply fine_ok|].
  unfold fine, reported, checked, report. rewrite D. destruct (exc c) eqn:X.
  - eexists. split; [reflexivity|]. cbn. auto.
  - destruct (ndbg c); eexists; (split; [reflexivity|]); cbn; auto.
Qed.
Lemma fine_normal b : fine (fun _ => True) (Some (check_normal c (Ok b))).
Proof.
  unfold check_normal. destruct (dbg c) eqn:D; cbn [bind]; [|now apply fine_ok]. destruct b; [now apply fine_ok|].
  unfold fine, reported, checked. rewrite D. destruct (ndbg c); eexists; (split; [reflexivity|]); cbn; auto. left. rewrite orb_true_r. auto.
Qed.

(** ** Elements *)
Definition ixok (d : bool) (x : ix) : Prop := match x with At1 _ => True | At2 _ _ => d = true end.
Lemma place_fine h x : ixok (two h) x -> fine (fun _ => True) (place h x).
Proof.
  destruct x as [i|i j]; cbn; [intros _; now apply fine_ok|]. destruct h as [n|m n]; [discriminate|]. intros _. cbn.
  unfold lmul, ladd, lret. destruct (in_long (i * n)); cbn [bind]; [|exists UB; auto]. destruct (in_long _); [now apply fine_ok|exists UB; auto].
Qed.
Lemma oget_fine a p : arr_typed a -> fine (vgood (tty a)) (Some (oget (tel a) p)).
Proof.
  intros H. unfold oget. destruct (znth (tel a) p) as [v|] eqn:E; [|exists UB; auto]. apply fine_ok.
  unfold znth in E. destruct (p <? 0); [discriminate|]. unfold arr_typed in H. rewrite Forall_forall in H. apply H. eapply nth_error_In; eauto.
Qed.
Lemma tread_fine a x : arr_typed a -> ixok (two (tsh a)) x -> fine (vgood (tty a)) (tread a x).
Proof. intros H X. unfold tread. eapply fine_bind; [now apply place_fine|]. intros p _. now apply oget_fine. Qed.
Lemma Forall_upd {A} (P : A -> Prop) l k v : Forall P l -> P v -> Forall P (upd l k v).
Proof. intros H Hv. revert k. induction H; intros [|k]; cbn; constructor; auto. Qed.
Definition like (a a' : tarr) : Prop := arr_typed a' /\ tty a' = tty a /\ tsh a' = tsh a.
Lemma twrite_fine a x v : arr_typed a -> ixok (two (tsh a)) x -> vgood (tty a) v -> fine (like a) (twrite a x v).
Proof.
  intros H X G. unfold twrite. eapply fine_bind; [now apply place_fine|]. intros p _. unfold oset. destruct (_ && _); cbn [bind]; [|exists UB; auto].
  apply fine_ok. split; [|auto]. unfold arr_typed in *. cbn. unfold zupd. destruct (p <? 0); [exact H|]. now apply Forall_upd.
Qed.

(** ** Expression objects *)
Fixpoint pok (K : list (bool * bty)) (d : bool) (p : pex) (b : bty) : Prop :=
  match p with
  | PVar k => nth_error K k = Some (d, b)
  | PTmp a => two (tsh a) = d /\ tty a = b /\ arr_typed a
  | PUn f p => exists b0, pok K d p b0 /\ forall v, vgood b0 v -> fine (vgood b) (f v)
  | PBin f p q => exists b1 b2, pok K d p b1 /\ pok K d q b2 /\ forall v w, vgood b1 v -> vgood b2 w -> fine (vgood b) (f v w)
  | PCon h v => two h = d /\ vgood b v
  end.
Lemma kinds_nth st k d b : nth_error (kinds st) k = Some (d, b) -> exists a, nth_error st k = Some a /\ two (tsh a) = d /\ tty a = b.
Proof. unfold kinds. rewrite nth_error_map. destruct (nth_error st k) as [a|]; [|discriminate]. cbn. intros [= <- <-]. eauto. Qed.
Lemma kinds_nth' st k a : nth_error st k = Some a -> nth_error (kinds st) k = Some (two (tsh a), tty a).
Proof. unfold kinds. rewrite nth_error_map. now intros ->. Qed.
Lemma typed_nth st k a : Forall arr_typed st -> nth_error st k = Some a -> arr_typed a.
Proof. intros H E. rewrite Forall_forall in H. apply H. eapply nth_error_In; eauto. Qed.
Lemma psh_ok st d p b : pok (kinds st) d p b -> exists h, psh st p = Some h /\ two h = d.
Proof.
  revert b. induction p as [k|a|f p IH|f p IH q _|h v]; cbn; intros b H.
  - destruct (kinds_nth _ _ _ _ H) as (a & -> & <- & _). cbn. eauto.
  - destruct H as (H & _). eauto.
  - destruct H as (b0 & H & _). eauto.
  - destruct H as (b1 & _ & H & _). eauto.
  - destruct H as (H & _). eauto.
Qed.
Lemma pel_fine st d p b x : Forall arr_typed st -> pok (kinds st) d p b -> ixok d x -> fine (vgood b) (pel st p x).
Proof.
  intros T. revert b. induction p as [k|a|f p IH|f p IHp q IHq|h v]; cbn; intros b H X.
  - destruct (kinds_nth _ _ _ _ H) as (a & E & <- & <-). rewrite E. apply tread_fine; [eapply typed_nth; eauto|exact X].
  - destruct H as (<- & <- & H). now apply tread_fine.
  - destruct H as (b0 & H & F). eapply fine_bind; [eapply IH; eauto|exact F].
  - destruct H as (b1 & b2 & H1 & H2 & F). eapply fine_bind; [eapply IHp; eauto|]. intros v Hv. cbn beta. eapply fine_bind; [eapply IHq; eauto|]. auto.
  - apply fine_ok, H.
Qed.
Lemma lin_ok d n : Forall (ixok d) (lin n).
Proof. unfold lin. apply Forall_forall. intros x H. apply in_map_iff in H. destruct H as (i & <- & _). exact I. Qed.
Lemma grid_ok m n : Forall (ixok true) (grid m n).
Proof.
  unfold grid. apply Forall_forall. intros x H. apply in_flat_map in H. destruct H as (i & _ & H). apply in_map_iff in H. destruct H as (j & <- & _). reflexivity.
Qed.
Lemma walk_ok p h : Forall (ixok (two h)) (walk p h).
Proof. destruct h; cbn; [apply lin_ok|]. destruct (owner p); [apply lin_ok|apply grid_ok]. Qed.
Lemma reads_fine st d p b l : Forall arr_typed st -> pok (kinds st) d p b -> Forall (ixok d) l -> fine (Forall (vgood b)) (reads st p l).
Proof.
  intros T H. induction 1 as [|x l X L IH]; cbn; [now apply fine_ok|].
  eapply fine_bind; [eapply pel_fine; eauto|]. intros v Hv. cbn beta. eapply fine_bind; [exact IH|]. intros r Hr. apply fine_ok. now constructor.
Qed.
Definition arr_like (d : bool) (b : bty) (a : tarr) : Prop := arr_typed a /\ two (tsh a) = d /\ tty a = b.
Lemma own_fine st d p b : Forall arr_typed st -> pok (kinds st) d p b -> fine (arr_like d b) (own c st b p).
Proof.
  intros T H. destruct (psh_ok _ _ _ _ H) as (h & E & D). unfold own.
  assert (fine (arr_like d b) (build c st b p)) as R.
  { unfold build. rewrite E. destruct (amax c <? total h); [eexists; split; [reflexivity|]; now right|]. eapply fine_bind; [eapply reads_fine; eauto; rewrite <- D; apply walk_ok|].
    intros l L. apply fine_ok. split; [exact L|]. auto. }
  destruct p; try exact R. apply fine_ok. cbn in H. destruct H as (? & ? & ?). split; auto.
Qed.
Lemma vabs_fine b v : is_real b = true -> vgood b v -> fine (vgood b) (vabs c v).
Proof.
  intros R (T & V). destruct v as [x|t z|f x]; cbn in T; subst b; [discriminate| |].
  - unfold vabs. destruct (signed t) eqn:S; [|now apply fine_ok]. destruct (0 <? z); [now apply fine_ok|]. apply goods_fine.
    destruct (apply1_good c UMinus (VI t z) (TI t) V) as (r & E & G); [cbn; now rewrite S|]. exists r. auto.
  - unfold vabs. eapply (fine_bind (vgood TB)).
    + eapply (fine_bind (vgood (TF f))); [apply goods_fine, goods_cast|].
      * cbv [valid fits signed bits]. lia.
      * intros w (Tw & Vw). apply goods_fine. destruct (apply2_good c OGt (VF f x) w TB) as (r & E & G); auto. exists r; auto.
    + intros w (Tw & _). destruct w as [[|]| |]; try discriminate; [now apply fine_ok|]. apply goods_fine.
      destruct (apply1_good c UMinus (VF f x) (TF f) V eq_refl) as (r & E & G). exists r; auto.
Qed.
Lemma vinv_fine b v : is_flt b = true -> vgood b v -> fine (vgood b) (vinv c v).
Proof.
  intros R (T & V). destruct v as [x|t z|f x]; cbn in T; subst b; try discriminate. unfold vinv.
  eapply (fine_bind (vgood (TF f))); [apply goods_fine, goods_cast; cbv [valid fits signed bits]; lia|].
  intros w (Tw & Vw). apply goods_fine. destruct (apply2_good c ODiv w (VF f x) (TF f)) as (r & E & G); auto; [now rewrite Tw|]. exists r; auto.
Qed.
Lemma apply2_fine o b b' v w : op_result o b = Some b' -> vgood b v -> vgood b w -> fine (vgood b') (apply2 c o v w).
Proof.
  intros E (T & V) (T' & V'). apply goods_fine. destruct (apply2_good c o v w b') as (r & Er & G); auto; [congruence|now rewrite T|]. exists r. auto.
Qed.
Lemma apply1_fine o b b' v : un_result o b = Some b' -> vgood b v -> fine (vgood b') (apply1 o v).
Proof. intros E (T & V). apply goods_fine. destruct (apply1_good c o v b') as (r & Er & G); auto; [now rewrite T|]. exists r. auto. Qed.

(** ** Scalars *)
Lemma scal_matches (sc : list (vty * value)) : Forall scal_typed sc -> matches (map fst sc) (map snd sc).
Proof. induction 1 as [|[t v] l H _ IH]; cbn; constructor; auto. Qed.
Lemma seval_fine sc s t : Forall scal_typed sc -> consts_valid s -> typ (map fst sc) s = Some t -> fine (vgood (base t)) (seval c sc s).
Proof. intros H C E. apply goods_fine. exact (soundness c _ _ s (scal_matches _ H) C t E). Qed.

Lemma binary_fine f st d b1 b2 b p q : pok (kinds st) d p b1 -> pok (kinds st) d q b2 ->
  (forall v w, vgood b1 v -> vgood b2 w -> fine (vgood b) (f v w)) -> fine (fun r => pok (kinds st) d r b /\ exists g p q, r = PBin g p q) (binary c f st p q).
Proof.
  intros Hp Hq F. unfold binary. destruct (psh_ok _ _ _ _ Hp) as (h & -> & D). destruct (psh_ok _ _ _ _ Hq) as (h' & -> & D').
  destruct (same_shape h h') as [r|] eqn:E.
  - eapply fine_bind; [apply fine_check|]. intros _ _. apply fine_ok. split; [|eauto]. cbn. eauto 10.
  - destruct h, h'; cbn in *; congruence.
Qed.

Ltac some_case H := match type of H with context [match ?m with _ => _ end] => destruct m eqn:?; try discriminate H end.
Definition istmp (p : pex) : bool := match p with PTmp _ => true | _ => false end.
Lemma prep_fine st sc e u : Forall arr_typed st -> Forall scal_typed sc -> ax_consts e -> atyp_in st sc e = Some u ->
  fine (fun p => pok (kinds st) (adim u) p (ael u) /\ istmp p = atmp u) (prep c st sc e).
Proof.
  intros T Hs. unfold atyp_in. revert u. induction e as [k|o e IH|e IH|e IH|o e1 IH1 e2 IH2|o s e IH|o e IH s|b e IH|e IH]; cbn [atyp prep ax_consts]; intros u C H.
  - destruct (nth_error (kinds st) k) as [[d b]|] eqn:E; [|discriminate]. injection H as <-. destruct (kinds_nth _ _ _ _ E) as (a & -> & D & B).
    apply fine_ok. cbn. auto.
  - destruct (atyp _ _ e) as [[d b [|]]|]; try discriminate. destruct (un_result o b) as [b'|] eqn:R; [|discriminate]. injection H as <-.
    eapply fine_bind; [eapply IH; eauto|]. cbn. intros p (P & _). apply fine_ok. cbn. split; [|reflexivity]. exists b. split; [exact P|]. intros v. now apply apply1_fine.
  - destruct (atyp _ _ e) as [[d b [|]]|]; try discriminate. destruct (is_real b) eqn:R; [|discriminate]. injection H as <-.
    eapply fine_bind; [eapply IH; eauto|]. cbn. intros p (P & _). apply fine_ok. cbn. split; [|reflexivity]. exists b. split; [exact P|]. intros v. now apply vabs_fine.
  - destruct (atyp _ _ e) as [[d b [|]]|]; try discriminate. destruct (is_flt b) eqn:R; [|discriminate]. injection H as <-.
    eapply fine_bind; [eapply IH; eauto|]. cbn. intros p (P & _). apply fine_ok. cbn. split; [|reflexivity]. exists b. split; [exact P|]. intros v. now apply vinv_fine.
  - destruct C as (C1 & C2). destruct (atyp _ _ e1) as [[d b [|]]|]; try discriminate. destruct (atyp _ _ e2) as [[d' b' [|]]|]; try discriminate.
    destruct (Bool.eqb d d' && bty_eqb b b' && negb (acmp o)) eqn:Q; [|discriminate]. apply andb_prop in Q as (Q & _). apply andb_prop in Q as (Qd & Qb).
    apply eqb_prop in Qd. apply bty_eqb_eq in Qb. subst d' b'. destruct (op_result o b) as [r|] eqn:R; [|discriminate]. injection H as <-.
    eapply fine_bind; [eapply IH1; eauto|]. cbn. intros p (P & _). eapply fine_bind; [eapply IH2; eauto|]. cbn. intros q (Pq & _).
    eapply fine_mono; [eapply (binary_fine _ _ d b b r); eauto; intros v w; now apply apply2_fine|]. intros x (X & g & p' & q' & ->). auto.
  - destruct C as (C1 & C2). destruct (typ _ s) as [[|b']|] eqn:Ts; try discriminate. destruct (atyp _ _ e) as [[d b [|]]|]; try discriminate.
    destruct (bty_eqb b b' && negb (acmp o)) eqn:Q; [|discriminate]. apply andb_prop in Q as (Qb & _). apply bty_eqb_eq in Qb. subst b'.
    destruct (op_result o b) as [r|] eqn:R; [|discriminate]. injection H as <-.
    eapply fine_bind; [eapply seval_fine; eauto|]. cbn [base]. intros v V. eapply fine_bind; [eapply IH; eauto|]. cbn [adim ael atmp]. intros p (P & _).
    destruct (psh_ok _ _ _ _ P) as (h & E & D). rewrite E.
    eapply fine_mono; [eapply (binary_fine _ _ d b b r); eauto; [now cbn|intros ? ?; now apply apply2_fine]|]. intros x (X & g & p' & q' & ->). auto.
  - destruct C as (C1 & C2). destruct (typ _ s) as [[|b']|] eqn:Ts; try discriminate. destruct (atyp _ _ e) as [[d b [|]]|]; try discriminate.
    destruct (bty_eqb b b' && negb (acmp o)) eqn:Q; [|discriminate]. apply andb_prop in Q as (Qb & _). apply bty_eqb_eq in Qb. subst b'.
    destruct (op_result o b) as [r|] eqn:R; [|discriminate]. injection H as <-.
    eapply fine_bind; [eapply IH; eauto|]. cbn [adim ael atmp]. intros p (P & _). eapply fine_bind; [eapply seval_fine; eauto|]. cbn [base]. intros v V.
    destruct (psh_ok _ _ _ _ P) as (h & E & D). rewrite E.
    eapply fine_mono; [eapply (binary_fine _ _ d b b r); eauto; [now cbn|intros ? ?; now apply apply2_fine]|]. intros x (X & g & p' & q' & ->). auto.
  - destruct (atyp _ _ e) as [[d b0 [|]]|]; try discriminate. injection H as <-.
    eapply fine_bind; [eapply IH; eauto|]. cbn. intros p (P & _). apply fine_ok. cbn. split; [|reflexivity]. exists b0. split; [exact P|]. intros v (_ & V). now apply goods_fine, goods_cast.
  - unfold atyp_in. destruct (atyp _ _ e) as [[d b t]|]; try discriminate. injection H as <-.
    eapply fine_bind; [eapply IH; eauto|]. cbn. intros p (P & _). eapply fine_bind; [eapply own_fine; eauto|]. intros a (A1 & A2 & A3). apply fine_ok. cbn. auto.
Qed.

(** ** Statements *)
Definition has_types (E : list (bool * bty) * list vty) (s : state) : Prop := typed s /\ types_of s = E.
Definition ends (E : list (bool * bty) * list vty) (P : state -> Prop) (o : option (mut state)) : Prop :=
  exists r, o = Some r /\ match r with MOk s => P s | MFail f s => reported c f /\ has_types E s | MUB => True end.
Lemma ends_ok E (P : state -> Prop) s : P s -> ends E P (Some (MOk s)).
Proof. exists (MOk s). auto. Qed.
Lemma ends_andthen {A} E (P : A -> Prop) Q s o k : has_types E s -> fine P o -> (forall x, P x -> ends E Q (k x)) -> ends E Q (andthen s o k).
Proof. intros T (r & -> & H) K. destruct r as [x|f|]; cbn [andthen]; [now apply K|exists (MFail f s); auto|exists MUB; auto]. Qed.
Lemma has_push K G (st : list tarr) (sc : list (vty * value)) t v : has_types (K, G) (st, sc) -> vgood (base t) v -> has_types (K, G ++ [t]) (st, sc ++ [(t, v)]).
Proof.
  intros ((T1 & T2) & E) V. split.
  - split; [exact T1|]. cbn. apply Forall_app. split; [exact T2|]. constructor; [exact V|constructor].
  - unfold types_of in *. cbn [fst snd] in *. rewrite map_app. cbn [map fst]. congruence.
Qed.
Lemma ends_push K G st sc t o : has_types (K, G) (st, sc) -> fine (vgood (base t)) o -> ends (K, G) (has_types (K, G ++ [t])) (push (st, sc) t o).
Proof. intros H F. unfold push. eapply ends_andthen; eauto. intros v V. apply ends_ok. now apply has_push. Qed.
Lemma kinds_upd st k a a' : nth_error st k = Some a -> two (tsh a') = two (tsh a) -> tty a' = tty a -> kinds (upd st k a') = kinds st.
Proof.
  intros E D B. revert k E. induction st as [|h st IH]; intros [|k]; cbn; try discriminate.
  - intros [= ->]. now rewrite D, B.
  - intros E. f_equal. exact (IH _ E).
Qed.
Lemma has_upd E st sc k a a' : has_types E (st, sc) -> nth_error st k = Some a -> arr_typed a' -> two (tsh a') = two (tsh a) -> tty a' = tty a -> has_types E (upd st k a', sc).
Proof.
  intros ((T1 & T2) & <-) N A D B. split; [split; [now apply Forall_upd|exact T2]|]. unfold types_of. cbn [fst snd]. now rewrite (kinds_upd _ _ _ _ N D B).
Qed.
Lemma upd_nth_same {A} (st : list A) k a a' : nth_error st k = Some a -> nth_error (upd st k a') k = Some a'.
Proof. revert k. induction st as [|h st IH]; intros [|k]; cbn; try discriminate; auto. Qed.
(** Loops. *)
Lemma store_ends E st sc k a g l : has_types E (st, sc) -> nth_error st k = Some a -> Forall (ixok (two (tsh a))) l ->
  (forall st' a' x, has_types E (st', sc) -> nth_error st' k = Some a' -> tty a' = tty a -> tsh a' = tsh a -> ixok (two (tsh a)) x -> fine (vgood (tty a)) (g st' a' x)) ->
  ends E (has_types E) (store (st, sc) k g l).
Proof.
  intros H N L G. revert st a H N G L. induction l as [|x l IH]; intros st a H N G L; cbn [store]; [now apply ends_ok|].
  cbn [fst snd]. rewrite N. inversion L as [|? ? X L']; subst. eapply ends_andthen; [exact H| |].
  - eapply fine_bind; [apply G; eauto|]. intros v V. cbn beta. apply (twrite_fine a); auto. eapply typed_nth; [apply H|exact N].
  - cbn beta. intros a' (A & B & D). eapply (IH _ a'); [eapply has_upd; eauto; congruence|now apply (upd_nth_same _ _ a)| |now rewrite D].
    rewrite B, D. exact G.
Qed.
Lemma sums_fine st d b p v l : Forall arr_typed st -> is_real b = true -> pok (kinds st) d p b -> Forall (ixok d) l -> vgood b v -> fine (vgood b) (sums c st p v l).
Proof.
  intros T R P L. revert v. induction L as [|x l X L IH]; intros v V; cbn; [now apply fine_ok|].
  eapply fine_bind; [eapply pel_fine; eauto|]. intros w W. cbn beta. eapply (fine_bind (vgood b)); [|exact IH]. apply (apply2_fine _ b); auto. destruct b; [discriminate|reflexivity|reflexivity].
Qed.
Lemma sum_fine st d b p : Forall arr_typed st -> is_real b = true -> pok (kinds st) d p b -> fine (vgood b) (sum c st b p).
Proof.
  intros T R P. unfold sum. destruct (psh_ok _ _ _ _ P) as (h & -> & D). pose proof (lin_ok d (total h)) as L. destruct (lin (total h)) as [|x l].
  - apply goods_fine, goods_cast. cbv [valid fits signed bits]. lia.
  - inversion L; subst. eapply fine_bind; [eapply pel_fine; eauto|]. intros v V. eapply sums_fine; eauto.
Qed.
Lemma differ_fine st d b p q l : Forall arr_typed st -> pok (kinds st) d p b -> pok (kinds st) d q b -> Forall (ixok d) l -> fine (vgood TB) (differ c st p q l).
Proof.
  intros T P Q. induction 1 as [|x l X L IH]; cbn; [apply fine_ok, vgood_bool|].
  eapply fine_bind; [eapply (pel_fine st d p); eauto|]. intros v V. cbn beta. eapply fine_bind; [eapply (pel_fine st d q); eauto|]. intros w W. cbn beta.
  eapply (fine_bind (vgood TB)); [apply (apply2_fine _ b); auto|]. intros u (U & _). destruct u as [[|]| |]; try discriminate; auto. apply fine_ok, vgood_bool.
Qed.
Lemma equal_fine st d b p q : Forall arr_typed st -> pok (kinds st) d p b -> pok (kinds st) d q b -> fine (vgood TB) (equal c st p q).
Proof.
  intros T P Q. unfold equal. destruct (psh_ok _ _ _ _ P) as (h & -> & D). destruct (psh_ok _ _ _ _ Q) as (h' & -> & D').
  destruct (same_shape h h') as [[|]|] eqn:E.
  - eapply differ_fine; eauto. apply lin_ok.
  - apply fine_ok, vgood_bool.
  - destruct h, h'; cbn in *; congruence.
Qed.
Lemma is_index_inv o : is_index o = true -> exists t, o = Some t /\ (base t = TI I32 \/ base t = TI I64).
Proof. destruct o as [[[| []|]|[| []|]]|]; cbn; try discriminate; intros _; eexists; split; try reflexivity; auto. Qed.
Lemma index_fine sc n s : Forall scal_typed sc -> consts_valid s -> is_index (typ (map fst sc) s) = true -> fine (fun _ => True) (index c sc n s).
Proof.
  intros H C X. destruct (is_index_inv _ X) as (t & E & B). unfold index. eapply fine_bind; [eapply seval_fine; eauto|].
  intros v (V & _). destruct v as [| [] z|]; cbn in V; rewrite <- V in B; destruct B as [B|B]; try discriminate B; (eapply fine_bind; [apply fine_check|intros; now apply fine_ok]).
Qed.
Lemma indices_fine sc h is : Forall scal_typed sc -> Forall consts_valid is -> length is = (if two h then 2 else 1)%nat -> forallb (fun s => is_index (typ (map fst sc) s)) is = true ->
  fine (ixok (two h)) (indices c sc h is).
Proof.
  intros H C L X. destruct h as [n|m n]; cbn in L.
  - destruct is as [|i [|? ?]]; try discriminate. cbn in *. rewrite andb_true_r in X. inversion C; subst.
    eapply fine_bind; [now apply index_fine|]. intros; now apply fine_ok.
  - destruct is as [|i [|j [|? ?]]]; try discriminate. cbn in *. apply andb_prop in X as (X1 & X2). rewrite andb_true_r in X2. inversion C as [|? ? C1 C2]; subst. inversion C2; subst.
    eapply fine_bind; [now apply index_fine|]. intros x _. cbn beta. eapply fine_bind; [now apply index_fine|]. intros; now apply fine_ok.
Qed.
Lemma is_str_inv b o : is_str b o = true -> o = Some (Str b).
Proof. destruct o as [[|b']|]; cbn; try discriminate. intros H. apply bty_eqb_eq in H. now subst. Qed.
Lemma op_assign_result o b : op_assign o b = true -> op_result o b = Some b.
Proof. destruct o, b; cbn; congruence. Qed.
Lemma eqb_refl_bty b : bty_eqb b b = true.
Proof. now apply bty_eqb_eq. Qed.

Lemma step_sound E E' s t : has_types E s -> stm_consts t -> styp E t = Some E' -> ends E (has_types E') (step c s t).
Proof.
  destruct s as [st sc], E as [K G]. intros H C X. pose proof H as ((T1 & T2) & HE). injection HE as EK EG. cbn [fst snd] in *. subst K G.
  destruct t as [e|e|e1 e2|k is|k is e|e|k e|k e|o k e|o k e|k e]; cbn [styp step stm_consts] in *.
  - destruct (typ _ e) as [v|] eqn:Et; [|discriminate]. injection X as <-. apply ends_push; auto. eapply seval_fine; eauto.
  - unfold atyp_in. destruct (atyp _ _ e) as [u|] eqn:Et; [|discriminate]. destruct (is_real (ael u)) eqn:R; [|discriminate]. injection X as <-.
    apply ends_push; auto. eapply fine_bind; [eapply prep_fine; eauto|]. cbn. intros p (P & _). eapply sum_fine; eauto.
  - destruct (atyp _ _ e1) as [u|] eqn:E1; [|discriminate]. destruct (atyp _ _ e2) as [w|] eqn:E2; [|discriminate].
    destruct (Bool.eqb _ _ && _) eqn:Q; [|discriminate]. injection X as <-. apply andb_prop in Q as (Qd & Qb). apply eqb_prop in Qd. apply bty_eqb_eq in Qb.
    apply ends_push; auto. destruct C. eapply fine_bind; [eapply (prep_fine st sc e1 u); eauto|]. cbn. intros p (P & _).
    eapply fine_bind; [eapply (prep_fine st sc e2 w); eauto|]. cbn. intros q (P' & _). rewrite <- Qd, <- Qb in P'. eapply equal_fine; eauto.
  - destruct (nth_error (kinds st) k) as [[d b]|] eqn:N; [|discriminate]. destruct (Nat.eqb _ _ && _) eqn:Q; [|discriminate]. injection X as <-.
    apply andb_prop in Q as (Q1 & Q2). apply Nat.eqb_eq in Q1. destruct (kinds_nth _ _ _ _ N) as (a & Na & D & B). subst d b. rewrite Na.
    apply ends_push; auto. eapply fine_bind; [now apply indices_fine|]. intros x X'. apply tread_fine; auto. eapply typed_nth; eauto.
  - destruct (nth_error (kinds st) k) as [[d b]|] eqn:N; [|discriminate]. destruct (_ && _ && _) eqn:Q; [|discriminate]. injection X as <-.
    apply andb_prop in Q as (Q & Q3). apply andb_prop in Q as (Q1 & Q2). apply Nat.eqb_eq in Q1. apply is_str_inv in Q3. destruct (kinds_nth _ _ _ _ N) as (a & Na & D & B). subst d b. rewrite Na.
    destruct C as (C1 & C2). eapply (ends_andthen _ (like a)); [exact H| |].
    + eapply fine_bind; [eapply seval_fine; eauto|]. cbn [base]. intros v V. cbn beta. eapply fine_bind; [now apply indices_fine|]. intros x X'. cbn beta.
      rewrite (proj1 V), eqb_refl_bty. apply twrite_fine; auto. eapply typed_nth; eauto.
    + intros a' (A & B & D). apply ends_ok. eapply has_upd; eauto. now rewrite D.
  - unfold atyp_in. destruct (atyp _ _ e) as [u|] eqn:Et; [|discriminate]. injection X as <-. eapply (ends_andthen _ (arr_like (adim u) (ael u))); [exact H| |].
    + eapply fine_bind; [eapply prep_fine; eauto|]. cbn. intros p (P & _). eapply own_fine; eauto.
    + intros a (A1 & A2 & A3). apply ends_ok. split; [split; [|exact T2]|]; cbn.
      * apply Forall_app. split; [exact T1|]. constructor; [exact A1|constructor].
      * unfold types_of, kinds. cbn. rewrite map_app. cbn. now rewrite A2, A3.
  - destruct (nth_error (kinds st) k) as [[d b]|] eqn:N; [|discriminate]. destruct (atyp _ _ e) as [u|] eqn:Et; [|discriminate]. destruct (Bool.eqb _ _ && _) eqn:Q; [|discriminate]. injection X as <-.
    apply andb_prop in Q as (Qd & Qb). apply eqb_prop in Qd. apply bty_eqb_eq in Qb. destruct (kinds_nth _ _ _ _ N) as (a & Na & D & B). subst d b. rewrite Na.
    pose proof (typed_nth _ _ _ T1 Na) as Ta.
    eapply ends_andthen; [exact H|eapply (prep_fine st sc e u); eauto|]. intros p (P & Pt). destruct (psh_ok _ _ _ _ P) as (h & Eh & Dh).
    assert (exists r, same_shape (tsh a) h = Some r) as (r & Er) by (destruct (tsh a), h; cbn in *; eauto; congruence).
    assert (ends (kinds st, map fst sc) (has_types (kinds st, map fst sc)) (assign c (st, sc) k a p)) as R.
    { unfold assign. cbn [fst]. rewrite Eh, Er. eapply ends_andthen; [exact H|apply fine_check|]. intros _ _. eapply (store_ends _ _ _ _ a); eauto.
      - rewrite D, <- Dh. apply walk_ok.
      - intros st' a' x H' N' B' D' X'. eapply fine_bind; [eapply (pel_fine st' (adim u) p (ael u))|].
        + apply H'.
        + replace (kinds st') with (kinds st); [exact P|]. destruct H' as (_ & H'). unfold types_of in H'. cbn [fst snd] in H'. congruence.
        + now rewrite <- D.
        + intros v V. rewrite (proj1 V), B', B, eqb_refl_bty. now apply fine_ok. }
    destruct p as [j|t| | |]; try exact R. cbn in P. destruct P as (P1 & P2 & P3). rewrite P2, B, eqb_refl_bty. cbn in Eh. injection Eh as <-.
    eapply (ends_andthen _ (fun a' => arr_typed a' /\ two (tsh a') = two (tsh a) /\ tty a' = tty a)); [exact H| |].
    + unfold move. rewrite Er. change (Some (check_normal c (Ok r) ;;; Ok (match tsh a with Sh1 _ => t | Sh2 _ _ => mktarr (tty a) (tsh a) (tel t) end)))
        with (bindo (Some (check_normal c (Ok r))) (fun _ => Some (Ok (match tsh a with Sh1 _ => t | Sh2 _ _ => mktarr (tty a) (tsh a) (tel t) end)))) || idtac.
      destruct (fine_normal r) as (x & Ex & Hx). injection Ex as Ex. rewrite Ex. destruct x as [y|f|]; cbn [bind]; [|exists (Fail f); auto|exists UB; auto].
      apply fine_ok. destruct (tsh a) eqn:Ea; cbn in *; (split; [|split]); auto; try congruence. unfold arr_typed. cbn. rewrite B, <- P2. exact P3.
    + intros a' (A1 & A2 & A3). apply ends_ok. eapply has_upd; eauto.
  - destruct (nth_error (kinds st) k) as [[d b]|] eqn:N; [|discriminate]. destruct (is_str b _) eqn:Q; [|discriminate]. injection X as <-. apply is_str_inv in Q.
    destruct (kinds_nth _ _ _ _ N) as (a & Na & D & B). subst d b. rewrite Na. eapply ends_andthen; [exact H|eapply seval_fine; eauto|]. cbn [base]. intros v V.
    rewrite (proj1 V), eqb_refl_bty. eapply store_ends; eauto; [apply lin_ok|]. intros. now apply fine_ok.
  - destruct (nth_error (kinds st) k) as [[d b]|] eqn:N; [|discriminate]. destruct (atyp _ _ e) as [u|] eqn:Et; [|discriminate]. destruct (_ && _ && _) eqn:Q; [|discriminate]. injection X as <-.
    apply andb_prop in Q as (Q & Qo). apply andb_prop in Q as (Qd & Qb). apply eqb_prop in Qd. apply bty_eqb_eq in Qb. apply op_assign_result in Qo.
    destruct (kinds_nth _ _ _ _ N) as (a & Na & D & B). subst d b. rewrite Na. eapply ends_andthen; [exact H|eapply (prep_fine st sc e u); eauto|]. intros p (P & _).
    unfold update. cbn [fst]. destruct (psh_ok _ _ _ _ P) as (h & Eh & Dh). rewrite Eh. assert (exists r, same_shape (tsh a) h = Some r) as (r & ->) by (destruct (tsh a), h; cbn in *; eauto; congruence).
    eapply ends_andthen; [exact H|apply fine_check|]. intros _ _. eapply (store_ends _ _ _ _ a); eauto; [apply lin_ok|].
    intros st' a' x H' N' B' D' X'. eapply (fine_bind (vgood (tty a))); [rewrite <- B'; apply tread_fine; [eapply typed_nth; [apply H'|exact N']|now rewrite D']|].
    intros v V. cbn beta. eapply fine_bind; [eapply (pel_fine st' (adim u) p (ael u))|].
    + apply H'.
    + replace (kinds st') with (kinds st); [exact P|]. destruct H' as (_ & H'). unfold types_of in H'. cbn [fst snd] in H'. congruence.
    + now rewrite <- D.
    + intros w W. rewrite <- B in W, Qo. now apply (apply2_fine o (tty a)).
  - destruct (nth_error (kinds st) k) as [[d b]|] eqn:N; [|discriminate]. destruct (is_str b _ && _) eqn:Q; [|discriminate]. injection X as <-. apply andb_prop in Q as (Q & Qo). apply is_str_inv in Q. apply op_assign_result in Qo.
    destruct (kinds_nth _ _ _ _ N) as (a & Na & D & B). subst d b. rewrite Na. eapply ends_andthen; [exact H|eapply seval_fine; eauto|]. cbn [base]. intros w W.
    eapply (store_ends _ _ _ _ a); eauto; [apply lin_ok|]. intros st' a' x H' N' B' D' X'.
    eapply (fine_bind (vgood (tty a))); [rewrite <- B'; apply tread_fine; [eapply typed_nth; [apply H'|exact N']|now rewrite D']|]. intros v V. now apply (apply2_fine o (tty a)).
  - destruct (nth_error (kinds st) k) as [[d b]|] eqn:N; [|discriminate]. unfold atyp_in. destruct (atyp _ _ e) as [u|] eqn:Et; [|discriminate]. destruct (Bool.eqb _ _ && _) eqn:Q; [|discriminate]. injection X as <-.
    apply andb_prop in Q as (Qd & Qb). apply eqb_prop in Qd. apply bty_eqb_eq in Qb. destruct (kinds_nth _ _ _ _ N) as (a & Na & D & B). subst d b. rewrite Na.
    eapply (ends_andthen _ (arr_like (adim u) (ael u))); [exact H| |].
    + eapply fine_bind; [eapply prep_fine; eauto|]. cbn. intros p (P & _). eapply own_fine; eauto.
    + intros a' (A1 & A2 & A3). rewrite A3, B, eqb_refl_bty. apply ends_ok. eapply has_upd; eauto; congruence.
Qed.
Theorem run_sound l : forall E E' s, has_types E s -> Forall stm_consts l -> ptyp E l = Some E' ->
  exists r, run c s l = Some r /\ match r with MOk s' => has_types E' s' | MFail f s' => reported c f /\ typed s' | MUB => True end.
Proof.
  induction l as [|t l IH]; cbn; intros E E' s H C X.
  - injection X as <-. exists (MOk s). auto.
  - destruct (styp E t) as [E1|] eqn:S; [|discriminate]. inversion C; subst. destruct (step_sound _ _ _ _ H H2 S) as (r & -> & R). destruct r as [s1|f s1|].
    + eapply IH; eauto.
    + exists (MFail f s1). split; [reflexivity|]. split; [apply R|]. apply R.
    + exists MUB. auto.
Qed.
End SOUND.
