(** Programs on typed arrays: their meaning element by element. *)
From Coq Require Import ZArith Bool List Lia.
From Verif Require Import Base.Outcome Base.ZList Model.IntModel Model.Scalars Model.Typed.
From Verif Require Import Spec.IntSpec Spec.ScalarSpec Spec.TypedSpec Proofs.TypingProofs Proofs.TypedProofs.
Import ListNotations.
Local Open Scope Z_scope.

Lemma bindo_iff {A B} (o : option (outcome A)) (k : A -> option (outcome B)) r :
  bindo o k = Some (Ok r) <-> exists x, o = Some (Ok x) /\ k x = Some (Ok r).
Proof.
  split.
  - destruct o as [[x|f|]|]; cbn; intros H; try discriminate. eauto.
  - intros (x & -> & H). exact H.
Qed.
Lemma oget_iff {V} (l : list V) i v : oget l i = Ok v <-> znth l i = Some v.
Proof. unfold oget. destruct (znth l i); split; intros H; inversion H; auto. Qed.
Lemma upd_upd {A} (l : list A) k x y : upd (upd l k x) k y = upd l k y.
Proof. revert k. induction l as [|a l IH]; intros [|k]; cbn; auto. now rewrite IH. Qed.
Lemma upd_same {A} (l : list A) k x : nth_error l k = Some x -> upd l k x = l.
Proof. revert k. induction l as [|a l IH]; intros [|k]; cbn; intros H; try discriminate; [now injection H as ->|]. now rewrite IH. Qed.
Lemma upd_other {A} (l : list A) k j x : j <> k -> nth_error (upd l k x) j = nth_error l j.
Proof. revert k j. induction l as [|a l IH]; intros [|k] [|j] H; cbn; auto; try easy. Qed.

(** ** Sizes and positions *)
Definition hok (h : shape) : Prop := total h <= LONG_MAX /\ match h with Sh1 n => 0 <= n | Sh2 m n => 0 <= m /\ 0 <= n end.
Definition within (h : shape) (x : ix) (j : Z) : Prop :=
  0 <= j < total h /\ match x, h with At1 i, _ => i = j | At2 i k, Sh2 m n => 0 <= i < m /\ 0 <= k < n /\ j = i * n + k | _, _ => False end.
Lemma place_within h x j : hok h -> within h x j -> place h x = Some (Ok j).
Proof.
  intros (L & H) (B & X). destruct x as [i|i k], h as [n|m n]; cbn in *; try now subst. destruct X as (X & K & ->).
  assert (i * n <= (m - 1) * n) by (apply Z.mul_le_mono_nonneg_r; lia). assert (0 <= i * n) by (apply Z.mul_nonneg_nonneg; lia).
  f_equal. unfold LONG_MAX in *. rewrite lmul_ok by (unfold LONG_MIN, LONG_MAX; lia). cbn [bind]. rewrite ladd_ok by (unfold LONG_MIN, LONG_MAX; lia). reflexivity.
Qed.
Fixpoint places (h : shape) (j : Z) (l : list ix) : Prop :=
  match l with [] => j = total h | x :: l' => within h x j /\ places h (j + 1) l' end.
Lemma places_lin h k lo : 0 <= lo -> lo + Z.of_nat k = total h -> places h lo (map At1 (zseq lo k)).
Proof.
  revert lo. induction k as [|k IH]; intros lo H E; cbn; [lia|]. split; [|apply IH; lia]. split; [lia|reflexivity].
Qed.
Lemma places_row m n i k j l : 0 <= i < m -> 0 <= j -> j + Z.of_nat k = n -> places (Sh2 m n) ((i + 1) * n) l ->
  places (Sh2 m n) (i * n + j) (map (At2 i) (zseq j k) ++ l).
Proof.
  intros I. revert j. induction k as [|k IH]; intros j H E P; cbn.
  - replace (i * n + j) with ((i + 1) * n) by lia. exact P.
  - split.
    + split; [|lia]. cbn. assert (i * n <= (m - 1) * n) by (apply Z.mul_le_mono_nonneg_r; lia). assert (0 <= i * n) by (apply Z.mul_nonneg_nonneg; lia). lia.
    + replace (i * n + j + 1) with (i * n + (j + 1)) by lia. apply IH; auto; lia.
Qed.
Lemma places_grid m n : 0 <= m -> 0 <= n -> places (Sh2 m n) 0 (grid m n).
Proof.
  intros M N. unfold grid.
  assert (forall k i, 0 <= i -> i + Z.of_nat k = m -> places (Sh2 m n) (i * n) (flat_map (fun i => map (At2 i) (zseq 0 (Z.to_nat n))) (zseq i k))) as R.
  { induction k as [|k IH]; intros i I E; cbn; [now replace i with m by lia|].
    replace (i * n) with (i * n + 0) by lia. apply places_row; try lia. apply IH; lia. }
  apply (R (Z.to_nat m) 0); lia.
Qed.
Lemma places_walk p h : hok h -> places h 0 (walk p h).
Proof.
  intros (_ & H). destruct h as [n|m n]; cbn.
  - apply places_lin; cbn; lia.
  - destruct (owner p); [|now apply places_grid]. apply places_lin; cbn; [lia|]. assert (0 <= m * n) by (apply Z.mul_nonneg_nonneg; lia). lia.
Qed.
Lemma places_all h : hok h -> places h 0 (lin (total h)).
Proof.
  intros (_ & H). unfold lin. apply places_lin; [lia|]. destruct h as [n|m n]; cbn in *; [lia|].
  assert (0 <= m * n) by (apply Z.mul_nonneg_nonneg; lia). lia.
Qed.
Lemma places_length h j l : places h j l -> zlen l = total h - j.
Proof. revert j. induction l as [|x l IH]; intros j; cbn [places]; [intros ->; cbn; lia|]. intros (_ & H). apply IH in H. rewrite zlen_cons. lia. Qed.
Lemma total_nonneg h : hok h -> 0 <= total h.
Proof. intros (_ & H). destruct h as [n|m n]; cbn in *; [lia|]. apply Z.mul_nonneg_nonneg; lia. Qed.

(** ** Objects all of whose operands have the same sizes *)
Definition same (a : tarr) (h : shape) : Prop := tsh a = h /\ zlen (tel a) = total h.
Fixpoint pshape (st : list tarr) (p : pex) (h : shape) : Prop :=
  match p with
  | PVar k => exists a, nth_error st k = Some a /\ same a h
  | PTmp a => same a h
  | PUn _ p => pshape st p h
  | PBin _ p q => pshape st p h /\ pshape st q h
  | PCon s _ => s = h
  end.
Lemma psh_pshape st p h : pshape st p h -> psh st p = Some h.
Proof.
  induction p as [k|a|f p IH|f p IHp q _|s v]; cbn; auto.
  - intros (a & -> & (<- & _)). reflexivity.
  - now intros (<- & _).
  - intros (H & _). auto.
  - now intros ->.
Qed.
Lemma tread_within a h x j : hok h -> same a h -> within h x j -> tread a x = Some (oget (tel a) j).
Proof. intros O (E & _) W. unfold tread. rewrite E, (place_within _ _ _ O W). reflexivity. Qed.
Lemma pel_within st p h x j : hok h -> pshape st p h -> within h x j -> pel st p x = pel st p (At1 j).
Proof.
  intros O. induction p as [k|a|f p IH|f p IHp q IHq|s v]; cbn; intros H W.
  - destruct H as (a & -> & H). now rewrite (tread_within _ _ _ _ O H W).
  - now rewrite (tread_within _ _ _ _ O H W).
  - now rewrite IH.
  - destruct H as (H1 & H2). now rewrite IHp, IHq.
  - reflexivity.
Qed.
Lemma reads_places st p h l : hok h -> pshape st p h -> forall j, places h j l ->
  forall r, reads st p l = Some (Ok r) <-> zlen r = zlen l /\ forall i v, znth r i = Some v -> pel st p (At1 (j + i)) = Some (Ok v).
Proof.
  intros O H. induction l as [|x l IH]; intros j P r; cbn [reads].
  - split.
    + intros [= <-]. split; [reflexivity|]. intros i v. now rewrite znth_nil.
    + intros (E & _). destruct r; [reflexivity|]. rewrite zlen_cons in E. change (zlen (@nil ix)) with 0 in E. unfold zlen in E. lia.
  - destruct P as (W & P). rewrite bindo_iff. rewrite (pel_within _ _ _ _ _ O H W). split.
    + intros (v & Ev & R). apply bindo_iff in R. destruct R as (r' & Er & [= <-]). apply (IH _ P) in Er. destruct Er as (L & F).
      split; [rewrite !zlen_cons; lia|]. intros i u U. pose proof (znth_lt _ _ _ U) as I. destruct (Z.eq_dec i 0) as [->|N].
      * rewrite znth_cons_0 in U. injection U as <-. now rewrite Z.add_0_r.
      * rewrite znth_cons_pos in U by lia. apply F in U. now replace (j + i) with (j + 1 + (i - 1)) by lia.
    + intros (L & F). destruct r as [|v r]; [rewrite zlen_cons in L; change (zlen (@nil value)) with 0 in L; unfold zlen in L; lia|]. rewrite !zlen_cons in L.
      exists v. split; [specialize (F 0 v (znth_cons_0 _ _)); now rewrite Z.add_0_r in F|]. apply bindo_iff. exists r. split; [|reflexivity].
      apply (IH _ P). split; [lia|]. intros i u U. pose proof (znth_lt _ _ _ U) as I. specialize (F (i + 1) u). rewrite znth_cons_pos in F by lia.
      replace (i + 1 - 1) with i in F by lia. replace (j + 1 + i) with (j + (i + 1)) by lia. auto.
Qed.
Lemma choose_list {V} (P : Z -> V -> Prop) n : 0 <= n -> (forall i, 0 <= i < n -> exists v, P i v) ->
  exists l, zlen l = n /\ forall i v, znth l i = Some v -> P i v.
Proof.
  intros N. rewrite <- (Z2Nat.id n N). generalize (Z.to_nat n). clear n N. induction n as [|n IH]; intros H.
  - exists []. split; [reflexivity|]. intros i v. now rewrite znth_nil.
  - destruct IH as (l & L & F); [intros; apply H; lia|]. destruct (H (Z.of_nat n)) as (v & Pv); [lia|]. exists (l ++ [v]). split.
    + rewrite zlen_app, L. cbn. lia.
    + intros i u U. pose proof (znth_lt _ _ _ U) as I. rewrite zlen_app, L in I. unfold zlen in I. cbn in I. destruct (Z.eq_dec i (Z.of_nat n)) as [->|Ne].
      * rewrite znth_app_r in U by lia. rewrite L, Z.sub_diag, znth_cons_0 in U. now injection U as <-.
      * rewrite znth_app_l in U by lia. auto.
Qed.
Lemma reads_walk st p h : hok h -> pshape st p h ->
  forall r, reads st p (walk p h) = Some (Ok r) <-> zlen r = total h /\ forall i v, znth r i = Some v -> pel st p (At1 i) = Some (Ok v).
Proof.
  intros O H r. pose proof (places_walk p h O) as W. rewrite (reads_places _ _ _ _ O H _ W). apply places_length in W. rewrite W, Z.sub_0_r. reflexivity.
Qed.

Section MEANING.
Context (c : cfg).
Lemma sized_nth s k a : sized s -> nth_error (fst s) k = Some a -> arr_sized a.
Proof. intros H E. unfold sized in H. rewrite Forall_forall in H. apply H. eapply nth_error_In; eauto. Qed.
Lemma shaped_hok s e h : sized s -> shaped c s e h -> hok h.
Proof.
  intros Z. induction e; cbn; try tauto.
  intros (a & E & <-). destruct (sized_nth _ _ _ Z E) as (A & B & C). split; auto.
Qed.
Lemma elem_fun s e i v w : elem c s e i v -> elem c s e i w -> v = w.
Proof.
  revert v w. induction e; cbn; unfold scalar; intros v w.
  - intros (a & E & A) (a' & E' & A'). congruence.
  - intros (u & U & A) (u' & U' & A'). rewrite (IHe _ _ U U') in *. congruence.
  - intros (u & U & A) (u' & U' & A'). rewrite (IHe _ _ U U') in *. congruence.
  - intros (u & U & A) (u' & U' & A'). rewrite (IHe _ _ U U') in *. congruence.
  - intros (u & x & U & X & A) (u' & x' & U' & X' & A'). rewrite (IHe1 _ _ U U'), (IHe2 _ _ X X') in *. congruence.
  - intros (u & x & U & X & A) (u' & x' & U' & X' & A'). rewrite (IHe _ _ X X') in *. congruence.
  - intros (u & x & U & X & A) (u' & x' & U' & X' & A'). rewrite (IHe _ _ U U') in *. congruence.
  - intros (u & U & A) (u' & U' & A'). rewrite (IHe _ _ U U') in *. congruence.
  - apply IHe.
Qed.
Lemma shaped_fun s e h h' : shaped c s e h -> shaped c s e h' -> h = h'.
Proof.
  induction e; cbn; try tauto.
  intros (a & E & <-) (a' & E' & <-). congruence.
Qed.
Lemma same_shape_refl h : same_shape h h = Some true.
Proof. destruct h; cbn; now rewrite !Z.eqb_refl. Qed.
Lemma same_shape_true h h' : same_shape h h' = Some true -> h = h'.
Proof. destruct h, h'; cbn; try discriminate; intros [= H]; f_equal; lia. Qed.
Lemma same_shape_false h h' : same_shape h h' = Some false -> h <> h'.
Proof. intros H <-. now rewrite same_shape_refl in H. Qed.
Lemma binary_ok f st p q h : pshape st p h -> pshape st q h -> binary c f st p q = Some (Ok (PBin f p q)).
Proof. intros P Q. unfold binary. rewrite (psh_pshape _ _ _ P), (psh_pshape _ _ _ Q), same_shape_refl, check_debug_true. reflexivity. Qed.

(** The object of a meaningful expression has its elements. *)
Definition meant (s : state) (e : ax) (h : shape) (p : pex) : Prop :=
  pshape (fst s) p h /\ forall i v, 0 <= i < total h -> (pel (fst s) p (At1 i) = Some (Ok v) <-> elem c s e i v).
Lemma own_meant s e h p b : hok h -> meant s e h p -> (match p with PTmp a => tty a = b | _ => total h <= amax c end) ->
  forall a, own c (fst s) b p = Some (Ok a) <-> tty a = b /\ same a h /\ forall i v, znth (tel a) i = Some v -> elem c s e i v.
Proof.
  intros O (P & F) M a. pose proof (total_nonneg _ O) as N.
  assert (match p with PTmp _ => False | _ => True end -> total h <= amax c ->
    (build c (fst s) b p = Some (Ok a) <-> tty a = b /\ same a h /\ forall i v, znth (tel a) i = Some v -> elem c s e i v)) as R.
  { intros _ Q. unfold build. rewrite (psh_pshape _ _ _ P). replace (amax c <? total h) with false by lia. rewrite bindo_iff. split.
    - intros (r & Er & [= <-]). apply (reads_walk _ _ _ O P) in Er. destruct Er as (L & G). cbn. repeat split; auto.
      intros i v V. apply F; auto. apply znth_lt in V. lia.
    - intros (B & (S1 & S2) & G). exists (tel a). split; [|destruct a; cbn in *; now subst]. apply (reads_walk _ _ _ O P). split; [exact S2|].
      intros i v V. apply F; auto. apply znth_lt in V. lia. }
  destruct p as [k|t|f p|f p q|h' v]; cbn [own]; try (apply R; auto; fail). clear R. cbn [pel] in F. cbn in P. split.
  - intros [= <-]. repeat split; try apply P; auto. intros i v V. pose proof (znth_lt _ _ _ V) as I. destruct P as (P1 & P2). rewrite P2 in I. apply F; auto.
    unfold tread. cbn. f_equal. now apply oget_ok.
  - intros (B & (S1 & S2) & G). do 2 f_equal. destruct P as (P1 & P2). destruct t as [tt th tl], a as [at_ ah al]; cbn in *. subst. f_equal.
    apply list_ext_zlen; [lia|]. intros i I. destruct (znth_some al i) as (v & V); [lia|]. rewrite V. pose proof (G _ _ V) as Gv. apply F in Gv; [|lia].
    unfold tread in Gv. cbn in Gv. injection Gv as Gv. now apply oget_iff.
Qed.

Section STATE.
Context (s : state) (T : typed s) (SZ : sized s).
Notation st := (fst s). Notation sc := (snd s).
Lemma prep_pok e u p : ax_consts e -> atyp_in st sc e = Some u -> prep c st sc e = Some (Ok p) -> pok c (kinds st) (adim u) p (ael u) /\ istmp p = atmp u.
Proof using T. intros C A E. destruct (prep_fine c _ _ e u (proj1 T) (proj2 T) C A) as (r & E' & H). rewrite E in E'. injection E' as <-. exact H. Qed.
Lemma tmp_type e u a : ax_consts e -> atyp_in st sc e = Some u -> prep c st sc e = Some (Ok (PTmp a)) -> tty a = ael u.
Proof using T. intros C A E. destruct (prep_pok _ _ _ C A E) as (H & _). cbn in H. tauto. Qed.
Lemma own_cond e u p h : ax_consts e -> atyp_in st sc e = Some u -> prep c st sc e = Some (Ok p) -> total h <= amax c ->
  match p with PTmp a => tty a = ael u | _ => total h <= amax c end.
Proof using T. intros C A E M. destruct p; auto. eapply tmp_type; eauto. Qed.

Lemma sub1 e u (k : aty -> option aty) : match atyp_in st sc e with Some t => k t | None => None end = Some u -> exists t, atyp_in st sc e = Some t.
Proof. destruct (atyp_in st sc e); [eauto|discriminate]. Qed.
Lemma typed_parts e u : atyp_in st sc e = Some u ->
  match e with
  | AVar k => True
  | AUn _ e | AAbs e | AInv e | ACast _ e | ATemp e | ALeft _ _ e | ARight _ e _ => exists t, atyp_in st sc e = Some t
  | ABin _ e1 e2 => (exists t, atyp_in st sc e1 = Some t) /\ (exists t, atyp_in st sc e2 = Some t)
  end.
Proof.
  unfold atyp_in. destruct e as [k|o e|e|e|o e1 e2|o x e|o e x|b e|e]; cbn; auto.
  - destruct (atyp _ _ e); [eauto|discriminate].
  - destruct (atyp _ _ e); [eauto|discriminate].
  - destruct (atyp _ _ e); [eauto|discriminate].
  - destruct (atyp _ _ e1) as [[? ? []]|]; try discriminate; destruct (atyp _ _ e2); [eauto|discriminate].
  - destruct (typ _ x) as [[]|]; try discriminate; destruct (atyp _ _ e); [eauto|discriminate].
  - destruct (typ _ x) as [[]|]; try discriminate; destruct (atyp _ _ e); [eauto|discriminate].
  - destruct (atyp _ _ e); [eauto|discriminate].
  - destruct (atyp _ _ e); [eauto|discriminate].
Qed.
Lemma meant_un f g e e' h p : meant s e h p -> (forall i v, elem c s e' i v <-> exists u, elem c s e i u /\ g u v) -> (forall u v, f u = Some (Ok v) <-> g u v) -> meant s e' h (PUn f p).
Proof.
  intros (P & F) D G. split; [exact P|]. intros i v I. cbn. rewrite bindo_iff, D. split; intros (u & U & A); exists u; (split; [now apply F|now apply G]).
Qed.
Lemma meant_bin o e1 e2 e h p q : meant s e1 h p -> meant s e2 h q ->
  (forall i v, elem c s e i v <-> exists u w, elem c s e1 i u /\ elem c s e2 i w /\ apply2 c o u w = Some (Ok v)) -> meant s e h (PBin (apply2 c o) p q).
Proof.
  intros (P & F) (Q & G) D. split; [split; auto|]. intros i v I. cbn. rewrite bindo_iff, D. split.
  - intros (u & U & A). apply bindo_iff in A. destruct A as (w & W & A). exists u, w. repeat split; auto; [now apply F|now apply G].
  - intros (u & w & U & W & A). exists u. split; [now apply F|]. apply bindo_iff. exists w. split; [now apply G|exact A].
Qed.
Lemma prep_meant e : forall u h, ax_consts e -> atyp_in st sc e = Some u -> shaped c s e h -> fits_memory c e h -> exists p, prep c st sc e = Some (Ok p) /\ meant s e h p.
Proof using T SZ.
  induction e as [k|o e IH|e IH|e IH|o e1 IH1 e2 IH2|o x e IH|o e IH x|b e IH|e IH]; intros u h C A; pose proof (typed_parts _ _ A) as TP;
    cbn [ax_consts shaped fits_memory prep] in *; intros H M.
  - destruct H as (a & E & <-). rewrite E. exists (PVar k). split; [reflexivity|]. destruct (sized_nth _ _ _ SZ E) as (L & _). split.
    + exists a. repeat split; auto.
    + intros i v I. cbn. rewrite E. unfold tread. cbn. split.
      * intros [= G]. exists a. split; [reflexivity|]. now apply oget_iff.
      * intros (a' & [= <-] & G). f_equal. now apply oget_iff.
  - destruct TP as (t & TP). destruct (IH _ _ C TP H M) as (p & -> & P). cbn. eexists. split; [reflexivity|].
    eapply (meant_un _ (fun u v => apply1 o u = Some (Ok v))); [exact P|reflexivity|reflexivity].
  - destruct TP as (t & TP). destruct (IH _ _ C TP H M) as (p & -> & P). cbn. eexists. split; [reflexivity|].
    eapply (meant_un _ (fun u v => vabs c u = Some (Ok v))); [exact P|reflexivity|reflexivity].
  - destruct TP as (t & TP). destruct (IH _ _ C TP H M) as (p & -> & P). cbn. eexists. split; [reflexivity|].
    eapply (meant_un _ (fun u v => vinv c u = Some (Ok v))); [exact P|reflexivity|reflexivity].
  - destruct TP as ((t1 & T1) & (t2 & T2)), C as (C1 & C2), H as (H1 & H2), M as (M1 & M2).
    destruct (IH1 _ _ C1 T1 H1 M1) as (p & -> & P). destruct (IH2 _ _ C2 T2 H2 M2) as (q & -> & Q). cbn [bindo].
    rewrite (binary_ok _ _ _ _ h (proj1 P) (proj1 Q)). eexists. split; [reflexivity|]. eapply meant_bin; [exact P|exact Q|reflexivity].
  - destruct TP as (t & TP), C as (C1 & C2), H as ((v & V) & H). destruct (IH _ _ C2 TP H M) as (p & -> & P). unfold seval. unfold scalar in V. rewrite V. cbn [bindo].
    rewrite (psh_pshape _ _ _ (proj1 P)). rewrite (binary_ok _ _ _ _ h); [|reflexivity|exact (proj1 P)]. eexists. split; [reflexivity|]. destruct P as (P & F). split; [split; [reflexivity|exact P]|].
    intros i w I. cbn [pel bindo elem]. rewrite bindo_iff. unfold scalar. split.
    + intros (r & R & Q). exists v, r. repeat split; auto. now apply F.
    + intros (v' & r & V' & R & Q). rewrite V in V'. injection V' as <-. exists r. split; [now apply F|exact Q].
  - destruct TP as (t & TP), C as (C1 & C2), H as ((v & V) & H). destruct (IH _ _ C2 TP H M) as (p & -> & P). unfold seval. unfold scalar in V. cbn [bindo]. rewrite V. cbn [bindo].
    rewrite (psh_pshape _ _ _ (proj1 P)). rewrite (binary_ok _ _ _ _ h); [|exact (proj1 P)|reflexivity]. eexists. split; [reflexivity|]. destruct P as (P & F). split; [split; [exact P|reflexivity]|].
    intros i w I. cbn [pel bindo elem]. rewrite bindo_iff. unfold scalar. split.
    + intros (r & R & Q). exists r, v. repeat split; auto. now apply F.
    + intros (r & v' & R & V' & Q). rewrite V in V'. injection V' as <-. exists r. split; [now apply F|exact Q].
  - destruct TP as (t & TP). destruct (IH _ _ C TP H M) as (p & -> & P). cbn. eexists. split; [reflexivity|].
    eapply (meant_un _ (fun u v => cast b u = Ok v)); [exact P|reflexivity|]. intros x v. split; [now intros [= ->]|now intros ->].
  - destruct TP as (t & TP), H as (H & X), M as (M1 & M2). destruct (IH _ _ C TP H M2) as (p & E & P). rewrite TP, E. cbn [bindo].
    pose proof (shaped_hok _ _ _ SZ H) as O. destruct (choose_list _ _ (total_nonneg _ O) X) as (l & L & G).
    pose proof (own_cond _ _ _ h C TP E M1) as OC. pose proof (proj2 (own_meant s e h p (ael t) O P OC (mktarr (ael t) h l))) as R. rewrite R by (repeat split; auto). cbn [bindo].
    eexists. split; [reflexivity|]. split; [split; auto|]. intros i v I. cbn [pel elem]. unfold tread. cbn. split.
    + intros [= Q]. apply oget_iff in Q. auto.
    + intros Q. f_equal. apply oget_iff. destruct (znth_some l i) as (w & W); [lia|]. rewrite W. f_equal. eapply elem_fun; eauto.
Qed.
Lemma prep_inv e : checked c = true -> forall u p, ax_consts e -> atyp_in st sc e = Some u -> prep c st sc e = Some (Ok p) -> exists h, shaped c s e h /\ fits_memory c e h.
Proof using T SZ.
  intros K. induction e as [k|o e IH|e IH|e IH|o e1 IH1 e2 IH2|o x e IH|o e IH x|b e IH|e IH]; intros u p C A; pose proof (typed_parts _ _ A) as TP;
    cbn [ax_consts shaped fits_memory prep] in *; intros H.
  - destruct (nth_error st k) as [a|] eqn:E; [|discriminate]. exists (tsh a). split; [eauto|exact I].
  - destruct TP as (t & TP). apply bindo_iff in H. destruct H as (q & Q & _). eauto.
  - destruct TP as (t & TP). apply bindo_iff in H. destruct H as (q & Q & _). eauto.
  - destruct TP as (t & TP). apply bindo_iff in H. destruct H as (q & Q & _). eauto.
  - destruct TP as ((t1 & T1) & (t2 & T2)), C as (C1 & C2). apply bindo_iff in H. destruct H as (q & Q & H). apply bindo_iff in H. destruct H as (r & R & H).
    destruct (IH1 _ _ C1 T1 Q) as (h1 & S1 & M1). destruct (IH2 _ _ C2 T2 R) as (h2 & S2 & M2).
    destruct (prep_meant _ _ _ C1 T1 S1 M1) as (p1 & E1 & P1 & _). destruct (prep_meant _ _ _ C2 T2 S2 M2) as (p2 & E2 & P2 & _).
    rewrite Q in E1. rewrite R in E2. injection E1 as <-. injection E2 as <-. unfold binary in H. rewrite (psh_pshape _ _ _ P1), (psh_pshape _ _ _ P2) in H.
    destruct (same_shape h1 h2) as [[|]|] eqn:B; [|rewrite (check_debug_false _ K) in H; discriminate|discriminate]. apply same_shape_true in B. subst h2. eauto.
  - destruct TP as (t & TP), C as (C1 & C2). apply bindo_iff in H. destruct H as (v & V & H). apply bindo_iff in H. destruct H as (q & Q & H).
    destruct (IH _ _ C2 TP Q) as (h & S1 & M1). exists h. repeat split; auto. exists v. exact V.
  - destruct TP as (t & TP), C as (C1 & C2). apply bindo_iff in H. destruct H as (q & Q & H). apply bindo_iff in H. destruct H as (v & V & H).
    destruct (IH _ _ C2 TP Q) as (h & S1 & M1). exists h. repeat split; auto. exists v. exact V.
  - destruct TP as (t & TP). apply bindo_iff in H. destruct H as (q & Q & _). eauto.
  - destruct TP as (t & TP). rewrite TP in H. apply bindo_iff in H. destruct H as (q & Q & H). apply bindo_iff in H. destruct H as (a & Ha & [= <-]).
    destruct (IH _ _ C TP Q) as (h & S1 & M1). destruct (prep_meant _ _ _ C TP S1 M1) as (q' & E & P). rewrite Q in E. injection E as <-.
    pose proof (shaped_hok _ _ _ SZ S1) as O.
    assert (total h <= amax c) as MM.
    { pose proof (psh_pshape _ _ _ (proj1 P)) as PS.
      destruct q as [k|b|f q|f q q'|h' v]; cbn [own] in Ha; try (unfold build in Ha; rewrite PS in Ha; destruct (amax c <? total h) eqn:L; [discriminate|lia]).
      destruct (prep_pok _ _ _ C TP Q) as (_ & Q'). destruct e; cbn [prep] in Q; repeat (apply bindo_iff in Q as (? & ? & Q)); try discriminate; cbn in M1; try tauto.
      - now destruct (nth_error st k).
      - unfold binary in Q. destruct (psh st x), (psh st x0); try discriminate. destruct (same_shape _ _); [|discriminate]. apply bindo_iff in Q as (? & ? & Q). discriminate.
      - destruct (psh st x0); [|discriminate]. unfold binary in Q. destruct (psh st (PCon _ _)), (psh st x0); try discriminate. destruct (same_shape _ _); [|discriminate]. apply bindo_iff in Q as (? & ? & Q). discriminate.
      - destruct (psh st x) as [h0|] eqn:Ep; [|discriminate]. unfold binary in Q. rewrite Ep in Q. cbn [psh] in Q. destruct (same_shape _ _); [|discriminate]. apply bindo_iff in Q as (? & ? & Q). discriminate. }
    pose proof (own_cond _ _ _ h C TP Q MM) as OC. apply (own_meant s e h q (ael t) O P OC) in Ha. destruct Ha as (_ & (A1 & A2) & A3).
    exists h. repeat split; auto. intros i I. destruct (znth_some (tel a) i) as (v & V); [lia|]. eauto.
Qed.
End STATE.

(** ** Loops that store *)
Lemma store_places st sc k ty h l0 g G : hok h -> (exists a, nth_error st k = Some a) ->
  (forall l' j x, zlen l' = total h -> within h x j -> znth l' j = znth l0 j -> g (upd st k (mktarr ty h l')) (mktarr ty h l') x = G j) ->
  forall xs j pre suf, places h j xs -> zlen pre = j -> zlen (pre ++ suf) = total h -> (forall i, j <= i -> znth (pre ++ suf) i = znth l0 i) ->
  forall s', store (upd st k (mktarr ty h (pre ++ suf)), sc) k g xs = Some (MOk s') <->
    exists vs, zlen vs = zlen xs /\ (forall i v, znth vs i = Some v -> G (j + i) = Some (Ok v)) /\ s' = (upd st k (mktarr ty h (pre ++ vs)), sc).
Proof.
  intros O (a & Ea) GL. induction xs as [|x xs IH]; intros j pre suf P L1 L2 Z s'; cbn [store].
  - cbn [places] in P. rewrite zlen_app in L2. assert (suf = []) as -> by (apply zlen_zero; lia). split.
    + intros [= <-]. exists []. repeat split. intros i v. now rewrite znth_nil.
    + intros (vs & E & _ & ->). rewrite zlen_nil in E. apply zlen_zero in E. now subst.
  - destruct P as (W & P). cbn [fst snd]. rewrite (upd_nth_same _ _ _ _ Ea). rewrite (GL _ j x L2 W (Z j ltac:(lia))).
    pose proof W as (B & _). rewrite zlen_app in L2. destruct suf as [|w suf]; [rewrite zlen_nil in L2; lia|]. rewrite zlen_cons in L2.
    assert (forall v, twrite (mktarr ty h (pre ++ w :: suf)) x v = Some (Ok (mktarr ty h ((pre ++ [v]) ++ suf)))) as TW.
    { intros v. unfold twrite. cbn [tsh tel tty]. rewrite (place_within _ _ _ O W). cbn [bindo]. rewrite oset_ok by (rewrite zlen_app, zlen_cons; lia). cbn [bind].
      rewrite zupd_app_r by lia. rewrite L1, Z.sub_diag. rewrite <- app_assoc. reflexivity. }
    destruct (G j) as [[v|f|]|] eqn:EG; cbn [bindo andthen].
    2-4: (split; [discriminate|]; intros (vs & LV & F & _); destruct vs as [|v0 vs]; [rewrite zlen_cons, zlen_nil in LV; pose proof (zlen_nonneg xs); lia|];
      specialize (F 0 v0 (znth_cons_0 _ _)); rewrite Z.add_0_r in F; congruence).
    rewrite TW. cbn [andthen]. rewrite upd_upd. rewrite (IH (j + 1)); [|exact P|rewrite zlen_app, zlen_cons, zlen_nil; lia|rewrite !zlen_app, zlen_cons, zlen_nil; lia|].
    + split.
      * intros (vs & LV & F & ->). exists (v :: vs). split; [rewrite !zlen_cons; lia|]. split; [|now rewrite <- app_assoc].
        intros i u U. pose proof (znth_lt _ _ _ U) as I. destruct (Z.eq_dec i 0) as [->|N].
        -- rewrite znth_cons_0 in U. injection U as <-. now rewrite Z.add_0_r.
        -- rewrite znth_cons_pos in U by lia. apply F in U. now replace (j + i) with (j + 1 + (i - 1)) by lia.
      * intros (vs & LV & F & ->). destruct vs as [|v0 vs]; [rewrite zlen_cons, zlen_nil in LV; pose proof (zlen_nonneg xs); lia|]. rewrite !zlen_cons in LV.
        pose proof (F 0 v0 (znth_cons_0 _ _)) as F0. rewrite Z.add_0_r, EG in F0. injection F0 as <-. exists vs. split; [lia|]. split; [|now rewrite <- app_assoc].
        intros i u U. pose proof (znth_lt _ _ _ U) as I. specialize (F (i + 1) u). rewrite znth_cons_pos in F by lia.
        replace (i + 1 - 1) with i in F by lia. replace (j + 1 + i) with (j + (i + 1)) by lia. auto.
    + intros i I. rewrite <- (Z i) by lia. rewrite <- app_assoc. rewrite (znth_app_r pre (w :: suf)), (znth_app_r pre ([v] ++ suf)) by lia. cbn [app]. rewrite !znth_cons_pos by lia. reflexivity.
Qed.
Lemma store_all st sc k a g G xs : hok (tsh a) -> zlen (tel a) = total (tsh a) -> nth_error st k = Some a -> places (tsh a) 0 xs ->
  (forall a' j x, tty a' = tty a -> same a' (tsh a) -> within (tsh a) x j -> znth (tel a') j = znth (tel a) j -> g (upd st k a') a' x = G j) ->
  forall s', store (st, sc) k g xs = Some (MOk s') <->
    exists vs, zlen vs = total (tsh a) /\ (forall i v, znth vs i = Some v -> G i = Some (Ok v)) /\ s' = with_array (st, sc) k (mktarr (tty a) (tsh a) vs).
Proof.
  intros O L E P GL s'. pose proof (store_places st sc k (tty a) (tsh a) (tel a) g G O (ex_intro _ a E)) as R.
  rewrite <- (upd_same st k a E) at 1. pose proof (places_length _ _ _ P) as PL. rewrite Z.sub_0_r in PL. rewrite <- PL.
  replace a with (mktarr (tty a) (tsh a) ([] ++ tel a)) at 1 by (destruct a; reflexivity).
  refine (R _ xs 0 [] (tel a) P eq_refl L (fun i _ => eq_refl) s'). intros l' j x L' W Z. apply GL; auto. split; auto.
Qed.
Lemma pel_local st k a a' p h x j : hok h -> pshape st p h -> nth_error st k = Some a -> same a h -> same a' h -> znth (tel a') j = znth (tel a) j -> within h x j ->
  pel (upd st k a') p x = pel st p (At1 j).
Proof.
  intros O P E A A' Z W. induction p as [i|t|f p IH|f p IHp q IHq|s v]; cbn in *.
  - destruct P as (b & B & S). rewrite B. destruct (Nat.eq_dec i k) as [->|N].
    + rewrite (upd_nth_same _ _ _ _ E), (tread_within _ _ _ _ O A' W). assert (b = a) as -> by congruence. unfold tread. cbn. unfold oget. now rewrite Z.
    + rewrite upd_other, B by auto. now rewrite (tread_within _ _ _ _ O S W).
  - now rewrite (tread_within _ _ _ _ O P W).
  - now rewrite IH.
  - destruct P as (P & Q). now rewrite IHp, IHq.
  - reflexivity.
Qed.

(** ** Reductions *)
Lemma sums_reads st p xs : forall v r, sums c st p v xs = Some (Ok r) <-> exists ws, reads st p xs = Some (Ok ws) /\ adds c v ws r.
Proof.
  induction xs as [|x xs IH]; intros v r; cbn [sums reads].
  - split; [intros [= <-]; exists []; split; reflexivity|]. intros (ws & [= <-] & ->). reflexivity.
  - rewrite bindo_iff. split.
    + intros (w & W & R). apply bindo_iff in R as (u & U & R). apply IH in R as (ws & R & A). exists (w :: ws). rewrite W, R. split; [reflexivity|]. exists u. auto.
    + intros (ws & R & A). apply bindo_iff in R as (w & W & R). apply bindo_iff in R as (ws' & R & [= <-]). destruct A as (u & U & A).
      exists w. split; [exact W|]. apply bindo_iff. exists u. split; [exact U|]. apply IH. eauto.
Qed.
Lemma sum_reads st b p h r : psh st p = Some h -> (sum c st b p = Some (Ok r) <-> exists ws, reads st p (lin (total h)) = Some (Ok ws) /\ sums_to c b ws r).
Proof.
  intros E. unfold sum. rewrite E. destruct (lin (total h)) as [|x xs]; cbn [reads].
  - split; [intros [= H]; exists []; auto|]. intros (ws & [= <-] & H). now rewrite H.
  - rewrite bindo_iff. split.
    + intros (v & V & R). apply sums_reads in R as (ws & R & A). exists (v :: ws). rewrite V, R. auto.
    + intros (ws & R & A). apply bindo_iff in R as (v & V & R). apply bindo_iff in R as (ws' & R & [= <-]). exists v. split; [exact V|]. apply sums_reads. eauto.
Qed.
Lemma ne_eq v w u : apply2 c ONe v w = Some (Ok u) <-> exists b, apply2 c OEq v w = Some (Ok (VB b)) /\ u = VB (negb b).
Proof.
  destruct v as [x|t x|f x], w as [y|t' y|g y]; cbn; try (split; [discriminate|intros (b & B & _); discriminate]).
  - assert (xorb x y = negb (eqb x y)) as -> by (destruct x, y; reflexivity). split; [intros [= <-]; eauto|]. intros (b & [= <-] & ->). reflexivity.
  - destruct (ity_eqb t t'); [|split; [discriminate|intros (b & B & _); discriminate]]. split; [intros [= <-]; eauto|]. intros (b & [= <-] & ->). reflexivity.
  - destruct (fmt_eq g f) as [Q|]; [|split; [discriminate|intros (b & B & _); discriminate]]. split; [intros [= <-]; eauto|]. intros (b & [= <-] & ->). reflexivity.
Qed.
Definition eqat st p q (i : Z) (b : bool) : Prop := exists v w, pel st p (At1 i) = Some (Ok v) /\ pel st q (At1 i) = Some (Ok w) /\ apply2 c OEq v w = Some (Ok (VB b)).
Lemma differ_lin st p q n : forall j r, differ c st p q (map At1 (zseq j n)) = Some (Ok r) <->
  (r = VB true /\ forall i, j <= i < j + Z.of_nat n -> eqat st p q i true) \/
  (r = VB false /\ exists i, j <= i < j + Z.of_nat n /\ (forall k, j <= k < i -> eqat st p q k true) /\ eqat st p q i false).
Proof.
  induction n as [|n IH]; intros j r; cbn [zseq map differ].
  - split; [intros [= <-]; left; split; [reflexivity|lia]|]. intros [(-> & _)|(_ & i & I & _)]; [reflexivity|lia].
  - rewrite bindo_iff. split.
    + intros (v & V & R). apply bindo_iff in R as (w & W & R). apply bindo_iff in R as (u & U & R). apply ne_eq in U as (b & B & ->). destruct b; cbn [negb] in R.
      * assert (eqat st p q j true) as Q by (exists v, w; auto). apply IH in R as [(-> & F)|(-> & i & I & F & N)].
        -- left. split; [reflexivity|]. intros i I. destruct (Z.eq_dec i j) as [->|]; [exact Q|apply F; lia].
        -- right. split; [reflexivity|]. exists i. repeat split; try lia; auto. intros k K. destruct (Z.eq_dec k j) as [->|]; [exact Q|apply F; lia].
      * injection R as <-. right. split; [reflexivity|]. exists j. repeat split; try lia. exists v, w. auto.
    + assert (forall b, eqat st p q j b -> (if b then differ c st p q (map At1 (zseq (j + 1) n)) = Some (Ok r) else VB false = r) ->
        exists x, pel st p (At1 j) = Some (Ok x) /\ bindo (pel st q (At1 j)) (fun w => bindo (apply2 c ONe x w) (fun u =>
          match u with VB true => Some (Ok (VB false)) | _ => differ c st p q (map At1 (zseq (j + 1) n)) end)) = Some (Ok r)) as R.
      { intros b (v & w & V & W & B) D. exists v. split; [exact V|]. apply bindo_iff. exists w. split; [exact W|]. apply bindo_iff. exists (VB (negb b)). split; [apply ne_eq; eauto|].
        destruct b; cbn [negb]; [exact D|now subst]. }
      intros [(-> & F)|(-> & i & I & F & N)].
      * apply (R true); [apply F; lia|]. apply IH. left. split; [reflexivity|]. intros i I. apply F. lia.
      * destruct (Z.eq_dec i j) as [->|Ne]; [now apply (R false)|]. apply (R true); [apply F; lia|]. apply IH. right. split; [reflexivity|]. exists i. repeat split; try lia; auto.
        intros k K. apply F. lia.
Qed.

(** ** Indices *)
Lemma index_of (s : state) n x i : index_is c s x n i -> index c (snd s) n x = Some (Ok i).
Proof.
  intros (B & V). unfold index, seval. unfold scalar in V. destruct V as [V|V]; rewrite V; cbn [bindo]; replace ((-1 <? i) && (i <? n)) with true by lia; now rewrite check_debug_true.
Qed.
Lemma index_inv (s : state) n x i : checked c = true -> index c (snd s) n x = Some (Ok i) -> index_is c s x n i.
Proof.
  intros K H. unfold index, seval in H. apply bindo_iff in H as (v & V & H).
  assert (forall z, bindo (Some (check_debug c (Ok ((-1 <? z) && (z <? n))))) (fun _ => Some (Ok z)) = Some (Ok i) -> z = i /\ 0 <= i < n) as R.
  { intros z Hz. destruct ((-1 <? z) && (z <? n)) eqn:Q; [rewrite check_debug_true in Hz|rewrite (check_debug_false _ K) in Hz; discriminate]. injection Hz as <-. lia. }
  destruct v as [b|t z|f z]; try discriminate. destruct t; try discriminate; apply R in H as (-> & H); (split; [exact H|]); unfold scalar; [left|right]; exact V.
Qed.
Lemma indices_of (s : state) h is p : hok h -> position c s h is p -> exists x, indices c (snd s) h is = Some (Ok x) /\ within h x p.
Proof.
  intros O H. destruct h as [n|m n]; cbn in H.
  - destruct is as [|x [|]]; try easy. cbn. rewrite (index_of _ _ _ _ H). cbn. exists (At1 p). split; [reflexivity|]. split; [exact (proj1 H)|reflexivity].
  - destruct is as [|x [|y [|]]]; try easy. destruct H as (i & j & I & J & ->). cbn. rewrite (index_of _ _ _ _ I), (index_of _ _ _ _ J). cbn.
    exists (At2 i j). split; [reflexivity|]. destruct I as (I & _), J as (J & _). split; [|auto]. cbn.
    assert (i * n <= (m - 1) * n) by (apply Z.mul_le_mono_nonneg_r; lia). assert (0 <= i * n) by (apply Z.mul_nonneg_nonneg; lia). lia.
Qed.
Lemma indices_inv (s : state) h is x : checked c = true -> indices c (snd s) h is = Some (Ok x) -> exists p, position c s h is p.
Proof.
  intros K H. destruct h as [n|m n]; cbn in H.
  - destruct is as [|y [|]]; try easy. apply bindo_iff in H as (i & I & _). apply (index_inv _ _ _ _ K) in I. exists i. exact I.
  - destruct is as [|y [|z [|]]]; try easy. apply bindo_iff in H as (i & I & H). apply bindo_iff in H as (j & J & _).
    apply (index_inv _ _ _ _ K) in I. apply (index_inv _ _ _ _ K) in J. exists (i * n + j), i, j. auto.
Qed.
End MEANING.
