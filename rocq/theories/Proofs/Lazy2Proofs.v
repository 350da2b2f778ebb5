(** Proofs about kept matrix expressions and matrix assignments that read their target. *)
From Verif Require Import Base.Outcome Base.ZList Model.Index Model.Slice Model.Array1D Model.Array2D Model.Expr Model.Store1D Model.Store2D Model.Lazy2.
From Verif Require Import Spec.ArraySpec Spec.SliceSpec Spec.MatrixSpec Spec.Matrix2Spec Spec.Store1DSpec Spec.Store2DSpec Spec.ExprSpec Spec.Lazy2Spec.
From Verif Require Proofs.HeapProofs.

From Verif Require Import Proofs.MatrixProofs Proofs.Array2DProofs Proofs.Array2DSim Proofs.Array2DSim3 Proofs.ExprProofs.

Lemma f2_nth {A B} (R : A -> B -> Prop) l w : Forall2 R l w -> forall k, match znth l k, znth w k with Some a, Some b => R a b | None, None => True | _, _ => False end.
Proof.
  induction 1 as [|a b l w H F IH]; intros k; [now rewrite !znth_nil|]. destruct (Z.eq_dec k 0) as [->|]; [now rewrite !znth_cons_0|]. destruct (Z_lt_dec k 0).
  - unfold znth. now replace (k <? 0) with true by lia.
  - rewrite !znth_cons_pos by lia. apply IH.
Qed.
Lemma Forall2_forall_znth {A B} (R : A -> B -> Prop) l : forall w, zlen l = zlen w -> (forall j a b, znth l j = Some a -> znth w j = Some b -> R a b) -> Forall2 R l w.
Proof.
  induction l as [|a l IH]; intros w E H; destruct w as [|b w]; try (unfold zlen in E; cbn in E; lia); constructor.
  - apply (H 0); apply znth_cons_0.
  - rewrite !zlen_cons in E. apply IH; [lia|]. intros j x y Ex Ey. pose proof (znth_lt _ _ _ Ex). apply (H (j + 1)); rewrite znth_cons_pos by lia; now replace (j + 1 - 1) with j by lia.
Qed.
Lemma f2_len {A B} (R : A -> B -> Prop) l w : Forall2 R l w -> zlen l = zlen w.
Proof. induction 1; [reflexivity|]. rewrite !zlen_cons. lia. Qed.
(** Loops with an invariant. *)
Lemma mfor_inv {S} (P : Z -> S -> Prop) (F : failure -> S -> Prop) (U : Prop) (body : Z -> S -> mut S) lo hi s : lo <= hi ->
  (forall i s, lo <= i < hi -> P i s -> match body i s with MOk s' => P (i + 1) s' | MFail f s' => F f s' | MUB => U end) -> P lo s ->
  match mfor lo hi body s with MOk s' => P hi s' | MFail f s' => F f s' | MUB => U end.
Proof.
  unfold mfor. remember (Z.to_nat (hi - lo)) as n eqn:E. revert lo s E. induction n as [|n IH]; intros lo s E HL HB HP; cbn [mfor_loop].
  - now replace hi with lo by lia.
  - specialize (HB lo s ltac:(lia) HP) as H1. destruct (body lo s) as [s'|f s'|]; cbn [mseq mbind]; auto.
    apply IH; auto; try lia. intros. apply HB; auto. lia.
Qed.
Lemma mfor_loop_app {S} (body : Z -> S -> mut S) a : forall b i s,
  mfor_loop (a + b) i body s = mseq (mfor_loop a i body s) (mfor_loop b (i + Z.of_nat a) body).
Proof.
  induction a as [|a IH]; intros b i s.
  - cbn [plus mfor_loop mseq mbind]. f_equal. lia.
  - cbn [plus mfor_loop]. destruct (body i s) as [s'|f s'|]; cbn [mseq mbind]; [|reflexivity|reflexivity].
    fold (mfor_loop (S := S)). rewrite IH. unfold mseq. f_equal. f_equal. lia.
Qed.
(** Two loops that agree on the states that occur. *)
Lemma mfor_loop_same {S} (P : S -> Prop) (f g : Z -> S -> mut S) n : forall i k s,
  (forall t s, 0 <= t < Z.of_nat n -> P s -> f (i + t) s = g (k + t) s /\ forall s', f (i + t) s = MOk s' -> P s') -> P s ->
  mfor_loop n i f s = mfor_loop n k g s /\ (forall s', mfor_loop n i f s = MOk s' -> P s').
Proof.
  induction n as [|n IH]; intros i k s H HP; cbn [mfor_loop]. { split; [reflexivity|]. now intros s' [= <-]. }
  destruct (H 0 s ltac:(lia) HP) as (E & K). replace (i + 0) with i in * by lia. replace (k + 0) with k in * by lia. rewrite <- E.
  destruct (f i s) as [s'|e s'|]; cbn [mseq mbind]; [|split; [reflexivity|discriminate]|split; [reflexivity|discriminate]].
  apply IH; [|now apply K]. intros t s0 Ht HP0. specialize (H (t + 1) s0 ltac:(lia) HP0). replace (i + 1 + t) with (i + (t + 1)) by lia. replace (k + 1 + t) with (k + (t + 1)) by lia. exact H.
Qed.

Section T.
Context {V : Type} (zero : V) (c : cfg) (Hc : cfg_ok c).
Notation world := (list (list (list V))).
Notation store := (list (arr2 V)).
Implicit Types (st : store) (w : world) (M : list (list V)) (x : mxt V) (a : arr2 V) (hs : list (gex V)).

Lemma rep_yields (a : arr2 V) (M : list (list V)) : rep2 a M -> zlen M * ncols M <= amax c ->
  yields2 (src_of_arr2 a) (mkmx (zlen M) (ncols M) (Lazy2Spec.entry M)).
Proof using All.
  intros Hr HL. destruct (produces2_arr zero c Hc a M Hr HL) as (Hw & E1 & E2 & E3 & HU & HLn). pose proof (zlen_nonneg M). pose proof (ncols_nonneg M).
  pose proof (wfm_zero M Hw) as HZ. unfold cfg_ok in Hc. unfold yields2. cbn [mr mc mel].
  assert (zlen M <= LONG_MAX /\ ncols M <= LONG_MAX) as (? & ?) by nia.
  repeat split; auto; try lia.
  - intros i j Hi Hj. destruct (HU i j Hi Hj) as (v & Ev & ->). unfold entry. now rewrite Ev.
  - intros i j Hi Hj. pose proof (addr_range _ _ _ _ Hi Hj). rewrite HLn by lia. unfold entry.
    destruct (mget_some _ M i j (wfm_rect M Hw) Hi Hj) as (v & Ev). rewrite Ev. apply oget_ok. rewrite (concat_get (ncols M)); auto. now apply wfm_rect.
Qed.
Lemma represents2_nth st w k M : represents2 c st w -> znth w k = Some M -> exists a, znth st k = Some a /\ rep2 a M /\ zlen M * ncols M <= amax c.
Proof using.
  intros H E. pose proof (f2_nth _ _ _ H k) as K. rewrite E in K. destruct (znth st k) as [a|]; [|contradiction]. exists a. tauto.
Qed.
Lemma represents2_upd st w k a M : represents2 c st w -> rep2 a M -> zlen M * ncols M <= amax c -> represents2 c (zupd st k a) (zupd w k M).
Proof using.
  intros H HR HL. pose proof (f2_len _ _ _ H) as EL. destruct (Z_lt_dec k 0) as [|]; [|destruct (Z_lt_dec k (zlen st)) as [|]].
  - unfold zupd. now replace (k <? 0) with true by lia.
  - apply (Forall2_forall_znth (fun a M => rep2 a M /\ zlen M * ncols M <= amax c)); [rewrite 2! zlen_zupd; exact EL|]. intros j b N. rewrite !znth_zupd by lia. destruct (j =? k); [intros [= <-] [= <-]; now split|].
    intros Eb EN. pose proof (f2_nth _ _ _ H j) as K. now rewrite Eb, EN in K.
  - rewrite !HeapProofs.zupd_out by (apply znth_none; lia). exact H.
Qed.

(** ** Building *)
Definition dims (w : world) (k : Z) : option (Z * Z) := option_map (fun M => (zlen M, ncols M)) (znth w k).
Definition goodp (p : Z * Z) : Prop := 0 <= fst p /\ 0 <= snd p /\ (fst p = 0 <-> snd p = 0) /\ fst p * snd p <= LONG_MAX.
Lemma shape2_good st w x p : represents2 c st w -> owned2 x -> shape2 w x = Some p -> goodp p.
Proof using All.
  intros HR. revert p. induction x as [k|h|m|f x IH|f x IHx y IHy|f x IH v|f v x IH|x IH]; intros p HO HS; cbn [shape2 owned2] in *; try (now apply IH).
  - destruct (znth w k) as [M|] eqn:E; [|discriminate]. injection HS as <-. destruct (represents2_nth st w k M HR E) as (a & _ & Ha & HL).
    pose proof (zlen_nonneg M). pose proof (ncols_nonneg M). unfold cfg_ok in Hc. unfold goodp. cbn [fst snd]. repeat split; try lia; apply (wfm_zero M); apply Ha.
  - discriminate.
  - destruct HO as (B & -> & (_ & _ & B1 & B2 & _ & B3 & _) & HZ). injection HS as <-. cbn [mr mc] in *. unfold goodp. cbn [fst snd]. repeat split; try lia; apply HZ.
  - destruct (shape2 w x) as [[m n]|]; [|discriminate]. destruct (shape2 w y) as [[m' n']|]; [|discriminate]. destruct ((m =? m') && (n =? n')); [|discriminate].
    injection HS as <-. now apply IHx.
  - destruct (shape2 w x) as [[m n]|]; [|discriminate]. injection HS as <-. destruct (IH (m, n) HO eq_refl) as (? & ? & ? & ?). unfold goodp in *. cbn [fst snd] in *. repeat split; try lia; tauto.
Qed.
Lemma shape2_dims w w' x : (forall k, In k (names_in x) -> dims w' k = dims w k) -> shape2 w' x = shape2 w x.
Proof using.
  induction x as [k|h|m|f x IH|f x IHx y IHy|f x IH v|f v x IH|x IH]; intros H; cbn [shape2 names_in] in *; auto.
  - specialize (H k (or_introl eq_refl)). unfold dims in H. destruct (znth w k), (znth w' k); cbn in H; congruence.
  - rewrite IHx, IHy; auto; intros; apply H; apply in_or_app; auto.
  - now rewrite IH.
Qed.
Lemma goodp_long p : goodp p -> fst p <= LONG_MAX /\ snd p <= LONG_MAX.
Proof using. intros (H1 & H2 & H3 & H4). nia. Qed.
Lemma now_yields st w k M : represents2 c st w -> znth w k = Some M -> exists a, znth st k = Some a /\ yields2 (src_of_arr2 a) (mkmx (zlen M) (ncols M) (now w k)).
Proof using All.
  intros HR E. destruct (represents2_nth st w k M HR E) as (a & Ea & Ha & HL). exists a. split; [exact Ea|].
  eapply yields2_ext; [apply rep_yields; eassumption|reflexivity|reflexivity|]. intros i j _ _. cbn [mel]. unfold now. now rewrite E.
Qed.
(** An expression with operands of equal shapes can be built in every configuration, and gives its elements from the present
    contents as long as the shapes are what they were. *)
Definition gives (e : gex V) (x : mxt V) (w : world) (p : Z * Z) : Prop :=
  forall st' w', represents2 c st' w' -> (forall k, In k (names_in x) -> dims w' k = dims w k) ->
    exists A, gx_src c st' e = Ok A /\ yields2 A (mkmx (fst p) (snd p) (value2 (now w') x)).
Lemma build_ok st w hs x p : represents2 c st w -> spelled2 x = true -> owned2 x -> shape2 w x = Some p ->
  exists e, gbuild c st hs x = Ok e /\ gives e x w p.
Proof using All.
  intros HR. revert p. induction x as [k|h|m|f x IH|f x IHx y IHy|f x IH v|f v x IH|x IH]; intros p HF HO HS; cbn [spelled2 owned2 shape2 gbuild] in *.
  - destruct (znth w k) as [M|] eqn:E; [|discriminate]. injection HS as <-. destruct (represents2_nth st w k M HR E) as (a & Ea & _). rewrite Ea.
    eexists. split; [reflexivity|]. intros st' w' HR' HD. cbn [names_in] in HD. specialize (HD k (or_introl eq_refl)). unfold dims in HD. rewrite E in HD. cbn [option_map] in HD.
    destruct (znth w' k) as [M'|] eqn:E'; [|discriminate]. cbn [option_map] in HD. injection HD as D1 D2. destruct (now_yields st' w' k M' HR' E') as (a' & Ea' & Y).
    cbn [gx_src]. rewrite Ea'. eexists. split; [reflexivity|]. cbn [fst snd value2]. now rewrite <- D1, <- D2.
  - discriminate.
  - destruct HO as (B & -> & Y & HZ). injection HS as <-. cbn [bind]. eexists. split; [reflexivity|]. intros st' w' _ _. cbn [gx_src]. eexists. split; [reflexivity|]. exact Y.
  - destruct (IH p HF HO HS) as (e & -> & G). cbn [bind]. eexists. split; [reflexivity|]. intros st' w' HR' HD. destruct (G st' w' HR' HD) as (A & EA & Y).
    cbn [gx_src]. rewrite EA. cbn [bind]. eexists. split; [reflexivity|]. exact (un2_ok f A _ Y).
  - apply andb_true_iff in HF as [F1 F2]. destruct HO as [O1 O2]. destruct (shape2 w x) as [[m n]|] eqn:S1; [|discriminate]. destruct (shape2 w y) as [[m' n']|] eqn:S2; [|discriminate].
    destruct ((m =? m') && (n =? n')) eqn:Q; [|discriminate]. injection HS as <-. assert (m' = m /\ n' = n) as [-> ->] by lia.
    destruct (IHx _ F1 O1 eq_refl) as (a & Ea & G1). destruct (IHy _ F2 O2 eq_refl) as (b & Eb & G2). rewrite Ea, Eb. cbn [bind].
    destruct (G1 st w HR (fun _ _ => eq_refl)) as (A & EA & YA). destruct (G2 st w HR (fun _ _ => eq_refl)) as (B & EB & YB). rewrite EA, EB. cbn [bind].
    destruct YA as (-> & -> & _). destruct YB as (-> & -> & _). cbn [mr mc fst snd]. unfold same_size2. rewrite !Z.eqb_refl. cbn [andb]. rewrite check_debug_true. cbn [bind].
    eexists. split; [reflexivity|]. intros st' w' HR' HD. cbn [names_in] in HD.
    destruct (G1 st' w' HR') as (A' & EA' & YA'); [intros; apply HD, in_or_app; auto|]. destruct (G2 st' w' HR') as (B' & EB' & YB'); [intros; apply HD, in_or_app; auto|].
    destruct (bin2_ok c f A' B' _ _ YA' YB' eq_refl eq_refl) as (R & ER & YR). cbn [gx_src]. rewrite EA', EB'. cbn [bind]. unfold x_bin2 in ER.
    destruct (check_debug c _); cbn [bind] in ER; try discriminate. eexists. split; [reflexivity|]. injection ER as <-. exact YR.
  - destruct (IH p HF HO HS) as (e & -> & G). cbn [bind]. destruct (G st w HR (fun _ _ => eq_refl)) as (A & EA & YA). rewrite EA. cbn [bind].
    destruct (shape2_good st w x p HR HO HS) as (g1 & g2 & g3 & g4). destruct (goodp_long p) as (g5 & g6); [repeat split; tauto|].
    pose proof YA as (-> & -> & _). cbn [mr mc]. destruct (const2_ok c v (fst p) (snd p)) as (B & EB & YB); auto. rewrite EB. cbn [bind].
    pose proof YB as (-> & -> & _). cbn [mr mc]. unfold same_size2. rewrite !Z.eqb_refl. cbn [andb]. rewrite check_debug_true. cbn [bind].
    eexists. split; [reflexivity|]. intros st' w' HR' HD. destruct (G st' w' HR' HD) as (A' & EA' & YA').
    destruct (bin2_ok c f A' B _ _ YA' YB eq_refl eq_refl) as (R & ER & YR). cbn [gx_src]. rewrite EA'. cbn [bind]. unfold x_bin2 in ER.
    destruct (check_debug c _); cbn [bind] in ER; try discriminate. eexists. split; [reflexivity|]. injection ER as <-. exact YR.
  - destruct (IH p HF HO HS) as (e & -> & G). cbn [bind]. destruct (G st w HR (fun _ _ => eq_refl)) as (A & EA & YA). rewrite EA. cbn [bind].
    destruct (shape2_good st w x p HR HO HS) as (g1 & g2 & g3 & g4). destruct (goodp_long p) as (g5 & g6); [repeat split; tauto|].
    pose proof YA as (-> & -> & _). cbn [mr mc]. destruct (const2_ok c v (fst p) (snd p)) as (B & EB & YB); auto. rewrite EB. cbn [bind].
    pose proof YB as (-> & -> & _). cbn [mr mc]. unfold same_size2. rewrite !Z.eqb_refl. cbn [andb]. rewrite check_debug_true. cbn [bind].
    eexists. split; [reflexivity|]. intros st' w' HR' HD. destruct (G st' w' HR' HD) as (A' & EA' & YA').
    destruct (bin2_ok c f B A' _ _ YB YA' eq_refl eq_refl) as (R & ER & YR). cbn [gx_src]. rewrite EA'. cbn [bind]. unfold x_bin2 in ER.
    destruct (check_debug c _); cbn [bind] in ER; try discriminate. eexists. split; [reflexivity|]. injection ER as <-. exact YR.
  - destruct (shape2 w x) as [[m n]|] eqn:S1; [|discriminate]. injection HS as <-. destruct (IH _ HF HO eq_refl) as (e & -> & G). cbn [bind].
    destruct (G st w HR (fun _ _ => eq_refl)) as (A & EA & YA). rewrite EA. cbn [bind]. destruct (shape2_good st w x _ HR HO S1) as (g1 & g2 & g3 & g4). cbn [fst snd] in *.
    destruct (goodp_long (m, n)) as (g5 & g6); [repeat split; tauto|]. cbn [fst snd] in *. pose proof YA as (-> & -> & _). cbn [mr mc fst snd]. replace (-1 <? n) with true by lia. replace (-1 <? m) with true by lia.
    rewrite !check_debug_true. cbn [bind]. eexists. split; [reflexivity|]. intros st' w' HR' HD. destruct (G st' w' HR' HD) as (A' & EA' & YA').
    cbn [gx_src]. rewrite EA'. cbn [bind]. rewrite lmul_ok by (unfold LONG_MIN; nia). cbn [bind]. eexists. split; [reflexivity|].
    pose proof YA' as (_ & _ & B1 & B2 & _ & B3 & HU & _). cbn [mr mc mel fst snd] in *. unfold yields2. cbn [s2rows s2cols s2size s2un s2lin mr mc mel fst snd value2].
    repeat split; try lia.
    + intros i j Hi Hj. now rewrite HU by lia.
    + intros i j Hi Hj. pose proof (addr_max n m i j Hi Hj ltac:(lia)). rewrite index_map_ok by lia. cbn [bind fst snd]. now rewrite HU by lia.
Qed.
(** Where there are checks, expressions with operands of different shapes are reported. *)
Lemma build_none st w hs x : checked c = true -> represents2 c st w -> spelled2 x = true -> owned2 x -> (forall k, In k (names_in x) -> znth w k <> None) ->
  shape2 w x = None -> gbuild c st hs x = Fail (report c).
Proof using All.
  intros HC HR. induction x as [k|h|m|f x IH|f x IHx y IHy|f x IH v|f v x IH|x IH]; intros HF HO HN HS; cbn [spelled2 owned2 shape2 gbuild names_in] in *.
  - specialize (HN k (or_introl eq_refl)). destruct (znth w k); [discriminate|congruence].
  - discriminate.
  - destruct HO as (B & -> & _). discriminate.
  - now rewrite IH.
  - apply andb_true_iff in HF as [F1 F2]. destruct HO as [O1 O2]. destruct (shape2 w x) as [[m n]|] eqn:S1.
    2: { rewrite IHx; auto. intros; apply HN, in_or_app; auto. }
    destruct (build_ok st w hs x _ HR F1 O1 S1) as (a & -> & G1). cbn [bind]. destruct (shape2 w y) as [[m' n']|] eqn:S2.
    2: { rewrite IHy; auto. intros; apply HN, in_or_app; auto. }
    destruct (build_ok st w hs y _ HR F2 O2 S2) as (b & -> & G2). cbn [bind]. destruct (G1 st w HR (fun _ _ => eq_refl)) as (A & -> & YA). destruct (G2 st w HR (fun _ _ => eq_refl)) as (B & -> & YB). cbn [bind].
    destruct YA as (-> & -> & _). destruct YB as (-> & -> & _). cbn [mr mc fst snd]. unfold same_size2. destruct ((m =? m') && (n =? n')); [discriminate|]. now rewrite check_debug_false.
  - now rewrite IH.
  - now rewrite IH.
  - destruct (shape2 w x) as [[m n]|] eqn:S1; [discriminate|]. now rewrite IH.
Qed.

(** ** Assigning element by element *)
Lemma value2_ext (rd rd' : Z -> Z -> Z -> outcome V) x : (forall k p q, rd k p q = rd' k p q) -> forall i j, value2 rd x i j = value2 rd' x i j.
Proof using.
  intros H. induction x as [k|h|m|f x IH|f x IHx y IHy|f x IH v|f v x IH|x IH]; intros i j; cbn [value2]; auto.
  all: rewrite ?IH, ?IHx, ?IHy; reflexivity.
Qed.
Lemma mget_none n M p q : rect n M -> ~ (0 <= p < zlen M /\ 0 <= q < n) -> mget M p q = None.
Proof using. intros HM H. destruct (mget M p q) as [v|] eqn:E; [|reflexivity]. exfalso. apply H. now apply (mget_in n M p q v). Qed.
Lemma before_trans i j p q p' q' : before i j p q = true -> before p q p' q' = true -> before i j p' q' = true.
Proof using. unfold before. lia. Qed.
Lemma before_next i j p q : before i (j + 1) p q = before i j p q || ((p =? i) && (q =? j)).
Proof using. unfold before. lia. Qed.

Section Sweep.
Variables (st : store) (w : world) (k : Z) (A : list (list V)) (x : mxt V) (a : arr2 V).
Hypothesis (HR : represents2 c st w) (HF : spelled2 x = true) (HO : owned2 x) (HA : znth w k = Some A) (HS : shape2 w x = Some (zlen A, ncols A)).
Hypothesis (Ha : znth st k = Some a) (Hr : rep2 a A) (HL : zlen A * ncols A <= amax c).

Lemma hk : 0 <= k < zlen w.
Proof using HA. now apply znth_lt in HA. Qed.
Lemma swept_mid R i j : swept w k A x i j R -> forall k' p q, now (zupd w k R) k' p q = midway w k A R i j k' p q.
Proof using HA Hr.
  intros (L & RR & H) k' p q. unfold now, midway. rewrite znth_zupd by apply hk. destruct (k' =? k) eqn:E; [|reflexivity].
  destruct (before i j p q) eqn:B; [reflexivity|]. unfold Lazy2Spec.entry. assert (mget R p q = mget A p q) as ->; [|reflexivity].
  destruct (Z_le_dec 0 p), (Z_lt_dec p (zlen A)), (Z_le_dec 0 q), (Z_lt_dec q (ncols A)); try (rewrite !(mget_none (ncols A)); auto; [apply wfm_rect, Hr|lia|lia]).
  specialize (H p q ltac:(lia) ltac:(lia)). now rewrite B in H.
Qed.
Lemma dims_swept R : zlen R = zlen A -> ncols R = ncols A -> forall k', dims (zupd w k R) k' = dims w k'.
Proof using HA. intros E1 E2 k'. unfold dims. rewrite znth_zupd by apply hk. destruct (Z.eqb_spec k' k) as [->|]; [|reflexivity]. rewrite HA. cbn [option_map]. now rewrite E1, E2. Qed.
Lemma swept_ncols R i j : swept w k A x i j R -> ncols R = ncols A.
Proof using Hr.
  intros (L & RR & _). destruct (Z.eq_dec (zlen A) 0) as [E|E].
  - pose proof (proj1 (wfm_zero A (proj1 Hr)) E) as E2. rewrite E in L. apply zlen_zero in L. rewrite L, E2. reflexivity.
  - apply rect_ncols; [assumption|]. apply nonempty_len. pose proof (zlen_nonneg A). lia.
Qed.
Lemma rep_refill b R : rep2 (refill a b) R -> zlen b = zlen R * ncols R.
Proof using. intros H. pose proof (rep2_len _ _ H) as E. exact E. Qed.

(** The element at (i, j) when the storage holds R. *)
Definition at_hand (e : gex V) (b : list V) (i j : Z) : outcome V := A' <- reread2 c st k a e b ;; s2un A' i j.
Lemma at_hand_ok e b R i j : gives e x w (zlen A, ncols A) -> rep2 (refill a b) R -> swept w k A x i j R -> 0 <= i < zlen A -> 0 <= j < ncols A ->
  exists A', reread2 c st k a e b = Ok A' /\ s2un A' i j = value2 (midway w k A R i j) x i j /\ s2lin A' (i * ncols A + j) = value2 (midway w k A R i j) x i j.
Proof using All.
  intros G Hb HW Hi Hj. pose proof (swept_ncols R i j HW) as EN. pose proof HW as (EL & _). unfold reread2.
  destruct (G (zupd st k (refill a b)) (zupd w k R)) as (A' & EA & (_ & _ & _ & _ & _ & _ & HU & HV)).
  - apply represents2_upd; [exact HR|exact Hb|]. rewrite EL, EN. exact HL.
  - intros k' _. now apply dims_swept.
  - exists A'. cbn [mr mc mel fst snd] in *. rewrite HU, HV by assumption. split; [exact EA|]. split; apply value2_ext, swept_mid, HW.
Qed.
Lemma sweep_next b R i j v : rep2 (refill a b) R -> swept w k A x i j R -> 0 <= i < zlen A -> 0 <= j < ncols A ->
  value2 (midway w k A R i j) x i j = Ok v ->
  exists R', set2 (dcols a) b i j v = Ok (zupd b (i * ncols A + j) v) /\ rep2 (refill a (zupd b (i * ncols A + j) v)) R' /\ swept w k A x i (j + 1) R'.
Proof using All.
  intros Hb HW Hi Hj HV. pose proof (swept_ncols R i j HW) as EN. pose proof HW as (EL & RR & H). pose proof Hr as (Hw & D1 & D2 & D3).
  pose proof (rep_refill b R Hb) as LB. rewrite EL, EN in LB. exists (mset R i j v). unfold cfg_ok in Hc.
  destruct (mset_rect zero c Hc (refill a b) R Hb ltac:(unfold small; rewrite EL, EN; exact HL) i j v) as (Q1 & Q2 & Q3); try lia. rewrite EN in Q1. rewrite EL in Q2.
  split; [rewrite D2; apply (set2_ok (zlen A)); auto; lia|]. split.
  - unfold refill. rewrite D1, D2, (rep2_an a A Hr). apply rep2_intro; auto; [apply (rep2_shape a A Hr)|now rewrite zlen_zupd|].
    intros p q Hp Hq. rewrite (get2_zupd (zlen A)) by auto. rewrite Q3 by lia. destruct ((p =? i) && (q =? j)); [reflexivity|].
    pose proof (rep2_get _ _ Hb p q ltac:(lia) ltac:(lia)) as E. rewrite EN in E. exact E.
  - split; [exact Q2|]. split; [exact Q1|]. intros p q Hp Hq. specialize (H p q Hp Hq). rewrite before_next. rewrite Q3 by lia.
    assert (forall p' q', before i j p' q' = true \/ p' = i /\ q' = j -> forall k' p1 q1, midway w k A (mset R i j v) p' q' k' p1 q1 = midway w k A R p' q' k' p1 q1) as HM.
    { intros p' q' HB k' p1 q1. unfold midway. destruct (k' =? k); [|reflexivity]. destruct (before p' q' p1 q1) eqn:B; [|reflexivity]. unfold Lazy2Spec.entry.
      destruct (Z_le_dec 0 p1), (Z_lt_dec p1 (zlen A)), (Z_le_dec 0 q1), (Z_lt_dec q1 (ncols A)); try (rewrite !(mget_none (ncols A)); auto; lia).
      rewrite Q3 by lia. replace ((p1 =? i) && (q1 =? j)) with false; [reflexivity|]. unfold before in *. lia. }
    destruct ((p =? i) && (q =? j)) eqn:E.
    + rewrite orb_true_r. exists v. split; [|reflexivity]. assert (p = i /\ q = j) as [-> ->] by lia. rewrite <- HV. apply value2_ext, HM. auto.
    + rewrite orb_false_r. destruct (before i j p q) eqn:B; [|exact H]. destruct H as (u & Hu & HG). exists u. split; [|exact HG]. rewrite <- Hu. apply value2_ext, HM. auto.
Qed.
Lemma swept_row R i : swept w k A x i (ncols A) R -> swept w k A x (i + 1) 0 R.
Proof using.
  intros (EL & RR & H). split; [exact EL|]. split; [exact RR|]. intros p q Hp Hq. specialize (H p q Hp Hq).
  replace (before (i + 1) 0 p q) with (before i (ncols A) p q); [exact H|]. unfold before. lia.
Qed.
Lemma swept_start : swept w k A x 0 0 A.
Proof using Hr.
  split; [reflexivity|]. split; [apply wfm_rect, Hr|]. intros i j Hi Hj. replace (before 0 0 i j) with false; [reflexivity|]. unfold before. lia.
Qed.

Definition gone f b := exists R i j, rep2 (refill a b) R /\ 0 <= i < zlen A /\ 0 <= j < ncols A /\ swept w k A x i j R /\ value2 (midway w k A R i j) x i j = Fail f.
Definition lost := exists R i j, 0 <= i < zlen A /\ 0 <= j < ncols A /\ swept w k A x i j R /\ value2 (midway w k A R i j) x i j = UB.
Lemma sweep_loop e : gives e x w (zlen A, ncols A) ->
  match mfor 0 (zlen A) (fun i b => mfor 0 (ncols A) (fun j b => commit b (v <- at_hand e b i j ;; set2 (dcols a) b i j v)) b) (buf (dat a)) with
  | MOk b => exists R, rep2 (refill a b) R /\ swept w k A x (zlen A) 0 R
  | MFail f b => gone f b
  | MUB => lost
  end.
Proof using All.
  intros G. apply (mfor_inv (fun i b => exists R, rep2 (refill a b) R /\ swept w k A x i 0 R) gone lost); [apply zlen_nonneg| |].
  2: { exists A. split; [|apply swept_start]. replace (refill a (buf (dat a))) with a; [exact Hr|]. unfold refill. now destruct a as [? ? [? ?]]. }
  intros i b Hi (R & Hb & HW).
  pose proof (mfor_inv (fun j b => exists R, rep2 (refill a b) R /\ swept w k A x i j R) gone lost
     (fun j b => commit b (v <- at_hand e b i j ;; set2 (dcols a) b i j v)) 0 (ncols A) b (ncols_nonneg A)) as K.
  match type of K with ?P -> ?Q -> ?C => assert P as KP; [|assert C as KC; [apply K; [exact KP|eauto]|]] end.
  - intros j b' Hj (R' & Hb' & HW'). destruct (at_hand_ok e b' R' i j G Hb' HW' Hi Hj) as (A' & E1 & E2 & _). unfold at_hand. rewrite E1. cbn [bind]. rewrite E2.
    destruct (value2 (midway w k A R' i j) x i j) as [v|f|] eqn:EV; cbn [bind commit].
    + destruct (sweep_next b' R' i j v Hb' HW' Hi Hj EV) as (R1 & -> & ? & ?). cbn [commit]. eauto.
    + exists R', i, j. auto.
    + exists R', i, j. auto.
  - destruct (mfor 0 (ncols A) _ b) as [b'|f b'|]; auto. destruct KC as (R' & Hb' & HW'). exists R'. split; [exact Hb'|]. now apply swept_row.
Qed.
End Sweep.

Theorem assign2_thm st w hs k A x : represents2 c st w -> spelled2 x = true -> owned2 x -> znth w k = Some A -> shape2 w x = Some (zlen A, ncols A) ->
  match gstep zero c (st, hs) (DSet k x) with
  | Next s Done => snd s = hs /\ exists R, swept w k A x (zlen A) 0 R /\ represents2 c (fst s) (zupd w k R)
  | Next s (Failed f) => snd s = hs /\ exists R i j, 0 <= i < zlen A /\ 0 <= j < ncols A /\ swept w k A x i j R /\
      value2 (midway w k A R i j) x i j = Fail f /\ represents2 c (fst s) (zupd w k R)
  | Crash => exists R i j, 0 <= i < zlen A /\ 0 <= j < ncols A /\ swept w k A x i j R /\ value2 (midway w k A R i j) x i j = UB
  | _ => False
  end.
Proof using All.
  intros HR HF HO HA HS. destruct (represents2_nth st w k A HR HA) as (a & Ha & Hr & HL). destruct (build_ok st w hs x _ HR HF HO HS) as (e & EB & G).
  destruct (G st w HR (fun _ _ => eq_refl)) as (S & ES & YS). pose proof YS as (D1 & D2 & _). cbn [mr mc fst snd] in *.
  cbn [gstep fst snd]. rewrite Ha, EB. cbn [bind]. rewrite ES. cbn [bind gon]. unfold g_assign, arr2_assign_rd. rewrite D1, D2. pose proof Hr as (_ & R1 & R2 & _).
  replace (same_size2 (drows a) (dcols a) (zlen A) (ncols A)) with true by (unfold same_size2; lia). rewrite check_debug_true.
  pose proof (sweep_loop st w k A x a HR HF HO HA HS Ha Hr HL e G) as K. unfold at_hand in K. cbn [fst].
  assert (forall R i j, swept w k A x i j R -> zlen R * ncols R <= amax c) as HB.
  { intros R i j HW. rewrite (swept_ncols w k A x a Hr R i j HW). destruct HW as (-> & _). exact HL. }
  match type of K with match ?L with _ => _ end => destruct L as [b|f b|] end; cbn [mbind gback fst snd].
  - split; [reflexivity|]. destruct K as (R & K1 & K2). exists R. split; [exact K2|]. apply represents2_upd; eauto.
  - split; [reflexivity|]. destruct K as (R & i & j & K1 & K2 & K3 & K4 & K5). exists R, i, j. repeat (split; [assumption|]). apply represents2_upd; eauto.
  - exact K.
Qed.
End T.
