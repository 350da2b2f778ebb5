From Verif Require Import Base.Outcome Base.ZList Model.IntModel Model.ScalarOps Model.Index Model.Slice Model.Array1D Model.Array2D Model.View2D Model.Expr Model.ViewAssign Model.Store1D Model.Stale Model.Lazy.
From Verif Require Import Spec.ArraySpec Spec.SliceSpec Spec.MatrixSpec Spec.Matrix2Spec Spec.View2DSpec Spec.Store1DSpec Spec.StaleSpec Spec.LazySpec.
From Verif Require Import Proofs.Array1DProofs Proofs.SliceProofs Proofs.ViewProofs Proofs.Store1DProofs Proofs.Store2DProofs Proofs.View2DProofs Proofs.View2DOps Proofs.View2DThms Proofs.StaleProofs Proofs.StaleThms.
Ltac Zify.zify_post_hook ::= Z.div_mod_to_equations.

Section P.
Context {V : Type} (zero : V) (c : cfg).
Hypothesis Hc : cfg_ok c.
Notation R1 := (@R1 V c).

(** The object behaves as the formula. *)
Fixpoint like (e : lex V) (F : form V) : Prop :=
  match e, F with
  | LArr k, FArr k' => k = k'
  | LOwn A, FOwn n g => ssize A = n /\ 0 <= n <= LONG_MAX /\ forall i, 0 <= i <= LONG_MAX -> sun A i = g i
  | LUn f e, FUn f' F => f = f' /\ like e F
  | LBin f a b, FBin f' F G => f = f' /\ like a F /\ like b G
  | LSee o e, FPick ps F => (forall n, o_denotes_by Ok c (rebase (O1 n) o) (D1 ps)) /\ Forall (fun p => 0 <= p <= LONG_MAX) ps /\ like e F
  | _, _ => False
  end.
Definition alike (s : list (arr V) * list (lex V)) (w : list (list V) * list (form V)) : Prop :=
  Forall2 R1 (fst s) (fst w) /\ Forall2 like (snd s) (snd w).

Lemma nth_both {A B} (R : A -> B -> Prop) l k i : Forall2 R l k ->
  match znth k i with Some y => exists x, znth l i = Some x /\ R x y | None => znth l i = None end.
Proof. intros H. apply (R_nth R l k i H). Qed.
Lemma len_same st w e : Forall2 R1 st w -> forall F, like e F -> lx_size st e = len w F /\ match len w F with Ok n => 0 <= n <= LONG_MAX | UB => True | Fail _ => False end.
Proof using Hc.
  intros HS. induction e as [k|A|f e IH|f a IHa b IHb|o e IH]; intros [k'|n g|f' F|f' F G|ps F] H; cbn in H; try contradiction; cbn [lx_size len].
  - subst k'. pose proof (nth_both _ _ _ k HS) as E. destruct (znth w k) as [l|]; [|rewrite E; auto].
    destruct E as (a & -> & [[_ ->] HM]). split; [reflexivity|]. pose proof (zlen_nonneg l). unfold cfg_ok in Hc. lia.
  - destruct H as (<- & H & _). auto.
  - apply IH, H.
  - apply IHa, H.
  - destruct H as (H1 & H2 & H3). destruct (IH F H3) as (-> & H4). destruct (len w F) as [n|x|]; cbn [bind]; auto.
    destruct (H1 n) as (_ & G1 & G2 & _). rewrite G2. pose proof (zlen_nonneg ps). split; [reflexivity|lia].
Qed.
Lemma val_unknown (w : list (list V)) F : len w F = UB -> forall i, inside F i -> val w F i = UB.
Proof using.
  induction F as [k|n g|f F IH|f F IHF G IHG|ps F IH]; cbn [len val inside]; intros H i HI.
  - destruct (znth w k); [discriminate|reflexivity].
  - discriminate.
  - now rewrite (IH H i HI).
  - now rewrite (IHF H i (proj1 HI)).
  - destruct HI as (p & -> & HI). apply IH; [|exact HI]. destruct (len w F); [discriminate|discriminate|reflexivity].
Qed.
Lemma val_same st w e : Forall2 R1 st w -> forall F i, like e F -> 0 <= i <= LONG_MAX -> inside F i -> lx_un c st e i = val w F i.
Proof using Hc.
  intros HS. induction e as [k|A|f e IH|f a IHa b IHb|o e IH]; intros [k'|n g|f' F|f' F G|ps F] i H Hi HI; cbn in H; try contradiction; cbn [lx_un val].
  - subst k'. pose proof (nth_both _ _ _ k HS) as E. destruct (znth w k) as [l|]; [|rewrite E; auto]. destruct E as (a & -> & [[-> _] _]). reflexivity.
  - now apply H.
  - destruct H as (<- & H). now rewrite (IH F).
  - destruct H as (<- & H1 & H2), HI as [I1 I2]. now rewrite (IHa F), (IHb G).
  - destruct H as (H1 & H2 & H3), HI as (p & Ep & HI). rewrite Ep. destruct (len_same st w e HS F H3) as (L1 & L2).
    assert (0 <= p <= LONG_MAX) as Hp by (apply (proj1 (Forall_forall _ _) H2), (znth_in _ i), Ep).
    rewrite L1. destruct (len w F) as [n|x|] eqn:EL; cbn [bind]; [|contradiction|].
    + destruct (H1 n) as (_ & _ & _ & G). rewrite (G i p Ep). cbn [bind]. now apply IH.
    + symmetry. now apply val_unknown.
Qed.

Lemma check_len n m (A : Type) (k : outcome A) : (check_debug c (Ok (n =? m)) ;;; k) = same_len c n m k.
Proof using. unfold same_len, check_debug, check_always, checked, report. destruct (n =? m), (dbg c), (exc c), (ndbg c); reflexivity. Qed.
Lemma const_own n (v : V) : 0 <= n <= LONG_MAX -> exists B, x_const1 c n v = Ok B /\ ssize B = n /\ forall i, 0 <= i <= LONG_MAX -> sun B i = Ok v.
Proof using.
  intros Hn. unfold x_const1, x_gen, x_irange, x_seq. replace (-1 <? n) with true by lia.
  assert (check_debug c (Ok true) = Ok tt) as -> by (unfold check_debug; destruct (dbg c); reflexivity). cbn [bind].
  eexists. split; [reflexivity|]. split; [reflexivity|]. intros i Hi. cbn [x_un sun bind]. unfold lmul, ladd, lret, in_long, LONG_MIN.
  replace ((-9223372036854775808 <=? 1 * i) && (1 * i <=? LONG_MAX)) with true by (unfold LONG_MAX in *; lia). cbn [bind].
  replace ((-9223372036854775808 <=? 0 + 1 * i) && (0 + 1 * i <=? LONG_MAX)) with true by (unfold LONG_MAX in *; lia). reflexivity.
Qed.
Lemma view_like n ws : 0 <= n <= LONG_MAX -> ws <> [] -> chain_ok (whole1 n) ws -> forall ps, den_chain (whole1 n) ws = Some (D1 ps) ->
  exists o, o_chain c (O1 n) ws = Ok o /\ (forall m, o_denotes_by Ok c (rebase (O1 m) o) (D1 ps)) /\ Forall (fun p => 0 <= p < n) ps /\ owner o = false.
Proof using.
  intros Hn Hw HC ps Hd. destruct ws as [|w ws]; [contradiction|]. pose proof HC as (HT & HF & HO & HR).
  pose proof (whole1_den c n Hn) as W. destruct (apply_ok c _ _ w W HT HF HO) as (o1 & d1 & E1 & E2 & D). pose proof Hd as Hd'.
  cbn [o_chain den_chain] in *. rewrite E1 in *. rewrite E2. cbn [bind].
  assert (by_number w = true) as HB by (destruct w; try discriminate HT; reflexivity).
  assert (forall r, K1 r -> o_denotes_by Ok c (rebase r o1) d1) as HD.
  { apply (same_num c K1 (O1 n) d1 w); auto; [exists n; reflexivity|intros r [m ->]; reflexivity|intros r i [m ->]; reflexivity]. }
  destruct (chain_keep c K1 (fun _ => Ok) o1 d1 ws (O1 0)) as (o & d & E3 & E4 & E5 & E6); auto; [exists 0; reflexivity|now apply (apply_inner c (O1 n) w)|].
  rewrite E4 in Hd. injection Hd as ->. exists o. rewrite E3. repeat apply conj; auto; [intros m; apply E6; exists m; reflexivity|].
  apply Forall_forall. intros p Hp. assert (In p (entries (D1 ps))) as HI by exact Hp.
  apply (entries_chain ws d1 _ E4), (entries_apply _ _ _ E1) in HI. cbn in HI. apply in_znth in HI as (i & Hi). apply znth_all_positions in Hi; lia.
Qed.
Lemma formula_same st hs w fs x : Forall2 R1 st w -> Forall2 like hs fs -> text_ok c w fs x ->
  match formula c w fs x with
  | Ok F => exists e, build c st hs x = Ok e /\ like e F
  | Fail f => build c st hs x = Fail f
  | UB => build c st hs x = UB
  end.
Proof using Hc.
  intros HS HH. induction x as [k|h|m|f x IH|f x IHx y IHy|f x IH v|f v x IH|x IH ws]; cbn [formula build text_ok]; intros HT.
  - pose proof (nth_both _ _ _ k HS) as E. destruct (znth w k) as [l|]; [|now rewrite E]. destruct E as (a & -> & _). eexists; split; reflexivity.
  - pose proof (nth_both _ _ _ h HH) as E. destruct (znth fs h) as [F|]; [|now rewrite E]. destruct E as (e & -> & E). eauto.
  - destruct m as [A|f|]; cbn [bind]; auto. exists (LOwn A). split; [reflexivity|]. cbn. auto.
  - specialize (IH HT). destruct (formula c w fs x) as [F|g|]; cbn [bind]; try (rewrite IH; reflexivity). destruct IH as (e & -> & IH). exists (LUn f e). cbn. auto.
  - specialize (IHx (proj1 HT)). specialize (IHy (proj2 HT)). destruct (formula c w fs x) as [F|g|]; cbn [bind]; try (rewrite IHx; reflexivity). destruct IHx as (a & -> & La).
    cbn [bind]. destruct (formula c w fs y) as [G|g|]; cbn [bind]; try (rewrite IHy; reflexivity). destruct IHy as (b & -> & Lb). cbn [bind].
    destruct (len_same st w a HS F La) as (-> & Na), (len_same st w b HS G Lb) as (-> & Nb).
    destruct (len w F) as [n| |]; cbn [bind]; auto. destruct (len w G) as [m| |]; cbn [bind]; auto. rewrite check_len. unfold same_len.
    destruct ((n =? m) || negb (checked c)); [|reflexivity]. exists (LBin f a b). cbn. auto.
  - specialize (IH HT). destruct (formula c w fs x) as [F|g|]; cbn [bind]; try (rewrite IH; reflexivity). destruct IH as (a & -> & La). cbn [bind].
    destruct (len_same st w a HS F La) as (-> & Na). destruct (len w F) as [n| |]; cbn [bind]; auto. destruct (const_own n v Na) as (B & -> & E1 & E2). cbn [bind].
    rewrite check_len, E1. unfold same_len. rewrite Z.eqb_refl. cbn [orb]. exists (LBin f a (LOwn B)). cbn. auto 8.
  - specialize (IH HT). destruct (formula c w fs x) as [F|g|]; cbn [bind]; try (rewrite IH; reflexivity). destruct IH as (a & -> & La). cbn [bind].
    destruct (len_same st w a HS F La) as (-> & Na). destruct (len w F) as [n| |]; cbn [bind]; auto. destruct (const_own n v Na) as (B & -> & E1 & E2). cbn [bind].
    rewrite check_len, E1. unfold same_len. rewrite Z.eqb_refl. cbn [orb]. exists (LBin f (LOwn B) a). cbn. auto 8.
  - destruct HT as (HT & Hw & HC). specialize (IH HT). destruct (formula c w fs x) as [F|g|]; cbn [bind]; try (rewrite IH; reflexivity). destruct IH as (a & -> & La). cbn [bind].
    destruct (len_same st w a HS F La) as (-> & Na). destruct (len w F) as [n| |] eqn:EL; cbn [bind]; auto. destruct (HC F n eq_refl EL) as (HC' & ps & Hd).
    rewrite Hd. destruct (view_like n ws Na Hw HC' ps Hd) as (o & -> & D1' & D2' & _). cbn [bind]. exists (LSee o a). split; [reflexivity|]. cbn. repeat apply conj; auto.
    eapply Forall_impl; [|exact D2']. cbn. lia.
Qed.

Definition ends (r : list V * outcome unit) : mut (list V) :=
  match r with (l, Ok _) => MOk l | (l, Fail f) => MFail f l | (_, UB) => MUB end.
Lemma turn_loop w k F upd N body qs : forall i b, zlen b = N ->
  (forall j p b', znth qs j = Some p -> zlen b' = N ->
     body (i + j) b' = commit b' (y <- (v <- oget b' p ;; x <- val (zupd w k b') F (i + j) ;; upd v x) ;; Ok (zupd b' p y))) ->
  mfor_loop (length qs) i body b = ends (store_in_turn w k F upd b qs i).
Proof using.
  induction qs as [|p qs IH]; intros i b Hb HB; [reflexivity|]. cbn [length mfor_loop store_in_turn].
  pose proof (HB 0 p b eq_refl Hb) as E. rewrite Z.add_0_r in E. rewrite E. destruct (v <- oget b p ;; x <- val (zupd w k b) F i ;; upd v x) as [y|f|]; cbn [bind commit mseq mbind]; auto.
  apply IH; [now rewrite zlen_zupd|]. intros j q b' Hj Hb'. pose proof (znth_lt _ _ _ Hj). replace (i + 1 + j) with (i + (1 + j)) by lia. apply HB; auto.
  rewrite znth_cons_pos by lia. now replace (1 + j - 1) with j by lia.
Qed.
Lemma turn_len (w : list (list V)) k F upd ps : forall l i, zlen (fst (store_in_turn w k F upd l ps i)) = zlen l.
Proof using.
  induction ps as [|p ps IH]; intros l i; [reflexivity|]. cbn [store_in_turn]. destruct (v <- oget l p ;; x <- val (zupd w k l) F i ;; upd v x); try reflexivity. rewrite IH. apply zlen_zupd.
Qed.
Lemma target_places (l : list V) ws ps : zlen l <= LONG_MAX -> chain_ok (whole1 (zlen l)) ws -> den_chain (whole1 (zlen l)) ws = Some (D1 ps) ->
  exists o, o_chain c (O1 (zlen l)) ws = Ok o /\ o_size o = Ok (zlen ps) /\ Forall (fun p => 0 <= p < zlen l) ps /\ (forall i p, znth ps i = Some p -> o_lin c o i = Ok p) /\ zlen ps <= LONG_MAX.
Proof using.
  intros HL HC Hd. pose proof (zlen_nonneg l) as HN. pose proof (whole1_den c (zlen l) ltac:(lia)) as W.
  destruct (chain_ok_den c ws _ _ W HC) as (o & d & E1 & E2 & E3). rewrite E1 in Hd. injection Hd as ->. exists o. destruct E3 as (_ & G1 & G2 & G3). repeat split; auto.
  apply Forall_forall. intros p Hp. assert (In p (entries (D1 ps))) as HI by exact Hp.
  apply (entries_chain ws _ _ E1) in HI. cbn in HI. apply in_znth in HI as (i & Hi). apply znth_all_positions in Hi; lia.
Qed.

Lemma each_fill (g : Z -> outcome V) : forall (k : nat) i b done, zlen done = i -> zlen b = Z.of_nat k ->
  for_loop k i (fun i b => x <- g i ;; oset b i x) (done ++ b) = (l <- listing g (zseq i k) ;; Ok (done ++ l)).
Proof using.
  induction k as [|k IH]; intros i b done Hd Hb; cbn [for_loop zseq listing bind].
  - rewrite (zlen_zero b) by lia. reflexivity.
  - destruct b as [|y b]; [rewrite zlen_nil in Hb; lia|]. rewrite zlen_cons in Hb. destruct (g i) as [x|f|]; cbn [bind]; auto.
    pose proof (zlen_nonneg done). pose proof (zlen_nonneg b). rewrite oset_ok by (rewrite zlen_app, zlen_cons; lia). cbn [bind].
    rewrite zupd_app_r by lia. replace (i - zlen done) with 0 by lia. change (zupd (y :: b) 0 x) with (x :: b).
    change (done ++ x :: b) with (done ++ [x] ++ b). rewrite app_assoc. rewrite IH by (rewrite ?zlen_app, ?zlen_cons, ?zlen_nil; lia).
    destruct (listing g (zseq (i + 1) k)); cbn [bind]; auto. now rewrite <- app_assoc.
Qed.
Lemma each_ext (g h : Z -> outcome V) is : (forall i, In i is -> g i = h i) -> listing g is = listing h is.
Proof using. induction is as [|i is IH]; intros H; [reflexivity|]. cbn [listing]. rewrite (H i) by now left. destruct (h i); cbn [bind]; auto. rewrite IH; auto. intros j Hj. apply H. now right. Qed.
Lemma each_len (g : Z -> outcome V) is : forall l, listing g is = Ok l -> zlen l = zlen is.
Proof using.
  induction is as [|i is IH]; cbn [listing]; intros l H; [injection H as <-; reflexivity|]. destruct (g i); cbn [bind] in H; try discriminate.
  destruct (listing g is); cbn [bind] in H; try discriminate. injection H as <-. rewrite !zlen_cons. now rewrite (IH _ eq_refl).
Qed.
Lemma new_same st w e F : Forall2 R1 st w -> like e F -> (forall n i, len w F = Ok n -> 0 <= i < n -> inside F i) ->
  match elements c w F with
  | Ok l => exists a, (A <- lx_src c st e ;; arr_of_src zero c A) = Ok a /\ R1 a l
  | Fail f => (A <- lx_src c st e ;; arr_of_src zero c A) = Fail f
  | UB => (A <- lx_src c st e ;; arr_of_src zero c A) = UB
  end.
Proof using Hc.
  intros HS HL HI. unfold elements, lx_src. destruct (len_same st w e HS F HL) as (-> & Hn). destruct (len w F) as [n| |] eqn:EL; cbn [bind]; auto.
  unfold arr_of_src. cbn [ssize]. unfold room. unfold cfg_ok in Hc. destruct (amax c <? n) eqn:EM.
  - rewrite (arr_new_big zero c n) by lia. reflexivity.
  - rewrite (arr_new_ok zero c n) by lia. cbn [bind buf an]. unfold copy. cbn [ssize sun]. unfold for_.
    pose proof (each_fill (lx_un c st e) (Z.to_nat (n - 0)) 0 (repeat zero (Z.to_nat n)) [] eq_refl ltac:(rewrite zlen_repeat; lia)) as E.
    cbn [app] in E. rewrite E. rewrite (each_ext (lx_un c st e) (val w F)).
    2:{ intros i Hi. apply in_zseq in Hi. apply (val_same st w e HS F i HL); [lia|]. apply (HI n i eq_refl). lia. }
    unfold all_positions. replace (n - 0) with n by lia. destruct (listing (val w F) (zseq 0 (Z.to_nat n))) as [l| |] eqn:EE; cbn [bind]; auto.
    eexists. split; [reflexivity|]. apply each_len in EE. rewrite zlen_zseq in EE. split; [split; [reflexivity|cbn; lia]|lia].
Qed.

Lemma alike_upd st hs w fs k a l : Forall2 R1 st w -> Forall2 like hs fs -> R1 a l -> alike (zupd st k a, hs) (zupd w k l, fs).
Proof using. intros H1 H2 H3. split; cbn [fst snd]; auto. now apply R_upd. Qed.
Definition lsim (m : res (list (arr V) * list (lex V)) V) (n : res (list (list V) * list (form V)) V) : Prop :=
  match n with Next w ob => exists s, m = Next s ob /\ alike s w | Crash => m = Crash end.

Lemma assign_is_update o n rd b ps : Forall (fun p => 0 <= p < zlen b) ps -> o_size o = Ok (zlen ps) -> (forall i p, znth ps i = Some p -> o_lin c o i = Ok p) ->
  forall w k F, (forall b' i, zlen b' = zlen b -> 0 <= i < zlen ps -> rd b' i = val (zupd w k b') F i) -> n = zlen ps ->
  v_assign c o n rd b = ends (store_in_turn w k F (fun _ y => Ok y) b ps 0).
Proof using zero.
  intros HP HO HL w k F HR ->. unfold v_assign. rewrite HO. rewrite Z.eqb_refl. assert (check_debug c (Ok true) = Ok tt) as -> by (unfold check_debug; destruct (dbg c); reflexivity).
  cbn [guarded]. unfold store_loop, mfor. replace (Z.to_nat (zlen ps - 0)) with (length ps) by (unfold zlen; lia).
  apply (turn_loop w k F _ (zlen b)); [reflexivity|]. intros j p b' Hj Hb'. rewrite Z.add_0_l. pose proof (znth_lt _ _ _ Hj) as Hj'. rewrite (HR b' j Hb' Hj').
  assert (0 <= p < zlen b') as Hp by (rewrite Hb'; apply (proj1 (Forall_forall _ _) HP), (znth_in _ j), Hj).
  destruct (znth_some b' p Hp) as (v & Ev). rewrite (oget_ok _ _ _ Ev). cbn [bind]. destruct (val (zupd w k b') F j); cbn [bind]; auto. rewrite (HL j p Hj). cbn [bind]. now rewrite oset_ok.
Qed.
Lemma op_is_update f o n rd b ps : Forall (fun p => 0 <= p < zlen b) ps -> o_size o = Ok (zlen ps) -> (forall i p, znth ps i = Some p -> o_lin c o i = Ok p) ->
  forall w k F, (forall b' i, zlen b' = zlen b -> 0 <= i < zlen ps -> rd b' i = val (zupd w k b') F i) -> n = zlen ps ->
  v_op_array c f o n rd b = ends (store_in_turn w k F f b ps 0).
Proof using zero.
  intros HP HO HL w k F HR ->. unfold v_op_array. rewrite HO. rewrite Z.eqb_refl. assert (check_debug c (Ok true) = Ok tt) as -> by (unfold check_debug; destruct (dbg c); reflexivity).
  cbn [guarded]. unfold update_loop, mfor. replace (Z.to_nat (zlen ps - 0)) with (length ps) by (unfold zlen; lia).
  apply (turn_loop w k F _ (zlen b)); [reflexivity|]. intros j p b' Hj Hb'. rewrite Z.add_0_l. pose proof (znth_lt _ _ _ Hj) as Hj'. rewrite (HR b' j Hb' Hj').
  assert (0 <= p < zlen b') as Hp by (rewrite Hb'; apply (proj1 (Forall_forall _ _) HP), (znth_in _ j), Hj). rewrite (HL j p Hj). cbn [bind].
  destruct (znth_some b' p Hp) as (v & Ev). rewrite (oget_ok _ _ _ Ev). cbn [bind]. destruct (val (zupd w k b') F j); cbn [bind]; auto. destruct (f v a); cbn [bind]; auto. now rewrite oset_ok.
Qed.
Lemma same_len_bad n m (A : Type) (k : outcome A) : checked c = true -> n <> m -> same_len c n m k = Fail (report c).
Proof using zero. intros H1 H2. unfold same_len. rewrite H1. replace (n =? m) with false by lia. reflexivity. Qed.
Lemma guarded_bad n m (r : mut (list V)) b : checked c = true -> n <> m -> guarded (check_debug c (Ok (n =? m))) r b = MFail (report c) b.
Proof using zero.
  intros H1 H2. replace (n =? m) with false by lia. unfold checked, report, check_debug, check_always in *. destruct (dbg c), (exc c), (ndbg c); cbn in *; try discriminate; reflexivity.
Qed.
(** Assignments of both kinds. *)
Lemma store_same s w k ws upd x (loop : obj -> Z -> (list V -> Z -> outcome V) -> list V -> mut (list V)) :
  (forall o n rd b ps, Forall (fun p => 0 <= p < zlen b) ps -> o_size o = Ok (zlen ps) -> (forall i p, znth ps i = Some p -> o_lin c o i = Ok p) ->
     forall w k F, (forall b' i, zlen b' = zlen b -> 0 <= i < zlen ps -> rd b' i = val (zupd w k b') F i) -> n = zlen ps -> loop o n rd b = ends (store_in_turn w k F upd b ps 0)) ->
  (forall o n rd b m, checked c = true -> o_size o = Ok m -> m <> n -> loop o n rd b = MFail (report c) b) ->
  alike s w -> store_ok c w k ws x ->
  lsim (match znth (fst s) k with
      | None => Crash
      | Some a => on s (e <- build c (fst s) (snd s) x ;; n <- lx_size (fst s) e ;; o <- o_chain c (O1 (an a)) ws ;; Ok (e, n, o))
                       (fun '(e, n, o) => back s k a (loop o n (reread c (fst s) k a e) (buf a))) end)
       (spec_store c w k ws upd x).
Proof using zero Hc.
  intros HL HB [H1 H2] (HT & HI & HK). unfold spec_store. pose proof (nth_both _ _ _ k H1) as E. destruct (znth (fst w) k) as [l|] eqn:Ew; [|rewrite E; reflexivity].
  destruct E as (a & -> & Ha). pose proof Ha as [[Hb Hn] Hm]. destruct (HK l eq_refl) as (HC & (ps & Hd) & HU).
  assert (zlen l <= LONG_MAX) as HLm by (unfold cfg_ok in Hc; lia). destruct (target_places l ws ps HLm HC Hd) as (o & Eo & O1' & O2' & O3 & O4).
  assert (target l ws = ps) as HTg by (unfold target; now rewrite Hd). rewrite HTg in *.
  pose proof (formula_same (fst s) (snd s) (fst w) (snd w) x H1 H2 HT) as EF. unfold all_inside in HI. destruct (formula c (fst w) (snd w) x) as [F|f|]; cbn [bind son];
    [|rewrite EF; eexists; split; [reflexivity|split; assumption]|rewrite EF; reflexivity].
  destruct EF as (e & -> & Le). cbn [bind]. destruct (len_same (fst s) (fst w) e H1 F Le) as (-> & Nn). destruct (len (fst w) F) as [n| |] eqn:EL; cbn [bind son on]; [|contradiction|reflexivity].
  rewrite Hn, Eo. cbn [bind on]. destruct (Z.eq_dec (zlen ps) n) as [EN|EN].
  - unfold same_len. replace (zlen ps =? n) with true by lia. cbn [orb son].
    assert (loop o n (reread c (fst s) k a e) (buf a) = ends (store_in_turn (fst w) k F upd l ps 0)) as ->.
    { rewrite Hb. apply HL; auto. intros b' i Hb' Hi. unfold reread. apply val_same; auto; [|lia|apply (HI F n i eq_refl EL); lia].
      apply R_upd; [exact H1|]. split; [split; [reflexivity|cbn; lia]|lia]. }
    pose proof (turn_len (fst w) k F upd ps l 0) as TL. destruct (store_in_turn (fst w) k F upd l ps 0) as [l' [u|f|]]; cbn [fst] in TL; cbn [ends back]; [| |reflexivity];
      eexists; (split; [reflexivity|]); apply alike_upd; auto; (split; [split; [reflexivity|cbn; lia]|lia]).
  - destruct HU as [HU|HU]; [|specialize (HU F eq_refl); congruence]. rewrite same_len_bad by auto. cbn [son]. rewrite (HB _ _ _ _ (zlen ps)) by auto. cbn [back].
    eexists. split; [reflexivity|]. destruct s as [st hs], w as [wl fs]. cbn [fst snd] in *.
    rewrite <- (zupd_id _ wl k l Ew). apply alike_upd; auto.
Qed.

Lemma lstep_same s w t : alike s w -> lrespects zero c w t -> lsim (lstep zero c s t) (spec_lstep zero c w t).
Proof using zero Hc.
  intros HS HR. pose proof HS as [H1 H2]. destruct t as [o|x|h ix|h|x|k ws x|k ws f x|k x]; cbn [lstep spec_lstep lrespects] in *.
  - pose proof (step_R1 zero c Hc (fst s) (fst w) o H1 HR) as E. destruct (spec_step1 zero c (fst w) o) as [w' ob|]; cbn in E.
    + destruct E as (st & -> & E). eexists. split; [reflexivity|]. split; cbn [fst snd]; auto.
    + now rewrite E.
  - pose proof (formula_same (fst s) (snd s) (fst w) (snd w) x H1 H2 HR) as EF. destruct (formula c (fst w) (snd w) x) as [F|f|]; cbn [son].
    + destruct EF as (e & -> & Le). cbn [on]. eexists. split; [reflexivity|]. split; cbn [fst snd]; auto. apply Forall2_app; auto.
    + rewrite EF. eexists. split; [reflexivity|assumption].
    + now rewrite EF.
  - pose proof (nth_both _ _ _ h H2) as E. destruct (znth (snd w) h) as [F|]; [|now rewrite E]. destruct E as (e & -> & Le). unfold lx_src.
    destruct (len_same (fst s) (fst w) e H1 F Le) as (-> & Nn). destruct (len (fst w) F) as [n| |] eqn:EL; cbn [bind son on]; [|contradiction|reflexivity].
    destruct (HR F n eq_refl EL) as (HF & HU & HI). unfold sub1. cbn [ssize sun]. rewrite idx_get_ok by assumption. cbn [bind]. unfold guard.
    destruct (in_range n (denotes n ix)) eqn:ER.
    + replace (valid_index n (denotes n ix)) with true by (unfold valid_index, in_range in *; lia). assert (check_debug c (Ok true) = Ok tt) as -> by (unfold check_debug; destruct (dbg c); reflexivity). cbn [bind].
      unfold in_range in ER. rewrite (val_same (fst s) (fst w) e H1 F (denotes n ix) Le) by (auto; lia).
      destruct (val (fst w) F (denotes n ix)); cbn [on son]; [| |reflexivity]; eexists; (split; [reflexivity|assumption]).
    + destruct HU as [HU|HU]; [|discriminate]. replace (valid_index n (denotes n ix)) with false by (unfold valid_index, in_range in *; lia). assert (check_debug c (Ok false) = Fail (report c)) as -> by (unfold checked, report, check_debug, check_always in *; destruct (dbg c), (exc c), (ndbg c); cbn in *; try discriminate; reflexivity). cbn [bind on son]. eexists. split; [reflexivity|assumption].
  - pose proof (nth_both _ _ _ h H2) as E. destruct (znth (snd w) h) as [F|]; [|now rewrite E]. destruct E as (e & -> & Le).
    destruct (len_same (fst s) (fst w) e H1 F Le) as (-> & Nn). destruct (len (fst w) F) as [n| |]; cbn [son on]; [|contradiction|reflexivity]. eexists. split; [reflexivity|assumption].
  - destruct HR as (HT & HI). pose proof (formula_same (fst s) (snd s) (fst w) (snd w) x H1 H2 HT) as EF. unfold all_inside in HI.
    destruct (formula c (fst w) (snd w) x) as [F|f|]; cbn [bind son]; [|rewrite EF; eexists; split; [reflexivity|assumption]|now rewrite EF].
    destruct EF as (e & -> & Le). cbn [bind]. pose proof (new_same (fst s) (fst w) e F H1 Le (fun n i => HI F n i eq_refl)) as E.
    destruct (elements c (fst w) F); cbn [son]; [destruct E as (a' & -> & E)|rewrite E|now rewrite E]; cbn [on]; (eexists; split; [reflexivity|]); [|assumption].
    split; cbn [fst snd]; auto. apply Forall2_app; auto.
  - apply (store_same s w k ws (fun _ y => Ok y) x (v_assign c)); auto; [exact assign_is_update|].
    intros o n rd b m Hk Ho HN. unfold v_assign. rewrite Ho. now apply guarded_bad.
  - apply (store_same s w k ws f x (v_op_array c f)); auto; [exact (op_is_update f)|].
    intros o n rd b m Hk Ho HN. unfold v_op_array. rewrite Ho. now apply guarded_bad.
  - pose proof (nth_both _ _ _ k H1) as E0. destruct (znth (fst w) k) as [l0|] eqn:Ew; [|now rewrite E0]. destruct E0 as (a0 & -> & _).
    destruct HR as (HT & HI). pose proof (formula_same (fst s) (snd s) (fst w) (snd w) x H1 H2 HT) as EF. unfold all_inside in HI.
    destruct (formula c (fst w) (snd w) x) as [F|f|]; cbn [bind son]; [|rewrite EF; eexists; split; [reflexivity|assumption]|now rewrite EF].
    destruct EF as (e & -> & Le). cbn [bind]. pose proof (new_same (fst s) (fst w) e F H1 Le (fun n i => HI F n i eq_refl)) as E. unfold arr_resize_and_assign.
    destruct (elements c (fst w) F); cbn [son]; [destruct E as (a' & -> & E)|rewrite E|now rewrite E]; cbn [on]; (eexists; split; [reflexivity|]); [|assumption].
    now apply alike_upd.
Qed.
Theorem lrun_same ts : forall s w, alike s w -> lprogram zero c w ts ->
  snd (run (lstep zero c) s ts) = snd (run (spec_lstep zero c) w ts) /\ lsim (fst (run (lstep zero c) s ts)) (fst (run (spec_lstep zero c) w ts)).
Proof using zero Hc.
  induction ts as [|t ts IH]; intros s w HS HP; cbn [run].
  - split; [reflexivity|]. eexists. split; [reflexivity|assumption].
  - destruct HP as (HR & HP). pose proof (lstep_same s w t HS HR) as E. destruct (spec_lstep zero c w t) as [w' ob|]; [|now rewrite E]. destruct E as (s' & -> & HS').
    destruct ob as [|v|n|f]; [| | |destruct (fatal f); [split; [reflexivity|]; eexists; split; [reflexivity|assumption]|]];
    (destruct (IH s' w' HS' HP) as (E1 & E2); destruct (run (lstep zero c) s' ts), (run (spec_lstep zero c) w' ts); cbn [fst snd] in *; now rewrite E1).
Qed.
End P.
