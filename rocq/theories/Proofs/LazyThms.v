From Verif Require Import Base.Outcome Base.ZList Model.IntModel Model.ScalarOps Model.Index Model.Slice Model.Array1D Model.Array2D Model.View2D Model.Expr Model.ViewAssign Model.Store1D Model.Stale Model.Lazy.
From Verif Require Import Spec.ArraySpec Spec.SliceSpec Spec.MatrixSpec Spec.Matrix2Spec Spec.View2DSpec Spec.Store1DSpec Spec.StaleSpec Spec.LazySpec.
From Verif Require Import Proofs.Array1DProofs Proofs.SliceProofs Proofs.ViewProofs Proofs.Store1DProofs Proofs.Store2DProofs Proofs.View2DProofs Proofs.View2DOps Proofs.View2DThms Proofs.StaleProofs Proofs.StaleThms Proofs.LazyProofs.
Ltac Zify.zify_post_hook ::= Z.div_mod_to_equations.

Section T.
Context {V : Type} (zero : V) (c : cfg).

(** ** An expression built before or after the arrays changed *)
Lemma build_by_sizes (st st' : list (arr V)) hs x : spelled x = true -> (forall k, In k (names x) -> option_map an (znth st k) = option_map an (znth st' k)) ->
  build c st hs x = build c st' hs x /\ forall e, build c st hs x = Ok e -> lx_size st e = lx_size st' e.
Proof using.
  induction x as [k|h|m|f x IH|f x IHx y IHy|f x IH v|f v x IH|x IH ws]; cbn [spelled names build]; intros HF H; try discriminate HF.
  - specialize (H k (or_introl eq_refl)). destruct (znth st k) as [a|] eqn:E1, (znth st' k) as [a'|] eqn:E2; cbn in H; try discriminate H; [|split; [reflexivity|discriminate]].
    injection H as H. split; [reflexivity|]. intros e E. injection E as <-. cbn. now rewrite E1, E2, H.
  - split; [reflexivity|]. destruct m; cbn [bind]; intros e E; try discriminate. now injection E as <-.
  - destruct (IH HF H) as (<- & IH2). split; [reflexivity|]. destruct (build c st hs x) as [a| |]; cbn [bind]; intros e E; try discriminate. injection E as <-. exact (IH2 a eq_refl).
  - apply andb_prop in HF as [F1 F2]. destruct (IHx F1) as (<- & S1); [intros; apply H, in_or_app; auto|]. destruct (IHy F2) as (<- & S2); [intros; apply H, in_or_app; auto|].
    destruct (build c st hs x) as [a| |]; cbn [bind]; [|split; [reflexivity|discriminate]..]. destruct (build c st hs y) as [b| |]; cbn [bind]; [|split; [reflexivity|discriminate]..].
    rewrite <- (S1 a eq_refl), <- (S2 b eq_refl). split; [reflexivity|]. destruct (lx_size st a) as [n| |] eqn:E1; cbn [bind]; try discriminate. destruct (lx_size st b); cbn [bind]; try discriminate.
    destruct (check_debug c _); cbn [bind]; try discriminate. intros e E. injection E as <-. cbn. now rewrite <- (S1 a eq_refl).
  - destruct (IH HF H) as (<- & IH2). destruct (build c st hs x) as [a| |]; cbn [bind]; [|split; [reflexivity|discriminate]..]. rewrite <- (IH2 a eq_refl).
    split; [reflexivity|]. destruct (lx_size st a) as [n| |] eqn:E1; cbn [bind]; try discriminate. destruct (x_const1 c n v); cbn [bind]; try discriminate.
    destruct (check_debug c _); cbn [bind]; try discriminate. intros e E. injection E as <-. cbn. now rewrite <- (IH2 a eq_refl).
  - destruct (IH HF H) as (<- & IH2). destruct (build c st hs x) as [a| |]; cbn [bind]; [|split; [reflexivity|discriminate]..]. rewrite <- (IH2 a eq_refl).
    split; [reflexivity|]. destruct (lx_size st a) as [n| |] eqn:E1; cbn [bind]; try discriminate. destruct (x_const1 c n v); cbn [bind]; try discriminate.
    destruct (check_debug c _); cbn [bind]; try discriminate. intros e E. now injection E as <-.
  - destruct (IH HF H) as (<- & IH2). destruct (build c st hs x) as [a| |]; cbn [bind]; [|split; [reflexivity|discriminate]..]. rewrite <- (IH2 a eq_refl).
    split; [reflexivity|]. destruct (lx_size st a) as [n| |] eqn:E1; cbn [bind]; try discriminate. destruct (o_chain c (O1 n) ws); cbn [bind]; try discriminate.
    intros e E. injection E as <-. cbn. now rewrite <- (IH2 a eq_refl), E1.
Qed.
Lemma ops_run ops : forall st hs st' t rest, run (step1 zero c) st ops = (Next st' Done, t) ->
  run (lstep zero c) (st, hs) (map LOp ops ++ rest) = (fst (run (lstep zero c) (st', hs) rest), t ++ snd (run (lstep zero c) (st', hs) rest)).
Proof using.
  induction ops as [|o ops IH]; intros st hs st' t rest E; cbn [run map app] in *.
  - injection E as <- <-. now destruct (run (lstep zero c) (st, hs) rest).
  - cbn [lstep fst snd]. destruct (step1 zero c st o) as [st1 ob|]; [|discriminate]. destruct ob as [|v|n|f].
    1-3: destruct (run (step1 zero c) st1 ops) as [r1 t1] eqn:E1; injection E as -> <-; rewrite (IH st1 hs st' t1 rest E1); reflexivity.
    destruct (fatal f); [discriminate|]. destruct (run (step1 zero c) st1 ops) as [r1 t1] eqn:E1; injection E as -> <-; rewrite (IH st1 hs st' t1 rest E1); reflexivity.
Qed.
Theorem deferred st st' x ops t u : spelled x = true -> snd (run (lstep zero c) (st, []) [LLet x]) = [Done] -> run (step1 zero c) st ops = (Next st' Done, t) ->
  (forall k, In k (names x) -> option_map an (znth st k) = option_map an (znth st' k)) ->
  exists r s, run (lstep zero c) (st, []) (LLet x :: map LOp ops ++ u) = (r, Done :: t ++ s) /\
              run (lstep zero c) (st, []) (map LOp ops ++ LLet x :: u) = (r, t ++ Done :: s).
Proof using.
  intros HF HB HR HN. destruct (build_by_sizes st st' [] x HF HN) as (EB & _). rewrite (ops_run ops st [] st' t (LLet x :: u) HR).
  cbn [run lstep fst snd] in *. rewrite <- EB. destruct (build c st [] x) as [e|f|]; cbn [on] in *; [|destruct (fatal f); discriminate|discriminate].
  cbn [app] in *. rewrite (ops_run ops st [e] st' t u HR). destruct (run (lstep zero c) (st', [e]) u) as [r s]. exists r, s. split; reflexivity.
Qed.

(** ** f(A, B) kept while A and B change, possibly in size *)
Notation sl := (spec_lstep zero c).
Lemma sops_run ops : forall w fs w' ob t rest, run (spec_step1 zero c) w ops = (Next w' ob, t) -> valid_run (spec_step1 zero c) w ops ->
  run sl (w, fs) (map LOp ops ++ rest) = (fst (run sl (w', fs) rest), t ++ snd (run sl (w', fs) rest)).
Proof using.
  induction ops as [|o ops IH]; intros w fs w' ob t rest E HV; cbn [run map app valid_run] in *.
  - injection E as <- <- <-. now destruct (run sl (w, fs) rest).
  - cbn [spec_lstep fst snd]. destruct (spec_step1 zero c w o) as [w1 ob1|]; [|contradiction]. destruct (run (spec_step1 zero c) w1 ops) as [r1 t1] eqn:E1.
    assert (valid_run (spec_step1 zero c) w1 ops) as HV1 by (destruct ob1; tauto).
    assert (match ob1 with Failed f => fatal f = false | _ => True end) as HF by (destruct ob1; auto; destruct HV as [-> _]; reflexivity).
    assert (r1 = Next w' ob /\ t = ob1 :: t1) as [-> ->].
    { destruct ob1; try (injection E as <- <-; auto). rewrite HF in E. injection E as <- <-. auto. }
    rewrite (IH _ fs _ _ _ rest E1 HV1). destruct ob1; try reflexivity. now rewrite HF.
Qed.
Lemma sops_ok ops : forall w fs w' ob t rest, run (spec_step1 zero c) w ops = (Next w' ob, t) -> valid_run (spec_step1 zero c) w ops -> Forall op_long ops ->
  lprogram zero c (w', fs) rest -> lprogram zero c (w, fs) (map LOp ops ++ rest).
Proof using.
  induction ops as [|o ops IH]; intros w fs w' ob t rest E HV HF HP; cbn [run map app valid_run lprogram] in *.
  - now injection E as <- <- <-.
  - apply Forall_cons_iff in HF as [HF1 HF2]. cbn [lrespects spec_lstep fst snd]. unfold sound.
    destruct (spec_step1 zero c w o) as [w1 ob1|]; [|contradiction]. split; [split; [assumption|right; destruct ob1; tauto]|]. destruct (run (spec_step1 zero c) w1 ops) as [r1 t1] eqn:E1.
    assert (valid_run (spec_step1 zero c) w1 ops) as HV1 by (destruct ob1; tauto).
    assert (match ob1 with Failed f => fatal f = false | _ => True end) as HG by (destruct ob1; auto; destruct HV as [-> _]; reflexivity).
    assert (r1 = Next w' ob) as -> by (destruct ob1; try (injection E as <- <-; reflexivity); rewrite HG in E; injection E as <- <-; reflexivity).
    pose proof (IH _ fs _ _ _ rest E1 HV1 HF2 HP). destruct ob1; auto. rewrite HG. auto.
Qed.
Hypothesis Hc : cfg_ok c.
Theorem kept_binary st w w' (f : V -> V -> outcome V) j k l1 l2 l1' l2' ops ob t i : represents c st w -> znth w j = Some l1 -> znth w k = Some l2 -> zlen l1 = zlen l2 ->
  Forall op_long ops -> valid_run (spec_step1 zero c) w ops -> run (spec_step1 zero c) w ops = (Next w' ob, t) -> znth w' j = Some l1' -> znth w' k = Some l2' ->
  is_long i -> checked c = true \/ 0 <= i < zlen l1' ->
  let r := run (lstep zero c) (st, []) (LLet (XBin f (XArr j) (XArr k)) :: map LOp ops ++ [LSize 0; LGet 0 (Plain i)]) in
  let got v := snd r = Done :: t ++ [Number (zlen l1'); v] in
  if in_range (zlen l1') i then
    match znth l1' i, znth l2' i with
    | Some a, Some b => match f a b with Ok v => got (Value v) | Fail e => got (Failed e) | UB => fst r = Crash end
    | _, _ => fst r = Crash
    end
  else got (Failed (report c)).
Proof using Hc.
  intros HR Hj Hk HL HO HV HE Hj' Hk' Hi Hch. cbv zeta. set (prog := LLet _ :: _).
  set (F := FBin f (FArr j) (FArr k)).
  assert (sl (w, []) (LLet (XBin f (XArr j) (XArr k))) = Next (w, [F]) Done) as E1.
  { cbn [spec_lstep fst snd formula]. rewrite Hj, Hk. cbn [bind len]. rewrite Hj, Hk. cbn [bind]. unfold same_len. rewrite HL, Z.eqb_refl. reflexivity. }
  assert (len w' F = Ok (zlen l1')) as EL by (cbn; now rewrite Hj').
  assert (lprogram zero c (w, []) prog) as HP.
  { unfold prog. cbn [lprogram]. rewrite E1. split; [cbn; auto|]. apply (sops_ok ops w [F] w' ob t _ HE HV HO). cbn [lprogram]. split; [exact I|].
    cbn [spec_lstep fst snd]. rewrite znth_cons_0, EL. cbn [son]. split.
    - cbn [lrespects fst snd]. intros F' n EF EN. rewrite znth_cons_0 in EF. injection EF as <-. rewrite EL in EN. injection EN as <-. cbn [denotes idx_fits].
      split; [exact Hi|]. split; [|cbn; auto]. destruct Hch; [auto|]. right. unfold in_range. lia.
    - match goal with |- match ?x with _ => _ end => destruct x as [s2 ob2|] end; [|exact I]. destruct ob2; auto. now destruct (fatal f0). }
  destruct (lrun_same zero c Hc prog (st, []) (w, [])) as (G1 & G2); [split; [exact HR|constructor]|exact HP|].
  assert (run sl (w, []) prog = (fst (run sl (w', [F]) [LSize 0; LGet 0 (Plain i)]), Done :: t ++ snd (run sl (w', [F]) [LSize 0; LGet 0 (Plain i)]))) as ER.
  { unfold prog. cbn [run]. rewrite E1. rewrite (sops_run ops w [F] w' ob t _ HE HV). reflexivity. }
  assert (sl (w', [F]) (LSize 0) = Next (w', [F]) (Number (zlen l1'))) as E2 by (cbn [spec_lstep fst snd]; change (znth [F] 0) with (Some F); cbv iota beta; now rewrite EL).
  assert (sl (w', [F]) (LGet 0 (Plain i)) = son (w', [F]) (guard c (in_range (zlen l1') i) (val w' F i)) (fun v => Next (w', [F]) (Value v))) as E3.
  { cbn [spec_lstep fst snd]. change (znth [F] 0) with (Some F). cbv iota beta. rewrite EL. cbn [bind denotes]. reflexivity. }
  rewrite ER in G1, G2. cbn [fst snd run] in G1, G2. rewrite E2 in G1, G2. rewrite E3 in G1, G2. unfold guard in G1, G2. destruct (in_range (zlen l1') i) eqn:EI.
  - unfold F in G1, G2. cbn [val] in G1, G2. rewrite Hj', Hk' in G1, G2. unfold oget in G1, G2. destruct (znth l1' i) as [a|]; cbn [bind] in G1, G2; [|exact G2].
    destruct (znth l2' i) as [b|]; cbn [bind] in G1, G2; [|exact G2]. destruct (f a b) as [v|e|]; cbn [son] in G1, G2; [exact G1| |exact G2].
    destruct (fatal e); exact G1.
  - cbn [son] in G1. destruct (fatal (report c)); exact G1.
Qed.

Theorem program_lazy (st : list (arr V)) (w : list (list V)) ts : represents c st w -> lprogram zero c (w, []) ts ->
  snd (run (lstep zero c) (st, []) ts) = snd (run sl (w, []) ts) /\
  match fst (run sl (w, []) ts) with
  | Crash => fst (run (lstep zero c) (st, []) ts) = Crash
  | Next s ob => exists st' hs, fst (run (lstep zero c) (st, []) ts) = Next (st', hs) ob /\ represents c st' (fst s)
  end.
Proof using Hc.
  intros HR HP. destruct (lrun_same zero c Hc ts (st, []) (w, [])) as (G1 & G2); [split; [exact HR|constructor]|exact HP|]. split; [exact G1|].
  destruct (fst (run sl (w, []) ts)) as [s ob|]; cbn [lsim] in G2; [|exact G2]. destruct G2 as ([st' hs] & E & H). exists st', hs. split; [exact E|exact (proj1 H)].
Qed.

(** ** Assignments that read their target *)
Lemma val_after (w : list (list V)) k l l' F : znth w k = Some l -> forall i, (forall p, In p (needs F k i) -> znth l' p = znth l p) -> val (zupd w k l') F i = val w F i.
Proof using.
  intros Hk. pose proof (znth_lt _ _ _ Hk) as Hr. induction F as [k'|n g|f F IH|f F IHF G IHG|ps F IH]; cbn [needs val]; intros i H.
  - rewrite znth_zupd by exact Hr. destruct (k' =? k) eqn:E; [|reflexivity]. assert (k' = k) as -> by lia. rewrite Hk. unfold oget. now rewrite (H i (or_introl eq_refl)).
  - reflexivity.
  - now rewrite IH.
  - rewrite IHF, IHG; auto; intros p Hp; apply H, in_or_app; auto.
  - destruct (znth ps i); [|reflexivity]. now apply IH.
Qed.
Lemma turn_ahead (w : list (list V)) k l F : znth w k = Some l -> forall qs i l0 vs, zlen l0 = zlen l -> Forall (fun p => 0 <= p < zlen l) qs ->
  (forall j q, 0 <= j < zlen qs -> In q (needs F k (i + j)) -> znth l0 q = znth l q) ->
  (forall j j' p, j < j' < zlen qs -> znth qs j = Some p -> ~ In p (needs F k (i + j'))) ->
  listing (val w F) (zseq i (length qs)) = Ok vs -> store_in_turn w k F (fun _ y => Ok y) l0 qs i = (put_all l0 qs vs, Ok tt).
Proof using.
  intros Hk. induction qs as [|p qs IH]; intros i l0 vs HL HF HA HN HV; cbn [length zseq listing store_in_turn put_all] in *; [injection HV as <-; reflexivity|].
  apply Forall_cons_iff in HF as [Hp HF]. destruct (znth_some l0 p ltac:(lia)) as (v & Ev). rewrite (oget_ok _ _ _ Ev). cbn [bind].
  pose proof (zlen_nonneg qs) as Nq. assert (val (zupd w k l0) F i = val w F i) as ->.
  { apply (val_after w k l l0 F Hk). intros q Hq. apply (HA 0 q); [rewrite zlen_cons; lia|]. now rewrite Z.add_0_r. }
  destruct (val w F i) as [y| |]; cbn [bind] in *; try discriminate HV. destruct (listing (val w F) (zseq (i + 1) (length qs))) as [vs'| |] eqn:EV; cbn [bind] in HV; try discriminate HV.
  injection HV as <-. apply IH; auto; [now rewrite zlen_zupd| |].
  - intros j q Hj Hq. rewrite zlen_cons in HA. replace (i + 1 + j) with (i + (1 + j)) in Hq by lia. rewrite znth_zupd by lia. destruct (Z.eqb_spec q p) as [->|].
    + exfalso. apply (HN 0 (1 + j) p); [rewrite zlen_cons; lia|reflexivity|assumption].
    + apply (HA (1 + j)); [lia|assumption].
  - intros j j' q Hj Hq HI. replace (i + 1 + j') with (i + (1 + j')) in HI by lia. pose proof (znth_lt _ _ _ Hq). apply (HN (1 + j) (1 + j') q); [rewrite zlen_cons; lia| |assumption].
    rewrite znth_cons_pos by lia. now replace (1 + j - 1) with j by lia.
Qed.
Lemma put_all_whole (vs : list V) : forall (l d : list V), zlen l = zlen vs -> put_all (d ++ l) (zseq (zlen d) (length l)) vs = d ++ vs.
Proof using.
  induction vs as [|v vs IH]; intros l d H.
  - rewrite (zlen_zero l H). reflexivity.
  - destruct l as [|y l]; [rewrite zlen_nil, zlen_cons in H; pose proof (zlen_nonneg vs); lia|]. cbn [length zseq put_all]. rewrite !zlen_cons in H.
    rewrite zupd_app_r by lia. replace (zlen d - zlen d) with 0 by lia. change (zupd (y :: l) 0 v) with (v :: l). change (d ++ v :: l) with (d ++ [v] ++ l). rewrite app_assoc.
    replace (zlen d + 1) with (zlen (d ++ [v])) by (rewrite zlen_app, zlen_cons, zlen_nil; lia). rewrite IH by lia. now rewrite <- app_assoc.
Qed.
Theorem assign_ahead st w hs fs k l ws x F vs : alike c (st, hs) (w, fs) -> znth w k = Some l -> store_ok c (w, fs) k ws x -> formula c w fs x = Ok F ->
  len w F = Ok (zlen (target l ws)) -> listing (val w F) (all_positions (zlen (target l ws))) = Ok vs -> ahead F k (target l ws) ->
  exists st', lstep zero c (st, hs) (LSet k ws x) = Next (st', hs) Done /\ represents c st' (zupd w k (put_all l (target l ws) vs)).
Proof using Hc.
  intros HA Hk HS HF HL HV HD. pose proof (lstep_same zero c Hc (st, hs) (w, fs) (LSet k ws x) HA HS) as E. cbn [spec_lstep] in E. unfold spec_store in E. cbn [fst snd] in E.
  rewrite Hk, HF in E. cbn [bind] in E. rewrite HL in E. cbn [bind] in E. unfold same_len in E. rewrite Z.eqb_refl in E. cbn [orb son] in E.
  destruct HS as (_ & _ & HS). destruct (HS l Hk) as (HC & (ps & Hd) & _). pose proof HA as [HA1 _]. cbn [fst] in HA1.
  assert (zlen l <= LONG_MAX) as HLm. { pose proof (nth_both _ _ _ k HA1) as E2. rewrite Hk in E2. destruct E2 as (a & _ & [_ E2]). unfold cfg_ok in Hc. lia. }
  destruct (target_places c l ws ps HLm HC Hd) as (o & _ & _ & HP & _ & _). assert (target l ws = ps) as HT by (unfold target; now rewrite Hd). rewrite HT in *.
  rewrite (turn_ahead w k l F Hk ps 0 l vs) in E; auto.
  - destruct E as ([st' hs'] & E & HA'). exists st'. assert (hs' = hs) as ->.
    { cbn [lstep fst snd] in E. destruct (znth st k); [|discriminate]. destruct (_ <- _ ;; _) as [[[e n] o']| |] in E; cbn [on] in E; try discriminate.
      unfold back in E. destruct (v_assign _ _ _ _ _) in E; cbn [fst snd] in E; congruence. }
    split; [exact E|]. exact (proj1 HA').
  - intros j j' p Hj Hp. rewrite Z.add_0_l. now apply (HD j' j).
  - rewrite <- HV. unfold all_positions. now replace (Z.to_nat (zlen ps)) with (length ps) by (unfold zlen; lia).
Qed.
(** Variables holding expressions do not matter where they are not used. *)
Lemma build_spelled (st : list (arr V)) (hs : list (lex V)) x : spelled x = true -> build c st hs x = build c st [] x.
Proof using.
  induction x as [| | |f x IH|f x IHx y IHy|f x IH v|f v x IH|x IH ws]; cbn [spelled build]; intros H; try reflexivity; try discriminate; try (now rewrite IH).
  apply andb_prop in H as [H1 H2]. now rewrite IHx, IHy.
Qed.
Definition with_vars (hs : list (lex V)) (r : res (list (arr V) * list (lex V)) V) : res (list (arr V) * list (lex V)) V :=
  match r with Next s ob => Next (fst s, hs) ob | Crash => Crash end.
Lemma vars_unused st hs t : match t with LSet _ _ x | LUpd _ _ _ x | LRes _ x | LNew x => spelled x = true | _ => False end ->
  lstep zero c (st, hs) t = with_vars hs (lstep zero c (st, []) t).
Proof using.
  destruct t as [| | | |x|k ws x|k ws f x|k x]; intros H; try contradiction; cbn [lstep fst snd]; rewrite (build_spelled st hs x H); try (destruct (znth st k) as [a|]; [|reflexivity]).
  - destruct (_ <- build c st [] x ;; _); reflexivity.
  - destruct (_ <- build c st [] x ;; _) as [[[e n] o]| |]; try reflexivity. cbn [on back]. unfold back. destruct (v_assign _ _ _ _ _); reflexivity.
  - destruct (_ <- build c st [] x ;; _) as [[[e n] o]| |]; try reflexivity. cbn [on back]. unfold back. destruct (v_op_array _ _ _ _ _ _); reflexivity.
  - destruct (_ <- build c st [] x ;; _); reflexivity.
Qed.
Lemma no_vars (st : list (arr V)) (w : list (list V)) : represents c st w -> alike c (st, []) (w, []).
Proof using. intros H. split; [exact H|constructor]. Qed.
Lemma rep_one (st st' : list (arr V)) (w : list (list V)) : represents c st w -> represents c st' w -> st = st'.
Proof using.
  intros H. revert st'. induction H as [|a l st w [[E1 E2] E3] H IH]; intros st' H'; inversion H' as [|b l' st2 w' [[F1 F2] F3] H2]; subst; [reflexivity|]. f_equal; [|now apply IH].
  destruct a, b. cbn in *. now subst.
Qed.

Theorem assign_spelled st hs w k l ws x F vs : represents c st w -> spelled x = true -> znth w k = Some l -> store_ok c (w, []) k ws x -> formula c w [] x = Ok F ->
  len w F = Ok (zlen (target l ws)) -> listing (val w F) (all_positions (zlen (target l ws))) = Ok vs -> ahead F k (target l ws) ->
  exists st', lstep zero c (st, hs) (LSet k ws x) = Next (st', hs) Done /\ represents c st' (zupd w k (put_all l (target l ws) vs)).
Proof using Hc.
  intros HR HX Hk HS HF HL HV HD. destruct (assign_ahead st w [] [] k l ws x F vs (no_vars _ _ HR) Hk HS HF HL HV HD) as (st' & E & H). exists st'. split; [|exact H].
  rewrite vars_unused by exact HX. now rewrite E.
Qed.

(** ** Without views, assignment is the same as computing the right side first *)
Lemma plain_spelled (x : xt V) : plain x = true -> spelled x = true.
Proof using. induction x; cbn; auto; intros H; try discriminate. apply andb_prop in H as [H1 H2]. now rewrite IHx1, IHx2. Qed.
Lemma plain_text (w : list (list V)) (fs : list (form V)) x : plain x = true -> own_sizes x -> text_ok c w fs x.
Proof using. induction x; cbn; auto; intros H; try discriminate. apply andb_prop in H as [H1 H2]. intros [G1 G2]. auto. Qed.
Fixpoint viewless (F : form V) : Prop := match F with FArr _ | FOwn _ _ => True | FUn _ F => viewless F | FBin _ F G => viewless F /\ viewless G | FPick _ _ => False end.
Lemma plain_viewless (w : list (list V)) (fs : list (form V)) x : plain x = true -> forall F, formula c w fs x = Ok F -> viewless F.
Proof using.
  induction x as [k|h|m|f x IH|f x IHx y IHy|f x IH v|f v x IH|x IH ws]; cbn [plain formula]; intros H F E; try discriminate.
  - destruct (znth w k); [|discriminate]. injection E as <-. exact I.
  - destruct m; try discriminate. injection E as <-. exact I.
  - destruct (formula c w fs x) as [G| |]; try discriminate. injection E as <-. exact (IH H _ eq_refl).
  - apply andb_prop in H as [H1 H2]. destruct (formula c w fs x) as [G| |]; try discriminate. destruct (formula c w fs y) as [G'| |]; try discriminate. cbn [bind] in E.
    destruct (len w G); try discriminate. destruct (len w G'); try discriminate. cbn [bind] in E. unfold same_len in E. destruct (_ || _) in E; try discriminate. injection E as <-.
    split; [exact (IHx H1 _ eq_refl)|exact (IHy H2 _ eq_refl)].
  - destruct (formula c w fs x) as [G| |]; try discriminate. cbn [bind] in E. destruct (len w G); try discriminate. injection E as <-. split; [exact (IH H _ eq_refl)|exact I].
  - destruct (formula c w fs x) as [G| |]; try discriminate. cbn [bind] in E. destruct (len w G); try discriminate. injection E as <-. split; [exact I|exact (IH H _ eq_refl)].
Qed.
Lemma viewless_inside F i : viewless F -> inside F i.
Proof using. clear. induction F; cbn; tauto. Qed.
Lemma viewless_needs F k i p : viewless F -> In p (needs F k i) -> p = i.
Proof using.
  clear. induction F as [k'|n g|f F IH|f F IHF G IHG|ps F IH]; cbn; intros H HI; try tauto.
  - destruct (k' =? k); [destruct HI as [->|[]]; reflexivity|destruct HI].
  - apply in_app_or in HI. tauto.
Qed.
Theorem plain_assign st hs st' hs' w k x : represents c st w -> plain x = true -> own_sizes x -> lstep zero c (st, hs) (LRes k x) = Next (st', hs') Done ->
  (forall a a', znth st k = Some a -> znth st' k = Some a' -> an a = an a') -> lstep zero c (st, hs) (LSet k [] x) = Next (st', hs') Done.
Proof using Hc.
  intros HR HP HO HE HN. rewrite vars_unused in * by (now apply plain_spelled). pose proof (no_vars st w HR) as HA.
  assert (text_ok c w [] x) as HT by (now apply plain_text).
  assert (all_inside c w [] x) as HI. { intros F n i HF _ _. apply viewless_inside, (plain_viewless _ _ _ HP _ HF). }
  pose proof (lstep_same zero c Hc (st, []) (w, []) (LRes k x) HA (conj HT HI)) as E. cbn [spec_lstep fst snd] in E.
  destruct (znth w k) as [l|] eqn:Hk; [|cbn [lsim] in E; rewrite E in HE; discriminate].
  destruct (formula c w [] x) as [F| |] eqn:HF; cbn [bind son lsim] in E; [|destruct E as (? & E & _); rewrite E in HE; discriminate|rewrite E in HE; discriminate].
  unfold elements in E. destruct (len w F) as [n| |] eqn:HL; cbn [bind son lsim] in E; [|destruct E as (? & E & _); rewrite E in HE; discriminate|rewrite E in HE; discriminate].
  unfold room in E. destruct (amax c <? n) eqn:EA; cbn [son lsim] in E; [destruct E as (? & E & _); rewrite E in HE; discriminate|].
  destruct (listing (val w F) (all_positions n)) as [vs| |] eqn:HV; cbn [son lsim] in E; [|destruct E as (? & E & _); rewrite E in HE; discriminate|rewrite E in HE; discriminate].
  destruct E as ([st2 hs2] & E & [HA2 _]). cbn [fst] in HA2. rewrite E in HE. cbn [with_vars fst] in HE. injection HE as -> ->.
  pose proof (nth_both _ _ _ k HR) as E1. rewrite Hk in E1. destruct E1 as (a & Ea & [[Eb En] Em]).
  pose proof (nth_both _ _ _ k HA2) as E2. pose proof (znth_lt _ _ _ Hk) as Hr. rewrite znth_zupd in E2 by exact Hr. rewrite Z.eqb_refl in E2. destruct E2 as (a' & Ea' & [[Eb' En'] Em']).
  pose proof (HN a a' Ea Ea') as HN'. 
  assert (0 <= n) as Hn0.
  { pose proof (formula_same c Hc st [] w [] x HR (Forall2_nil _) HT) as G. rewrite HF in G. destruct G as (e & _ & G). destruct (len_same c Hc st w e HR F G) as (_ & G'). rewrite HL in G'. lia. }
  assert (zlen vs = n) as HVn by (rewrite (each_len _ _ _ HV); unfold all_positions; rewrite zlen_zseq; lia).
  assert (zlen (all_positions (zlen l)) = zlen l) as HZ by (unfold all_positions; rewrite zlen_zseq; pose proof (zlen_nonneg l); lia).
  assert (target l [] = all_positions (zlen l)) as HTg by reflexivity.
  assert (store_ok c (w, []) k [] x) as HS.
  { split; [exact HT|]. split; [exact HI|]. intros l0 E0. cbn [fst] in E0. rewrite Hk in E0. injection E0 as <-. split; [exact I|]. split; [eexists; reflexivity|]. right. intros F0 EF0. cbn [fst snd] in *. rewrite HF in EF0.
    injection EF0 as <-. rewrite HL, HTg, HZ. f_equal. lia. }
  destruct (assign_ahead st w [] [] k l [] x F vs HA Hk HS HF) as (st3 & E3 & HR3).
  - rewrite HL, HTg, HZ. f_equal. lia.
  - rewrite HTg, HZ. rewrite <- HV. f_equal. f_equal. lia.
  - intros i j p Hj Hp HI2. rewrite HTg in Hp. apply znth_all_positions in Hp as [Hp _]; [|apply zlen_nonneg]. apply (viewless_needs _ _ _ _ (plain_viewless _ _ _ HP _ HF)) in HI2. lia.
  - rewrite E3. cbn [with_vars fst]. f_equal. f_equal. apply (rep_one _ _ _ HR3). 
    assert (put_all l (target l []) vs = vs) as ->; [|exact HA2].
    rewrite HTg. unfold all_positions. replace (Z.to_nat (zlen l)) with (length l) by (unfold zlen; lia). apply (put_all_whole vs l []). lia.
Qed.

(** ** Compound assignment is assignment of the operation *)
Lemma turn_ext (w : list (list V)) k l (F G : form V) upd upd' qs : znth w k = Some l -> forall i l0, zlen l0 = zlen l ->
  (forall j p l', znth qs j = Some p -> zlen l' = zlen l -> (v <- oget l' p ;; x <- val (zupd w k l') F (i + j) ;; upd v x) = (v <- oget l' p ;; x <- val (zupd w k l') G (i + j) ;; upd' v x)) ->
  store_in_turn w k F upd l0 qs i = store_in_turn w k G upd' l0 qs i.
Proof using.
  intros Hk. induction qs as [|p qs IH]; intros i l0 HL H; cbn [store_in_turn]; [reflexivity|]. pose proof (H 0 p l0 eq_refl HL) as E. rewrite Z.add_0_r in E. rewrite E.
  match goal with |- match ?m with _ => _ end = _ => destruct m end; try reflexivity. apply IH; [now rewrite zlen_zupd|]. intros j q l' Hj Hl. replace (i + 1 + j) with (i + (1 + j)) by lia. apply H; [|assumption].
  pose proof (znth_lt _ _ _ Hj). rewrite znth_cons_pos by lia. now replace (1 + j - 1) with j by lia.
Qed.
Theorem compound st hs w k ws f x : represents c st w -> spelled x = true -> store_ok c (w, []) k ws x ->
  lstep zero c (st, hs) (LUpd k ws f x) = lstep zero c (st, hs) (LSet k ws (XBin f (seen k ws) x)).
Proof using Hc.
  intros HR HX HS. assert (spelled (@seen V k ws) = true) as HX2 by (destruct ws; reflexivity).
  rewrite (vars_unused st hs (LUpd k ws f x)) by exact HX. rewrite (vars_unused st hs (LSet _ _ _)) by (cbn; now rewrite HX2). f_equal. pose proof (no_vars st w HR) as HA.
  assert (forall l, znth w k = Some l -> chain_ok (whole1 (zlen l)) ws -> (exists ps, den_chain (whole1 (zlen l)) ws = Some (D1 ps)) ->
    exists G, formula c w [] (seen k ws) = Ok G /\ len w G = Ok (zlen (target l ws)) /\ (forall i, 0 <= i < zlen (target l ws) -> inside G i) /\
      forall l' i p, zlen l' = zlen l -> znth (target l ws) i = Some p -> val (zupd w k l') G i = oget l' p) as HG.
  { intros l Hk HC (ps & Hd). assert (target l ws = ps) as -> by (unfold target; now rewrite Hd). pose proof (znth_lt _ _ _ Hk) as Hr. destruct ws as [|v ws].
    - cbn in Hd. injection Hd as <-. exists (FArr k). cbn [seen formula len inside val]. rewrite Hk. repeat split; auto.
      + unfold all_positions. rewrite zlen_zseq. f_equal. pose proof (zlen_nonneg l). lia.
      + intros l' i p HL Hp. rewrite znth_zupd by exact Hr. rewrite Z.eqb_refl. apply znth_all_positions in Hp as [-> _]; [reflexivity|apply zlen_nonneg].
    - exists (FPick ps (FArr k)). cbn [seen formula bind len inside val]. rewrite Hk. cbn [bind len]. rewrite Hk. cbn [bind]. rewrite Hd. repeat split; auto.
      + intros i Hi. destruct (znth_some ps i Hi) as (p & Hp). eauto.
      + intros l' i p HL Hp. rewrite Hp. rewrite znth_zupd by exact Hr. now rewrite Z.eqb_refl. }
  pose proof (lstep_same zero c Hc (st, []) (w, []) (LUpd k ws f x) HA HS) as E1. destruct HS as (HT & HI & HK).
  destruct (znth w k) as [l|] eqn:Hk; [|].
  2:{ pose proof (nth_both _ _ _ k HR) as E. rewrite Hk in E. cbn [lstep fst snd]. now rewrite E. }
  cbn [fst snd] in *. destruct (HK l Hk) as (HC & HD & HU). destruct (HG l eq_refl HC HD) as (G & G1 & G2 & G3 & G4).
  assert (store_ok c (w, []) k ws (XBin f (seen k ws) x)) as HS2.
  { split; [|split].
    - cbn [text_ok fst snd]. split; [|exact HT]. destruct ws as [|v ws]; [exact I|]. cbn [seen text_ok formula fst]. split; [exact I|]. split; [discriminate|].
      intros F n. rewrite Hk. intros E E'. injection E as <-. cbn [len] in E'. rewrite Hk in E'. injection E' as <-. auto.
    - cbn [fst snd]. intros F n i. cbn [formula]. rewrite G1. cbn [bind]. destruct (formula c w [] x) as [H| |] eqn:EH; try discriminate. cbn [bind]. rewrite G2. cbn [bind].
      destruct (len w H) as [m| |] eqn:EL; try discriminate. cbn [bind]. unfold same_len. intros EF EN Hi. destruct (zlen (target l ws) =? m) eqn:EM.
      + injection EF as <-. cbn [len] in EN. rewrite G2 in EN. injection EN as <-. split; [auto|]. apply (HI H m i EH EL). lia.
      + destruct HU as [HU|HU]; [rewrite HU in EF; discriminate|]. rewrite (HU H eq_refl) in EL. injection EL as <-. lia.
    - cbn [fst snd]. intros l0 E0. rewrite Hk in E0. injection E0 as <-. split; [auto|]. split; [auto|]. destruct HU as [HU|HU]; [auto|]. right. intros F. cbn [formula]. rewrite G1. cbn [bind].
      destruct (formula c w [] x) as [H| |] eqn:EH; try discriminate. cbn [bind]. rewrite G2, (HU H eq_refl). cbn [bind]. unfold same_len. rewrite Z.eqb_refl. cbn [orb]. intros E. injection E as <-. exact G2. }
  pose proof (lstep_same zero c Hc (st, []) (w, []) (LSet k ws (XBin f (seen k ws) x)) HA HS2) as E2.
  assert (spec_lstep zero c (w, []) (LUpd k ws f x) = spec_lstep zero c (w, []) (LSet k ws (XBin f (seen k ws) x))) as ES.
  { cbn [spec_lstep]. unfold spec_store. cbn [fst snd formula]. rewrite Hk, G1. cbn [bind]. destruct (formula c w [] x) as [H| |] eqn:EH; cbn [bind]; try reflexivity. rewrite G2. cbn [bind].
    destruct (len w H) as [m| |] eqn:EL; cbn [bind son]; try reflexivity. unfold same_len. destruct (zlen (target l ws) =? m) eqn:EM; cbn [orb].
    - cbn [bind len]. rewrite G2. cbn [bind]. rewrite Z.eqb_refl. cbn [orb son].
      assert (store_in_turn w k H f l (target l ws) 0 = store_in_turn w k (FBin f G H) (fun _ y => Ok y) l (target l ws) 0) as ->; [|reflexivity].
      apply (turn_ext w k l); auto. intros j p l' Hj Hl. rewrite Z.add_0_l. cbn [val]. rewrite (G4 l' j p Hl Hj). destruct (oget l' p) as [v| |]; cbn [bind]; try reflexivity.
      destruct (val (zupd w k l') H j) as [y| |]; cbn [bind]; try reflexivity. now destruct (f v y).
    - destruct HU as [HU|HU]; [now rewrite HU|]. rewrite (HU H eq_refl) in EL. injection EL as <-. lia. }
  rewrite ES in E1. destruct (spec_lstep zero c (w, []) (LSet k ws _)) as [[w2 fs2] ob|]; cbn [lsim] in E1, E2; [|now rewrite E1, E2].
  destruct E1 as ([s1 h1] & E1 & A1 & B1), E2 as ([s2 h2] & E2 & A2 & B2). cbn [fst snd] in *. rewrite (vars_unused st [] (LUpd k ws f x)) in E1 by exact HX. rewrite (vars_unused st [] (LSet _ _ _)) in E2 by (cbn; now rewrite HX2).
  rewrite (vars_unused st [] (LUpd k ws f x)) by exact HX. rewrite (vars_unused st [] (LSet _ _ _)) by (cbn; now rewrite HX2). rewrite E1, E2. f_equal. 
  assert (s1 = s2) as -> by (exact (rep_one _ _ _ A1 A2)).
  destruct (lstep zero c (st, []) (LUpd k ws f x)); cbn [with_vars] in E1; [|discriminate]. destruct (lstep zero c (st, []) (LSet k ws _)); cbn [with_vars] in E2; [|discriminate].
  injection E1 as _ <- _. injection E2 as _ <- _. reflexivity.
Qed.
End T.
