From Verif Require Import Base.Outcome Base.ZList Model.IntModel Model.ScalarOps Model.Index Model.Slice Model.Array1D Model.Array2D Model.View2D Model.Store1D Model.Store2D Model.Iterator Model.Stale.
From Verif Require Import Spec.ArraySpec Spec.SliceSpec Spec.MatrixSpec Spec.Matrix2Spec Spec.Store1DSpec Spec.Store2DSpec Spec.View2DSpec Spec.StaleSpec.
From Verif Require Import Proofs.ScalarProofs Proofs.Array1DProofs Proofs.SliceProofs Proofs.ViewProofs Proofs.Store1DProofs Proofs.MatrixProofs Proofs.Array2DProofs Proofs.Array2DSim Proofs.Array2DSim2 Proofs.Array2DSim3 Proofs.Store2DProofs Proofs.View2DProofs Proofs.View2DOps Proofs.View2DThms Proofs.StaleProofs.
Ltac Zify.zify_post_hook ::= Z.div_mod_to_equations.

Section K.
Context {V : Type} (zero : V) (c : cfg).
Hypothesis Hc : cfg_ok c.

(** ** One-dimensional arrays *)
Definition R1 (a : arr V) l := rep a l /\ zlen l <= amax c.
Definition K1 (r : obj) := exists n, r = O1 n.
Lemma step_R1 st w o : Forall2 R1 st w -> op_long o /\ sound c (spec_step1 zero c w o) -> rsimR R1 (step1 zero c st o) (spec_step1 zero c w o).
Proof using zero Hc.
  intros H [HO HS]. pose proof (step1_refines zero c Hc st w o H HO HS) as E. destruct (spec_step1 zero c w o); exact E.
Qed.
Lemma take_R1 a l k w ws : R1 a l -> chain_ok (whole1 (zlen l)) (w :: ws) ->
  exists o d, o_chain c (O1 (an a)) (w :: ws) = Ok o /\ den_chain (whole1 (zlen l)) (w :: ws) = Some d /\
              same_view c False K1 (mkheld k o) (mksview k (by_number w) 0 d).
Proof using zero Hc.
  intros [[_ HN] HM] HC. pose proof HC as (HT & HF & HO & HR). rewrite HN. pose proof (zlen_nonneg l). unfold cfg_ok in Hc.
  pose proof (whole1_den c (zlen l) ltac:(lia)) as W. destruct (apply_ok c _ _ w W HT HF HO) as (o1 & d1 & E1 & E2 & D).
  cbn [o_chain den_chain]. rewrite E1 in *. rewrite E2. cbn [bind].
  assert (by_number w = true) as HB by (destruct w; try discriminate HT; reflexivity). rewrite HB.
  assert (forall r, K1 r -> o_denotes_by Ok c (rebase r o1) d1) as HD.
  { apply (same_num c K1 (O1 (zlen l)) d1 w); auto; [exists (zlen l); reflexivity|intros r [n ->]; reflexivity|intros r i [n ->]; reflexivity]. }
  destruct (chain_keep c K1 (fun _ => Ok) o1 d1 ws (O1 0)) as (o & d & E3 & E4 & E5 & E6); auto; [exists 0; reflexivity|now apply (apply_inner c (O1 (zlen l)) w)|].
  exists o, d. rewrite E3, E4. repeat split; auto; cbn [v_num v_den h_view]; try discriminate.
  intros p Hp. apply (entries_chain ws d1 d E4), (entries_apply _ _ _ E1) in Hp. cbn in Hp. apply in_znth in Hp as (i & Hi). apply znth_all_positions in Hi; lia.
Qed.
Lemma put_R1 a l q x : R1 a l -> 0 <= q < zlen l -> R1 (mkarr (zupd (buf a) q x) (an a)) (zupd l q x).
Proof using. intros [[-> E] HM] Hq. split; [split; [reflexivity|cbn; now rewrite zlen_zupd]|now rewrite zlen_zupd]. Qed.
Lemma spot_R1 (a : arr V) (l : list V) v p : R1 a l -> 0 <= p -> (v_num v = false -> False /\ 0 < v_cols v) ->
  spot c v (O1 (an a)) p = Ok (place_now v 0 p) \/ (spot c v (O1 (an a)) p = UB /\ ~ 0 <= place_now v 0 p < zlen l).
Proof using. intros _ _ H. left. unfold spot, place_now. destruct (v_num v); [reflexivity|]. destruct (H eq_refl) as [[] _]. Qed.
Notation same1 := (same_world c R1 False K1).
Theorem run1_sim st w ts : represents c st w -> program1 zero c (w, []) ts ->
  snd (run (vstep1 zero c) (st, []) ts) = snd (run (spec_vstep1 zero c) (w, []) ts) /\
  vsim c R1 False K1 (fst (run (vstep1 zero c) (st, []) ts)) (fst (run (spec_vstep1 zero c) (w, []) ts)).
Proof using zero Hc.
  intros HR HP.
  apply (vrun_sim c (step1 zero) (fun a => O1 (an a)) (@buf V) (fun a b => mkarr b (an a)) (spec_step1 zero) (fun l => l) (fun _ => 0) (fun l => whole1 (zlen l)) (@zupd V)
    (fun c w o => op_long o /\ sound c (spec_step1 zero c w o)) R1 False K1).
  - apply step_R1.
  - intros r [n ->]. reflexivity.
  - now intros a l [[-> _] _].
  - intros a l _. eexists. reflexivity.
  - apply put_R1.
  - apply take_R1.
  - apply spot_R1.
  - split; [exact HR|constructor].
  - exact HP.
Qed.

(** ** Two-dimensional arrays *)
Definition R2 (a : arr2 V) M := rep2 a M /\ zlen M * ncols M <= amax c.
Definition K2 (r : obj) := exists m n k, r = O2 m n k.
Lemma step_R2 st w o : Forall2 R2 st w -> op2_long o /\ odd_move c w o = false /\ sound c (spec_step2 zero c w o) -> rsimR R2 (step2 zero c st o) (spec_step2 zero c w o).
Proof using zero Hc. intros H (HO & HD & HS). exact (step2_refines zero c Hc st w o H HO HD HS). Qed.
Lemma obj_R2 a M : R2 a M -> obj_of_arr2 a = O2 (zlen M) (ncols M) (zlen M * ncols M).
Proof using. intros [Hr _]. unfold obj_of_arr2. rewrite (rep2_an a M Hr). destruct Hr as (_ & -> & -> & _). reflexivity. Qed.
Lemma take_R2 a M k w ws : R2 a M -> chain_ok (whole2 (zlen M) (ncols M)) (w :: ws) ->
  exists o d, o_chain c (obj_of_arr2 a) (w :: ws) = Ok o /\ den_chain (whole2 (zlen M) (ncols M)) (w :: ws) = Some d /\
              same_view c True K2 (mkheld k o) (mksview k (by_number w) (ncols M) d).
Proof using zero Hc.
  intros Ha HC. rewrite (obj_R2 a M Ha). destruct Ha as [(Hw & _) HM]. pose proof HC as (HT & HF & HO & HR). pose proof (zlen_nonneg M) as H0. pose proof (ncols_nonneg M) as H1.
  pose proof (wfm_zero M Hw) as HZ. unfold cfg_ok in Hc. assert (zlen M * ncols M <= LONG_MAX) as HL by lia.
  pose proof (whole2_den c (zlen M) (ncols M) H0 H1 HZ HL) as W. destruct (apply_ok c _ _ w W HT HF HO) as (o1 & d1 & E1 & E2 & D).
  cbn [o_chain den_chain]. rewrite E1 in *. rewrite E2. cbn [bind].
  set (v0 := mksview k (by_number w) (ncols M) d1).
  assert (forall r, K2 r -> o_denotes_by (spot c v0 r) c (rebase r o1) d1) as HD.
  { unfold spot, v0. cbn [v_num v_cols]. destruct (by_number w) eqn:HB.
    - apply (same_num c K2 (O2 (zlen M) (ncols M) (zlen M * ncols M)) d1 w); auto; [repeat eexists|intros r (x & y & z & ->); reflexivity|intros r i (x & y & z & ->); reflexivity].
    - intros r _. now apply (same_coord c (zlen M) (ncols M) d1 w o1). }
  destruct (chain_keep c K2 (spot c v0) o1 d1 ws (O2 0 0 0)) as (o & d & E3 & E4 & E5 & E6); auto; [repeat eexists|now apply (apply_inner c (O2 (zlen M) (ncols M) (zlen M * ncols M)) w)|].
  assert (forall p, In p (entries d) -> 0 <= p < zlen M * ncols M) as HE.
  { intros p Hp. apply (entries_chain ws d1 d E4), (entries_apply _ _ _ E1) in Hp. unfold whole2, entries in Hp. apply in_chunks in Hp. apply in_znth in Hp as (i & Hi).
    apply znth_all_positions in Hi; nia. }
  exists o, d. rewrite E3, E4. split; [reflexivity|]. split; [reflexivity|]. split; [reflexivity|]. split; [assumption|]. cbn [v_num v_den v_cols h_view]. split; [intros p Hp; now apply HE|].
  split; [|exact E6]. intros _. split; [exact I|]. split; [assumption|]. intros E0. destruct (entries d) as [|p t]; [reflexivity|]. specialize (HE p (or_introl eq_refl)). nia.
Qed.
Lemma put_R2 a M q x : R2 a M -> 0 <= q < zlen (concat M) ->
  R2 (mkarr2 (drows a) (dcols a) (mkarr (zupd (buf (dat a)) q x) (an (dat a)))) (mput M q x).
Proof using zero Hc.
  intros [Hr HM] Hq. pose proof (rep2_an a M Hr) as EA. pose proof (rep2_len a M Hr) as EL. pose proof (rep2_shape a M Hr) as HS. pose proof (rep2_get a M Hr) as HG.
  destruct Hr as (Hw & Er & Ec & [Eb _]). pose proof (wfm_rect _ Hw) as HR. rewrite (zlen_concat (ncols M)) in Hq by assumption.
  pose proof (ncols_nonneg M). pose proof (zlen_nonneg M). destruct (addr_div (zlen M) (ncols M) q) as (i & j & Hi & Hj & ->); try nia.
  assert ((i * ncols M + j) / ncols M = i /\ (i * ncols M + j) mod ncols M = j) as [Ei Ej].
  { rewrite Z.add_comm, Z.div_add, Z.mod_add by lia. rewrite Z.div_small, Z.mod_small by lia. lia. }
  unfold mput. rewrite Ei, Ej, EA, Er, Ec.
  assert (rect (ncols M) (mset M i j x) /\ zlen (mset M i j x) = zlen M /\
    forall i' j', 0 <= i' -> 0 <= j' -> mget (mset M i j x) i' j' = if (i' =? i) && (j' =? j) then Some x else mget M i' j') as (Q1 & Q2 & Q3).
  { apply (mset_rect zero c Hc a M); auto. split; [exact Hw|]. split; [exact Er|]. split; [exact Ec|]. split; [exact Eb|]. rewrite EA. symmetry. now apply zlen_concat. }
  match goal with |- R2 ?x ?y => assert (rep2 x y) as HP end; [|split; [exact HP|rewrite (size_of _ _ _ _ _ HP); exact HM]].
  apply rep2_intro; auto.
  - now rewrite zlen_zupd.
  - intros i' j' Hi' Hj'. rewrite Q3 by lia. rewrite (get2_zupd (zlen M)) by (auto; lia). now rewrite HG by assumption.
Qed.
Lemma spot_R2 a M v p : R2 a M -> 0 <= p -> (v_num v = false -> True /\ 0 < v_cols v) ->
  spot c v (obj_of_arr2 a) p = Ok (place_now v (ncols M) p) \/ (spot c v (obj_of_arr2 a) p = UB /\ ~ 0 <= place_now v (ncols M) p < zlen (concat M)).
Proof using zero Hc.
  intros Ha Hp Hv. rewrite (obj_R2 a M Ha). destruct Ha as [(Hw & _) HM]. unfold spot, place_now. destruct (v_num v); [now left|]. destruct (Hv eq_refl) as [_ Hv'].
  cbn [o_at]. pose proof (ncols_nonneg M). pose proof (zlen_nonneg M). assert (0 <= p / v_cols v) by (apply Z.div_pos; lia). pose proof (Z.mod_pos_bound p (v_cols v) Hv').
  rewrite (zlen_concat (ncols M)) by now apply wfm_rect. unfold cfg_ok in Hc. assert (zlen M * ncols M <= LONG_MAX) as HL by lia.
  assert (0 <= p / v_cols v * ncols M) as HP by (apply Z.mul_nonneg_nonneg; lia).
  destruct (Z_le_gt_dec (p / v_cols v * ncols M + p mod v_cols v) LONG_MAX) as [HS|HS].
  - left. rewrite lmul_ok by (unfold LONG_MIN; lia). cbn [bind]. apply ladd_ok. unfold LONG_MIN. lia.
  - right. split; [|lia]. unfold lmul, lret. destruct (in_long (p / v_cols v * ncols M)); cbn [bind]; [|reflexivity]. unfold ladd. apply lret_ub. lia.
Qed.
Theorem run2_sim st w ts : represents2 c st w -> program2 zero c (w, []) ts ->
  snd (run (vstep2 zero c) (st, []) ts) = snd (run (spec_vstep2 zero c) (w, []) ts) /\
  vsim c R2 True K2 (fst (run (vstep2 zero c) (st, []) ts)) (fst (run (spec_vstep2 zero c) (w, []) ts)).
Proof using zero Hc.
  intros HR HP.
  apply (vrun_sim c (step2 zero) obj_of_arr2 (fun a => buf (dat a)) (fun a b => mkarr2 (drows a) (dcols a) (mkarr b (an (dat a)))) (spec_step2 zero) (@concat V) (@ncols V)
    (fun M => whole2 (zlen M) (ncols M)) (@mput V) (fun c w o => op2_long o /\ odd_move c w o = false /\ sound c (spec_step2 zero c w o)) R2 True K2).
  - apply step_R2.
  - intros r (m & n & k & ->). reflexivity.
  - now intros a l [(_ & _ & _ & [-> _]) _].
  - intros a l _. unfold K2, obj_of_arr2. eauto.
  - apply put_R2.
  - apply take_R2.
  - apply spot_R2.
  - split; [exact HR|constructor].
  - exact HP.
Qed.

(** ** Statements about programs *)
Theorem program1_sim st w ts : represents c st w -> program1 zero c (w, []) ts ->
  snd (run (vstep1 zero c) (st, []) ts) = snd (run (spec_vstep1 zero c) (w, []) ts) /\
  match fst (run (spec_vstep1 zero c) (w, []) ts) with
  | Crash => fst (run (vstep1 zero c) (st, []) ts) = Crash
  | Next s ob => exists st' hs, fst (run (vstep1 zero c) (st, []) ts) = Next (st', hs) ob /\ represents c st' (fst s)
  end.
Proof using zero Hc.
  intros HR HP. destruct (run1_sim st w ts HR HP) as [E1 E2]. split; [exact E1|]. destruct (fst (run (spec_vstep1 zero c) (w, []) ts)) as [s ob|]; [|exact E2].
  destruct E2 as ([st' hs] & E2 & [E3 _]). eauto.
Qed.
Theorem program2_sim st w ts : represents2 c st w -> program2 zero c (w, []) ts ->
  snd (run (vstep2 zero c) (st, []) ts) = snd (run (spec_vstep2 zero c) (w, []) ts) /\
  match fst (run (spec_vstep2 zero c) (w, []) ts) with
  | Crash => fst (run (vstep2 zero c) (st, []) ts) = Crash
  | Next s ob => exists st' hs, fst (run (vstep2 zero c) (st, []) ts) = Next (st', hs) ob /\ represents2 c st' (fst s)
  end.
Proof using zero Hc.
  intros HR HP. destruct (run2_sim st w ts HR HP) as [E1 E2]. split; [exact E1|]. destruct (fst (run (spec_vstep2 zero c) (w, []) ts)) as [s ob|]; [|exact E2].
  destruct E2 as ([st' hs] & E2 & [E3 _]). eauto.
Qed.

(** ** A view, any operations on the arrays, then a use of the view *)
Section G.
Context {L O : Type} (sstep : cfg -> list L -> O -> res (list L) V) (flat : L -> list V) (width : L -> Z) (all : L -> den) (assign : L -> Z -> V -> L)
        (fits : cfg -> list L -> O -> Prop).
Notation sv := (spec_vstep sstep flat width all assign c).
Fixpoint each (w : list L) (ops : list O) : Prop :=
  match ops with
  | [] => True
  | o :: ops' => fits c w o /\ match sstep c w o with Next w' _ => each w' ops' | Crash => False end
  end.
Lemma own_run ops : forall w vs w' ob t rest, run (sstep c) w ops = (Next w' ob, t) -> valid_run (sstep c) w ops ->
  run sv (w, vs) (map Own ops ++ rest) = (fst (run sv (w', vs) rest), t ++ snd (run sv (w', vs) rest)).
Proof using fits.
  induction ops as [|o ops IH]; intros w vs w' ob t rest E HV; cbn [run map app valid_run] in *.
  - injection E as <- <- <-. now destruct (run sv (w, vs) rest).
  - cbn [spec_vstep fst snd]. destruct (sstep c w o) as [w1 ob1|]; [|contradiction]. destruct (run (sstep c) w1 ops) as [r1 t1] eqn:E1.
    assert (valid_run (sstep c) w1 ops) as HV1 by (destruct ob1; tauto).
    assert (match ob1 with Failed f => fatal f = false | _ => True end) as HF by (destruct ob1; auto; destruct HV as [-> _]; reflexivity).
    assert (r1 = Next w' ob /\ t = ob1 :: t1) as [-> ->].
    { destruct ob1; try (injection E as <- <-; auto). rewrite HF in E. injection E as <- <-. auto. }
    rewrite (IH _ vs _ _ _ rest E1 HV1). destruct ob1; try reflexivity. now rewrite HF.
Qed.
Lemma own_ok ops : forall w vs w' ob t rest, run (sstep c) w ops = (Next w' ob, t) -> valid_run (sstep c) w ops -> each w ops ->
  program_ok sstep flat width all assign fits c (w', vs) rest -> program_ok sstep flat width all assign fits c (w, vs) (map Own ops ++ rest).
Proof using fits.
  induction ops as [|o ops IH]; intros w vs w' ob t rest E HV HE HP; cbn [run map app valid_run each program_ok] in *.
  - now injection E as <- <- <-.
  - destruct HE as [HF HE]. split; [exact HF|]. cbn [spec_vstep fst snd]. destruct (sstep c w o) as [w1 ob1|]; [|exact I]. destruct (run (sstep c) w1 ops) as [r1 t1] eqn:E1.
    assert (valid_run (sstep c) w1 ops) as HV1 by (destruct ob1; tauto).
    assert (match ob1 with Failed f => fatal f = false | _ => True end) as HG by (destruct ob1; auto; destruct HV as [-> _]; reflexivity).
    assert (r1 = Next w' ob) as -> by (destruct ob1; try (injection E as <- <-; reflexivity); rewrite HG in E; injection E as <- <-; reflexivity).
    pose proof (IH _ vs _ _ _ rest E1 HV1 HE HP). destruct ob1; auto. rewrite HG. auto.
Qed.
(** Take a view, run operations, run one statement. *)
Lemma take_run w k l w0 ws d ops w' ob t u : znth w k = Some l -> chain_ok (all l) (w0 :: ws) -> den_chain (all l) (w0 :: ws) = Some d ->
  run (sstep c) w ops = (Next w' ob, t) -> valid_run (sstep c) w ops -> each w ops ->
  let s' := (w', [mksview k (by_number w0) (width l) d]) in respects flat all fits c s' u ->
  program_ok sstep flat width all assign fits c (w, []) (Take k (w0 :: ws) :: map Own ops ++ [u]) /\
  run sv (w, []) (Take k (w0 :: ws) :: map Own ops ++ [u]) = (fst (run sv s' [u]), Done :: t ++ snd (run sv s' [u])).
Proof using fits.
  intros Hk HC HD HR HV HE s' Hu. assert (sv (w, []) (Take k (w0 :: ws)) = Next (w, [mksview k (by_number w0) (width l) d]) Done) as ET.
  { cbn [spec_vstep fst snd]. rewrite Hk, HD. reflexivity. }
  split.
  - cbn [program_ok]. rewrite ET. split; [split; [discriminate|cbn [fst]; intros l0 E0; rewrite Hk in E0; injection E0 as <-; exact HC]|].
    apply (own_ok ops w _ w' ob t [u] HR HV HE). cbn [program_ok]. split; [exact Hu|]. fold s'.
    match goal with |- match ?x with _ => _ end => destruct x as [s2 ob2|] end; [|exact I]. destruct ob2; auto. now destruct (fatal f).
  - cbn [run]. rewrite ET. rewrite (own_run ops w _ w' ob t [u] HR HV). reflexivity.
Qed.
End G.

Lemma each1 ops : forall w, Forall op_long ops -> valid_run (spec_step1 zero c) w ops -> each (spec_step1 zero) (fun c w o => op_long o /\ sound c (spec_step1 zero c w o)) w ops.
Proof using.
  induction ops as [|o ops IH]; intros w HF HV; cbn [each valid_run] in *; [exact I|]. apply Forall_cons_iff in HF as [HF1 HF2]. unfold sound.
  destruct (spec_step1 zero c w o) as [w1 ob1|]; [|contradiction]. split; [split; [assumption|right; destruct ob1; tauto]|]. apply IH; auto. destruct ob1; tauto.
Qed.
Lemma each2 ops : forall w, Forall op2_long ops -> tame zero c w ops -> valid_run (spec_step2 zero c) w ops ->
  each (spec_step2 zero) (fun c w o => op2_long o /\ odd_move c w o = false /\ sound c (spec_step2 zero c w o)) w ops.
Proof using.
  induction ops as [|o ops IH]; intros w HF HT HV; cbn [each valid_run tame] in *; [exact I|]. apply Forall_cons_iff in HF as [HF1 HF2]. destruct HT as [HT1 HT2]. unfold sound.
  destruct (spec_step2 zero c w o) as [w1 ob1|]; [|contradiction]. split; [split; [assumption|split; [assumption|right; destruct ob1; tauto]]|]. apply IH; auto. destruct ob1; tauto.
Qed.

Section F1.
Context (st : list (arr V)) (w w' : list (list V)) (k : Z) (l l' : list V) (ws : list vop) (ps : list Z) (ops : list (op1 V)) (ob : obs V) (t : list (obs V)).
Hypothesis (Hst : represents c st w) (Hl : znth w k = Some l) (Hws : ws <> []) (Hok : chain_ok (whole1 (zlen l)) ws) (Hps : den_chain (whole1 (zlen l)) ws = Some (D1 ps)).
Hypothesis (Hlong : Forall op_long ops) (Hval : valid_run (spec_step1 zero c) w ops) (Hrun : run (spec_step1 zero c) w ops = (Next w' ob, t)) (Hl' : znth w' k = Some l').

Lemma run1_one u w0 ws0 : ws = w0 :: ws0 -> let s' := (w', [mksview k (by_number w0) 0 (D1 ps)]) in
  respects (fun l => l) (fun l => whole1 (zlen l)) (fun c w o => op_long o /\ sound c (spec_step1 zero c w o)) c s' u ->
  let r := run (vstep1 zero c) (st, []) (Take k ws :: map Own ops ++ [u]) in
  snd r = Done :: t ++ snd (run (spec_vstep1 zero c) s' [u]) /\ vsim c R1 False K1 (fst r) (fst (run (spec_vstep1 zero c) s' [u])).
Proof using All.
  intros -> s' Hu. destruct (take_run (spec_step1 zero) (fun l => l) (fun _ => 0) (fun l => whole1 (zlen l)) (@zupd V) (fun c w o => op_long o /\ sound c (spec_step1 zero c w o))
    w k l w0 ws0 (D1 ps) ops w' ob t u Hl Hok Hps Hrun Hval (each1 ops w Hlong Hval) Hu) as [HP HR].
  destruct (run1_sim st w _ Hst HP) as [E1 E2]. unfold spec_vstep1 in E1, E2. rewrite HR in E1, E2. auto.
Qed.
Lemma len1_long : zlen ps <= LONG_MAX.
Proof using All.
  destruct ws as [|w0 ws0]; [contradiction|]. pose proof (R_nth _ _ _ k Hst) as E. rewrite Hl in E. destruct E as (a & _ & [_ Ha]). pose proof (zlen_nonneg l). unfold cfg_ok in Hc.
  destruct (chain_ok_den c (w0 :: ws0) _ _ (whole1_den c (zlen l) ltac:(lia)) Hok) as (o & d & E1 & _ & Hd). rewrite Hps in E1. injection E1 as <-. apply Hd.
Qed.
Theorem follow1 i p : znth ps i = Some p ->
  let r := run (vstep1 zero c) (st, []) (Take k ws :: map Own ops ++ [Get 0 (Plain i)]) in
  match znth l' p with Some x => snd r = Done :: t ++ [Value x] | None => fst r = Crash end.
Proof using All.
  intros Hp. pose proof len1_long as HL. pose proof Hp as HI. apply znth_lt in HI. destruct ws as [|w0 ws0] eqn:Ews; [contradiction|]. rewrite <- Ews in *.
  assert (by_number w0 = true) as HB by (rewrite Ews in Hok; destruct Hok as [HT _]; destruct w0; try discriminate HT; reflexivity).
  assert (in_range (zlen ps) i = true) as HIN by (unfold in_range; lia).
  destruct (run1_one (Get 0 (Plain i)) w0 ws0 Ews) as [E1 E2].
  - cbn [respects]. intros v l0 Ev E0. cbn in Ev. injection Ev as <-. cbn [v_den two places]. split; [reflexivity|]. split; [cbn; unfold is_long, LONG_MIN; lia|]. right. exact HIN.
  - cbv zeta. set (r := run (vstep1 zero c) _ _) in *. clearbody r. cbn [run] in E1, E2. unfold spec_vstep1 in E1, E2. cbn [spec_vstep] in E1, E2. unfold swith in E1, E2. cbn [snd fst znth] in E1, E2.
    change (znth [mksview k (by_number w0) 0 (D1 ps)] 0) with (Some (mksview k (by_number w0) 0 (D1 ps))) in E1, E2. cbn [v_on v_den places denotes] in E1, E2. rewrite Hl' in E1, E2.
    unfold spec_get in E1, E2. rewrite HIN, Hp in E1, E2. unfold place_now in E1, E2. cbn [v_num] in E1, E2. rewrite HB in E1, E2.
    destruct (znth l' p) as [x|]; [exact E1|exact E2].
Qed.
Theorem length1 : snd (run (vstep1 zero c) (st, []) (Take k ws :: map Own ops ++ [Length 0])) = Done :: t ++ [Number (zlen ps)].
Proof using All.
  destruct ws as [|w0 ws0] eqn:Ews; [contradiction|]. rewrite <- Ews in *. destruct (run1_one (Length 0) w0 ws0 Ews I) as [E1 _]. rewrite E1. do 2 f_equal.
  cbn [run]. unfold spec_vstep1. cbn [spec_vstep]. unfold swith. cbn [snd fst].
  change (znth [mksview k (by_number w0) 0 (D1 ps)] 0) with (Some (mksview k (by_number w0) 0 (D1 ps))). cbn [v_on v_den places]. now rewrite Hl'.
Qed.
End F1.

Section F2.
Context (st : list (arr2 V)) (w w' : list (list (list V))) (k : Z) (M M' : list (list V)) (w0 : vop) (ws : list vop) (ops : list (op2 V)) (ob : obs V) (t : list (obs V)).
Hypothesis (Hst : represents2 c st w) (HM : znth w k = Some M) (Hok : chain_ok (whole2 (zlen M) (ncols M)) (w0 :: ws)).
Hypothesis (Hlong : Forall op2_long ops) (Htame : tame zero c w ops) (Hval : valid_run (spec_step2 zero c) w ops) (Hrun : run (spec_step2 zero c) w ops = (Next w' ob, t)) (HM' : znth w' k = Some M').
Definition now (p : Z) : Z := if by_number w0 then p else p / ncols M * ncols M' + p mod ncols M.

Lemma run2_one d u : den_chain (whole2 (zlen M) (ncols M)) (w0 :: ws) = Some d -> let s' := (w', [mksview k (by_number w0) (ncols M) d]) in
  respects (@concat V) (fun M => whole2 (zlen M) (ncols M)) (fun c w o => op2_long o /\ odd_move c w o = false /\ sound c (spec_step2 zero c w o)) c s' u ->
  let r := run (vstep2 zero c) (st, []) (Take k (w0 :: ws) :: map Own ops ++ [u]) in
  snd r = Done :: t ++ snd (run (spec_vstep2 zero c) s' [u]) /\ vsim c R2 True K2 (fst r) (fst (run (spec_vstep2 zero c) s' [u])).
Proof using All.
  intros Hd s' Hu. destruct (take_run (spec_step2 zero) (@concat V) (@ncols V) (fun M => whole2 (zlen M) (ncols M)) (@mput V)
    (fun c w o => op2_long o /\ odd_move c w o = false /\ sound c (spec_step2 zero c w o))
    w k M w0 ws d ops w' ob t u HM Hok Hd Hrun Hval (each2 ops w Hlong Htame Hval) Hu) as [HP HR].
  destruct (run2_sim st w _ Hst HP) as [E1 E2]. unfold spec_vstep2 in E1, E2. rewrite HR in E1, E2. auto.
Qed.
Lemma den2_of d : den_chain (whole2 (zlen M) (ncols M)) (w0 :: ws) = Some d -> exists o, o_denotes c o d.
Proof using All.
  intros Hd. pose proof (R_nth _ _ _ k Hst) as E. rewrite HM in E. destruct E as (a & _ & [Ha HA]). destruct Ha as (Hw & _). pose proof (zlen_nonneg M). pose proof (ncols_nonneg M). unfold cfg_ok in Hc.
  destruct (chain_ok_den c (w0 :: ws) _ _ (whole2_den c (zlen M) (ncols M) ltac:(lia) ltac:(lia) (wfm_zero M Hw) ltac:(lia)) Hok) as (o & d' & E1 & _ & H1).
  rewrite Hd in E1. injection E1 as <-. eauto.
Qed.
Theorem follow2_line ps i p : den_chain (whole2 (zlen M) (ncols M)) (w0 :: ws) = Some (D1 ps) -> znth ps i = Some p ->
  let r := run (vstep2 zero c) (st, []) (Take k (w0 :: ws) :: map Own ops ++ [Get 0 (Plain i)]) in
  match znth (concat M') (now p) with Some x => snd r = Done :: t ++ [Value x] | None => fst r = Crash end.
Proof using All.
  intros Hd Hp r. destruct (den2_of _ Hd) as (o & _ & HL & _). pose proof Hp as HI. apply znth_lt in HI.
  assert (in_range (zlen ps) i = true) as HIN by (unfold in_range; lia).
  destruct (run2_one _ (Get 0 (Plain i)) Hd) as [E1 E2].
  - cbn [respects]. intros v l0 Ev E0. cbn in Ev. injection Ev as <-. cbn [v_den two places]. split; [reflexivity|]. split; [cbn; unfold is_long, LONG_MIN; lia|]. right. exact HIN.
  - fold r in E1, E2. clearbody r. cbn [run] in E1, E2. unfold spec_vstep2 in E1, E2. cbn [spec_vstep] in E1, E2. unfold swith in E1, E2. cbn [snd fst] in E1, E2.
    match type of E1 with context [znth [?v] 0] => change (znth [v] 0) with (Some v) in E1, E2 end. cbn [v_on v_den places denotes] in E1, E2. rewrite HM' in E1, E2.
    unfold spec_get in E1, E2. rewrite HIN, Hp in E1, E2. unfold place_now in E1, E2. cbn [v_num v_cols] in E1, E2. fold (now p) in E1, E2.
    destruct (znth (concat M') (now p)) as [x|]; [exact E1|exact E2].
Qed.
Theorem follow2_block Q i j p : den_chain (whole2 (zlen M) (ncols M)) (w0 :: ws) = Some (D2 Q) -> mget Q i j = Some p ->
  let r := run (vstep2 zero c) (st, []) (Take k (w0 :: ws) :: map Own ops ++ [Get2 0 (Plain i) (Plain j)]) in
  match znth (concat M') (now p) with Some x => snd r = Done :: t ++ [Value x] | None => fst r = Crash end.
Proof using All.
  intros Hd Hp r. destruct (den2_of _ Hd) as (o & Ho). pose proof (den2_dims c _ _ Ho) as [D1 D2]. destruct Ho as (_ & Hw & HL & _). pose proof (mget_in _ _ _ _ _ (wfm_rect _ Hw) Hp) as [Hi Hj].
  assert (in_range (zlen Q) i && in_range (ncols Q) j = true) as HIN by (unfold in_range; lia).
  destruct (run2_one _ (Get2 0 (Plain i) (Plain j)) Hd) as [E1 E2].
  - cbn [respects]. intros v l0 Ev E0. cbn in Ev. injection Ev as <-. cbn [v_den two table]. split; [reflexivity|]. split; [cbn; unfold is_long, LONG_MIN; lia|]. split; [cbn; unfold is_long, LONG_MIN; lia|]. right. exact HIN.
  - fold r in E1, E2. clearbody r. cbn [run] in E1, E2. unfold spec_vstep2 in E1, E2. cbn [spec_vstep] in E1, E2. unfold swith in E1, E2. cbn [snd fst] in E1, E2.
    match type of E1 with context [znth [?v] 0] => change (znth [v] 0) with (Some v) in E1, E2 end. cbn [v_on v_den table denotes] in E1, E2. rewrite HM' in E1, E2.
    unfold spec_get in E1, E2. rewrite HIN, Hp in E1, E2. unfold place_now in E1, E2. cbn [v_num v_cols] in E1, E2. fold (now p) in E1, E2.
    destruct (znth (concat M') (now p)) as [x|]; [exact E1|exact E2].
Qed.
End F2.

(** Rows and blocks. *)
Section RB.
Context (st : list (arr2 V)) (w w' : list (list (list V))) (k : Z) (M M' : list (list V)) (ops : list (op2 V)) (ob : obs V) (t : list (obs V)).
Hypothesis (Hst : represents2 c st w) (HM : znth w k = Some M).
Hypothesis (Hlong : Forall op2_long ops) (Htame : tame zero c w ops) (Hval : valid_run (spec_step2 zero c) w ops) (Hrun : run (spec_step2 zero c) w ops = (Next w' ob, t)) (HM' : znth w' k = Some M').
Lemma facts2 : wfm M /\ 0 <= zlen M /\ 0 <= ncols M /\ zlen M * ncols M <= LONG_MAX.
Proof using All.
  pose proof (R_nth _ _ _ k Hst) as E. rewrite HM in E. destruct E as (a & _ & [Ha HA]). destruct Ha as (Hw & _). pose proof (zlen_nonneg M). pose proof (ncols_nonneg M). unfold cfg_ok in Hc.
  repeat split; auto; try lia; apply Hw.
Qed.
Lemma whole_get : let Q := chunks (zlen M) (ncols M) (all_positions (zlen M * ncols M)) in
  rect (ncols M) Q /\ zlen Q = zlen M /\ (forall i j, 0 <= i < zlen M -> 0 <= j < ncols M -> mget Q i j = Some (i * ncols M + j)) /\ (zlen M <> 0 -> ncols Q = ncols M).
Proof using All.
  destruct facts2 as (Hw & H0 & H1 & HL). intros Q. assert (0 <= zlen M * ncols M) as Hmn by nia.
  destruct (chunks_spec (zlen M) (ncols M) (all_positions (zlen M * ncols M)) H0 H1 (positions_all _ Hmn)) as (CR & CL & CN). fold Q in CR, CL, CN.
  split; [assumption|]. split; [assumption|]. split.
  - intros i j Hi Hj. rewrite CN by assumption. pose proof (addr_range (zlen M) (ncols M) i j Hi Hj) as HA. destruct (znth_some (all_positions (zlen M * ncols M)) (i * ncols M + j)) as [p Hp]; [rewrite positions_all; lia|].
    rewrite Hp. apply znth_all_positions in Hp; [|lia]. destruct Hp as [-> _]. reflexivity.
  - intros HN. apply rect_ncols; auto. apply nonempty_len. lia.
Qed.
Theorem row_after r j : 0 <= r < zlen M -> 0 <= j < ncols M ->
  let x := run (vstep2 zero c) (st, []) (Take k [VwRow (Plain r)] :: map Own ops ++ [Get 0 (Plain j)]) in
  match znth (concat M') (r * ncols M + j) with Some v => snd x = Done :: t ++ [Value v] | None => fst x = Crash end.
Proof using All.
  intros Hr Hj. destruct facts2 as (Hw & H0 & H1 & HL). destruct whole_get as (CR & CL & CN & CC). cbv zeta in *. set (Q := chunks (zlen M) (ncols M) (all_positions (zlen M * ncols M))) in *.
  destruct (znth_some Q r) as [q Eq]; [lia|]. assert (r <= LONG_MAX) as Lr by nia.
  assert (den_chain (whole2 (zlen M) (ncols M)) [VwRow (Plain r)] = Some (D1 q)) as Hd.
  { cbn [den_chain]. unfold whole2. fold Q. cbn [den_apply denotes]. rewrite Eq. reflexivity. }
  apply (follow2_line st w w' k M M' (VwRow (Plain r)) [] ops ob t Hst HM) with (ps := q) (p := r * ncols M + j); auto.
  - cbn [chain_ok]. unfold whole2. fold Q. cbn [vop_typed vop_fits vop_ok den_apply denotes]. rewrite CL, Eq. split; [reflexivity|]. split; [cbn; unfold is_long, LONG_MIN; lia|]. split; [lia|exact I].
  - specialize (CN r j Hr Hj). unfold mget in CN. rewrite Eq in CN. exact CN.
Qed.
Theorem block_after i1 j1 i2 j2 i j : 0 <= i1 <= i2 -> i2 < zlen M -> 0 <= j1 <= j2 -> j2 < ncols M -> 0 <= i <= i2 - i1 -> 0 <= j <= j2 - j1 ->
  let x := run (vstep2 zero c) (st, []) (Take k [VwBlock (Plain i1) (Plain j1) (Plain i2) (Plain j2)] :: map Own ops ++ [Get2 0 (Plain i) (Plain j)]) in
  match znth (concat M') ((i1 + i) * ncols M' + (j1 + j)) with Some v => snd x = Done :: t ++ [Value v] | None => fst x = Crash end.
Proof using All.
  intros Hi1 Hi2 Hj1 Hj2 Hi Hj. destruct facts2 as (Hw & H0 & H1 & HL). destruct whole_get as (CR & CL & CN & CC). cbv zeta in *. set (Q := chunks (zlen M) (ncols M) (all_positions (zlen M * ncols M))) in *.
  specialize (CC ltac:(lia)). set (B := map (run_of j1 (j2 - j1 + 1)) (run_of i1 (i2 - i1 + 1) Q)).
  set (w0 := VwBlock (Plain i1) (Plain j1) (Plain i2) (Plain j2)).
  assert (den_chain (whole2 (zlen M) (ncols M)) [w0] = Some (D2 B)) as Hd by reflexivity.
  assert (zlen M <= LONG_MAX /\ ncols M <= LONG_MAX) as [L1 L2] by nia.
  pose proof (follow2_block st w w' k M M' w0 [] ops ob t Hst HM) as HF. cbv zeta in HF.
  specialize (HF ltac:(cbn [chain_ok]; unfold whole2; fold Q; cbn [vop_typed vop_fits vop_ok den_apply denotes w0]; rewrite CL, CC; cbn [idx_fits]; unfold is_long, LONG_MIN; repeat split; try exact I; lia)).
  specialize (HF Hlong Htame Hval Hrun HM' B i j ((i1 + i) * ncols M + (j1 + j)) Hd).
  unfold B in HF. rewrite mget_run in HF by (rewrite ?CC; auto; lia). rewrite CN in HF by lia. specialize (HF eq_refl).
  unfold now in HF. cbn [by_number w0] in HF. replace (((i1 + i) * ncols M + (j1 + j)) / ncols M) with (i1 + i) in HF.
  - replace (((i1 + i) * ncols M + (j1 + j)) mod ncols M) with (j1 + j) in HF; [exact HF|]. rewrite (Z.add_comm (_ * _)), Z.mod_add by lia. rewrite Z.mod_small; lia.
  - rewrite (Z.add_comm (_ * _)), Z.div_add by lia. rewrite Z.div_small; lia.
Qed.
End RB.

(** ** Iterators *)
Lemma deref1_never_ub st w hs k pos : checked c = true -> represents c st w -> vstep1 zero c (st, hs) (Deref k pos) <> Crash.
Proof using Hc.
  intros Hk HR. unfold vstep1. cbn [vstep fst snd]. pose proof (R_nth _ _ _ k HR) as E. destruct (znth w k) as [l|]; [|rewrite E; discriminate]. destruct E as (a & -> & [[Hb _] _]).
  unfold it_deref, somewhere, it_make, target, it_somewhere. cbn [it_ptr it_pos bind flag_list f_size f_at]. rewrite check_debug_true. cbn [bind].
  destruct ((-1 <? pos) && (pos <? zlen (buf a))) eqn:G.
  - rewrite check_debug_true. cbn [bind]. destruct (znth_some (buf a) pos) as [x Ex]; [lia|]. unfold oget. rewrite Ex. discriminate.
  - rewrite check_debug_false by assumption. discriminate.
Qed.
Lemma deref2_never_ub st w hs k pos : checked c = true -> represents2 c st w -> vstep2 zero c (st, hs) (Deref k pos) <> Crash.
Proof using Hc.
  intros Hk HR. unfold vstep2. cbn [vstep fst snd]. pose proof (R_nth _ _ _ k HR) as E. destruct (znth w k) as [l|]; [|rewrite E; discriminate]. destruct E as (a & -> & _).
  unfold it_deref, somewhere, it_make, target, it_somewhere. cbn [it_ptr it_pos bind flag_list f_size f_at]. rewrite check_debug_true. cbn [bind].
  destruct ((-1 <? pos) && (pos <? zlen (buf (dat a)))) eqn:G.
  - rewrite check_debug_true. cbn [bind]. destruct (znth_some (buf (dat a)) pos) as [x Ex]; [lia|]. unfold oget. rewrite Ex. discriminate.
  - rewrite check_debug_false by assumption. discriminate.
Qed.
End K.
