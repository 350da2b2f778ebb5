(** Assignment of initializer lists to views. *)
From Verif Require Import Base.Outcome Base.ZList Model.Index Model.Slice Model.Array1D Model.Array2D Model.View2D Model.Expr Model.ViewAssign Model.Reduce.
From Verif Require Import Spec.ArraySpec Spec.SliceSpec Spec.MatrixSpec Spec.Matrix2Spec Spec.FixedSpec Spec.View2DSpec Spec.ExprSpec Spec.ReduceSpec Spec.AssignSpec.
From Verif Require Import Proofs.MatrixProofs Proofs.Array2DSim Proofs.SliceProofs Proofs.View2DProofs Proofs.View2DOps Proofs.View2DThms Proofs.ExprProofs Proofs.ExprMore Proofs.ExprEval Proofs.AssignProofs.

Section LISTS.
Context {V : Type} (c : cfg) (N : Z).
Lemma all_ok {A} (l : list A) i (ox : outcome A) : znth (map Ok l) i = Some ox -> exists x, ox = Ok x /\ znth l i = Some x.
Proof. rewrite znth_map. destruct (znth l i) as [x|]; [|discriminate]. cbn. intros [= <-]. eauto. Qed.
Lemma runs_after (ps : list Z) (l b : list V) r : zlen l = zlen ps -> runs replace b (combine ps (map Ok l)) r -> exists b', r = MOk b' /\ after replace b (combine ps (map Ok l)) b'.
Proof.
  intros HL [(b' & E & A)|(k & p & ox & v & b' & K & _ & _ & R)]; [eauto|exfalso].
  assert (exists x, ox = Ok x) as (x & ->).
  { clear R. apply znth_in in K. apply in_combine_r in K. apply in_map_iff in K as (x & <- & _). eauto. }
  destruct R as [(e & E & _)|(E & _)]; discriminate.
Qed.
Theorem assign_list_runs o ps l (b : list V) : at_places c N o ps -> zlen b = N ->
  (zlen l = zlen ps -> exists b', v_assign_list c o l b = MOk b' /\ after replace b (combine ps (map Ok l)) b') /\
  (zlen l <> zlen ps -> checked c = true -> v_assign_list c o l b = MFail (report c) b).
Proof.
  intros HO HB. pose proof HO as (ES & _). split.
  - intros HL. apply runs_after; [exact HL|]. unfold v_assign_list, v_assign. rewrite ES, HL, Z.eqb_refl, check_debug_true. cbn [guarded].
    apply (store_runs c N o ps (map Ok l) (fun _ => oget l)); auto; [now rewrite zlen_map|]. intros i ox b' Hi _. destruct (all_ok _ _ _ Hi) as (x & -> & X). now apply oget_ok.
  - intros HL K. now apply (assign_bad c N o ps).
Qed.
Lemma list_sizes (L : list (list V)) : list2_sizes L = (zlen (matrix_of L), ncols (matrix_of L)) /\ valid_list2 L = good_list L.
Proof.
  destruct L as [|r L]; [now split|]. destruct r as [|x r].
  - destruct L as [|q L]; [now split|]. unfold list2_sizes, valid_list2. replace (zlen ([] :: q :: L) =? 1) with false by (rewrite !zlen_cons; pose proof (zlen_nonneg L); lia). now split.
  - assert (0 < zlen (x :: r)) as Hr by (rewrite zlen_cons; pose proof (zlen_nonneg r); lia). rewrite sizes_cons, valid_cons, good_cons by assumption. now split.
Qed.
Lemma list_rect (L : list (list V)) : good_list L = true -> rect (ncols (matrix_of L)) (matrix_of L).
Proof.
  intros HG. destruct L as [|r L]; [constructor|]. destruct r as [|x r]; [destruct L; [constructor|discriminate]|].
  assert (0 < zlen (x :: r)) as Hr by (rewrite zlen_cons; pose proof (zlen_nonneg r); lia). rewrite good_cons in HG by assumption. apply Forall_forall. intros q Hq. change (matrix_of ((x :: r) :: L)) with ((x :: r) :: L) in *.
  cbn [ncols]. rewrite forallb_forall in HG. apply HG in Hq. lia.
Qed.
Lemma list_loop (o : obj) (L : list (list V)) b : good_list L = true ->
  mfor 0 (zlen L) (fun i b => match znth L i with
     | Some l => mfor 0 (zlen l) (fun j b => commit b (x <- oget l j ;; p <- o_at c o i j ;; oset b p x)) b
     | None => MUB end) b =
  mfor 0 (zlen (matrix_of L)) (fun i b => mfor 0 (ncols (matrix_of L)) (fun j b => commit b (x <- match mget (matrix_of L) i j with Some x => Ok x | None => UB end ;; p <- o_at c o i j ;; oset b p x)) b) b.
Proof.
  intros HG. pose proof (list_rect L HG) as HR.
  assert (L = [[]] \/ matrix_of L = L) as [->|E] by (destruct L as [|[|x r] [|q L]]; cbn; auto); [reflexivity|]. rewrite E in *.
  unfold mfor. apply mfor_loop_ext. intros i s Hi. destruct (znth_some L i) as (l & El); [lia|]. rewrite El. unfold rect in HR. rewrite Forall_forall in HR. pose proof (HR l (znth_in _ _ _ El)) as Hl. rewrite Hl.
  apply mfor_loop_ext. intros j t Hj. unfold mget. rewrite El. reflexivity.
Qed.
Theorem assign_list2_runs o ps L (b : list V) : is_view c N o -> is_two o = true -> at_places c N o ps -> zlen b = N -> let R := matrix_of L in
  (good_list L = true /\ zlen R = o_rows o /\ ncols R = o_cols o -> exists b', v_assign_list2 c o L b = MOk b' /\ after replace b (combine ps (map Ok (concat R))) b') /\
  (~ (good_list L = true /\ zlen R = o_rows o /\ ncols R = o_cols o) -> checked c = true -> v_assign_list2 c o L b = MFail (report c) b).
Proof.
  intros HV HT HO HB R. pose proof HO as (ES & _). destruct (view_dims _ _ o HV HT) as (R1 & R2 & _ & ES' & _). rewrite ES in ES'. injection ES' as EL.
  destruct (list_sizes L) as (EZ & EV). unfold v_assign_list2. rewrite EZ, EV. fold R. split.
  - intros (HG & E1 & E2). rewrite HG, check_debug_true. cbn [guarded]. rewrite <- E1, <- E2, !Z.eqb_refl, !check_debug_true. cbn [guarded]. rewrite list_loop by exact HG. fold R.
    pose proof (list_rect L HG) as HR. fold R in HR. assert (zlen (concat R) = zlen ps) as HL by (rewrite (zlen_concat _ _ HR); rewrite EL, E1, E2; reflexivity).
    apply runs_after; [exact HL|]. rewrite (mfor_nest _ _ _ (fun k b0 => commit b0 (y <- oget (concat R) k ;; p <- o_lin c o k ;; oset b0 p y))).
    + rewrite E1, E2, <- EL. apply (store_runs c N o ps (map Ok (concat R)) (fun _ => oget (concat R))); auto; [now rewrite zlen_map|]. intros i ox b' Hi _. destruct (all_ok _ _ _ Hi) as (x & -> & X). now apply oget_ok.
    + apply zlen_nonneg.
    + lia.
    + intros i j s Hi Hj. unfold oget. rewrite (concat_get _ _ _ _ HR) by lia. rewrite E1, E2 in *. destruct (linear_view_thm c N o i j HV HT Hi Hj) as (p & _ & -> & ->). reflexivity.
  - intros H K. destruct (good_list L); [|now rewrite (check_debug_false _ K)]. rewrite check_debug_true. cbn [guarded].
    destruct (Z.eqb_spec (o_rows o) (zlen R)); [|now rewrite (check_debug_false _ K)]. rewrite check_debug_true. cbn [guarded].
    destruct (Z.eqb_spec (o_cols o) (ncols R)); [|now rewrite (check_debug_false _ K)]. destruct H. auto.
Qed.
End LISTS.
