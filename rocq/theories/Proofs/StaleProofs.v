From Verif Require Import Base.Outcome Base.ZList Model.IntModel Model.ScalarOps Model.Index Model.Slice Model.Array1D Model.Array2D Model.View2D Model.Store1D Model.Store2D Model.Iterator Model.Stale.
From Verif Require Import Spec.ArraySpec Spec.SliceSpec Spec.MatrixSpec Spec.Matrix2Spec Spec.Store1DSpec Spec.Store2DSpec Spec.View2DSpec Spec.StaleSpec.
From Verif Require Import Proofs.ScalarProofs Proofs.Array1DProofs Proofs.SliceProofs Proofs.ViewProofs Proofs.Store1DProofs Proofs.MatrixProofs Proofs.Array2DProofs Proofs.Array2DSim Proofs.Array2DSim2 Proofs.Array2DSim3 Proofs.Store2DProofs Proofs.View2DProofs Proofs.View2DOps Proofs.View2DThms.
Ltac Zify.zify_post_hook ::= Z.div_mod_to_equations.

Lemma program_cons {L O V} (sstep : cfg -> list L -> O -> res (list L) V) flat width all assign fits c s t ts :
  respects flat all fits c s t ->
  match spec_vstep sstep flat width all assign c s t with
  | Next s' ob => match ob with Failed f => fatal f = true | _ => False end \/ program_ok sstep flat width all assign fits c s' ts
  | Crash => True
  end -> program_ok sstep flat width all assign fits c s (t :: ts).
Proof.
  intros H1 H2. cbn [program_ok]. split; [exact H1|]. destruct (spec_vstep _ _ _ _ _ c s t) as [s' ob|]; [|exact I].
  destruct ob; try (destruct H2; [contradiction|assumption]). destruct (fatal f); [exact I|]. destruct H2; [discriminate|assumption].
Qed.

(** ** Views commute with a change of the array *)
Definition owner (o : obj) : bool := match o with O1 _ | O2 _ _ _ => true | _ => false end.
Definition alike (o o' : obj) : Prop := is_two o = is_two o' /\ o_rows o = o_rows o' /\ o_cols o = o_cols o' /\ o_size o = o_size o'.
Lemma alike_refl o : alike o o. Proof. repeat split. Qed.
Lemma inner_alike r o : owner o = false -> alike (rebase r o) o.
Proof. destruct o; try discriminate; repeat split. Qed.
Definition moved (r : obj) (m : outcome obj) : outcome obj := o <- m ;; Ok (rebase r o).

Section R.
Context (c : cfg) (r : obj).
Ltac go := repeat (reflexivity || match goal with |- context [bind ?m _] => destruct m; cbn [bind] end).
Lemma slice1_move o s : alike (rebase r o) o -> o_slice1 c (rebase r o) s = moved r (o_slice1 c o s).
Proof. intros (_ & _ & _ & E). unfold moved, o_slice1. rewrite E. go. Qed.
Lemma make2_move o s1 s2 : alike (rebase r o) o -> o_make2 c (rebase r o) s1 s2 = moved r (o_make2 c o s1 s2).
Proof. intros (_ & E1 & E2 & _). unfold moved, o_make2. rewrite E1, E2. go. cbn [bind]. destruct (rsize s1 =? 0), (rsize s2 =? 0); reflexivity. Qed.
Lemma bind_ext {A B} (m : outcome A) (f g : A -> outcome B) : (forall x, m = Ok x -> f x = g x) -> bind m f = bind m g.
Proof. destruct m; cbn; auto. Qed.
Lemma bind_bind {A B D} (m : outcome A) (f : A -> outcome B) (g : B -> outcome D) : bind (bind m f) g = bind m (fun x => bind (f x) g).
Proof. now destruct m. Qed.
Ltac pull := unfold moved; rewrite ?bind_bind; apply bind_ext; intros.
Lemma slice2_move o s1 s2 : alike (rebase r o) o -> o_slice2 c (rebase r o) s1 s2 = moved r (o_slice2 c o s1 s2).
Proof.
  intros E. pose proof E as (_ & E1 & E2 & E3). unfold moved, o_slice2, o_resolve2. rewrite E1, E2, E3. do 5 pull. now apply make2_move.
Qed.
Lemma rows_move o s : alike (rebase r o) o -> o_rows_slice c (rebase r o) s = moved r (o_rows_slice c o s).
Proof.
  intros E. pose proof E as (_ & E1 & E2 & E3). unfold moved, o_rows_slice, o_resolve2. rewrite E1, E2, E3. do 4 pull. now apply slice2_move.
Qed.
Lemma cols_move o s : alike (rebase r o) o -> o_cols_slice c (rebase r o) s = moved r (o_cols_slice c o s).
Proof.
  intros E. pose proof E as (_ & E1 & E2 & E3). unfold moved, o_cols_slice, o_resolve2. rewrite E1, E2, E3. do 4 pull. now apply slice2_move.
Qed.
Lemma view1_move o : alike (rebase r o) o -> o_view1 c (rebase r o) = moved r (o_view1 c o).
Proof. intros (_ & _ & _ & E). unfold moved, o_view1. rewrite E. go. Qed.
Lemma view1_inner o v : o_view1 c o = Ok v -> owner v = false.
Proof. unfold o_view1. destruct (o_size o); cbn [bind]; try discriminate. destruct (make_seqn c 0 a 1); cbn [bind]; try discriminate. destruct (check_debug c _); cbn [bind]; try discriminate. now intros [= <-]. Qed.
Lemma through_view1_move o (k : obj -> outcome obj) : alike (rebase r o) o -> (forall v, owner v = false -> k (rebase r v) = moved r (k v)) ->
  (v <- o_view1 c (rebase r o) ;; k v) = moved r (v <- o_view1 c o ;; k v).
Proof.
  intros E H. rewrite view1_move by assumption. unfold moved. rewrite !bind_bind. apply bind_ext. intros v Hv. cbn [bind]. apply H. now apply (view1_inner o).
Qed.
Ltac inner := apply slice1_move; now apply inner_alike.
Lemma row_move o ix : alike (rebase r o) o -> o_row c (rebase r o) ix = moved r (o_row c o ix).
Proof.
  intros E. pose proof E as (_ & E1 & E2 & _). unfold o_row. rewrite E1, E2. pull. pull. pull.
  apply (through_view1_move o (fun v => t <- ladd x1 (o_cols o);; l <- lsub t 1;; o_slice1 c v (Seq x1 l 1)) E).
  intros v Hv. pull. pull. inner.
Qed.
Lemma col_move o ix : alike (rebase r o) o -> o_col c (rebase r o) ix = moved r (o_col c o ix).
Proof.
  intros E. pose proof E as (_ & E1 & E2 & _). unfold o_col. rewrite E1, E2. do 5 pull.
  apply (through_view1_move o (fun v => o_slice1 c v (Seq x x3 (o_cols o))) E). intros v Hv. inner.
Qed.
Lemma diag0_move o : alike (rebase r o) o -> o_diag0 c (rebase r o) = moved r (o_diag0 c o).
Proof.
  intros E. pose proof E as (_ & E1 & E2 & _). unfold o_diag0. rewrite E1, E2.
  apply (through_view1_move o (fun v => s <- ladd (o_cols o) 1;; o_slice1 c v (SeqN 0 (mins (o_rows o) (o_cols o)) s)) E).
  intros v Hv. pull. inner.
Qed.
Lemma diag_move o i : alike (rebase r o) o -> o_diag c (rebase r o) i = moved r (o_diag c o i).
Proof.
  intros E. pose proof E as (_ & E1 & E2 & _). unfold o_diag. rewrite E1, E2. destruct (0 <=? i).
  - refine (through_view1_move o (fun v => check_debug c _ ;;; d <- lsub (o_cols o) i ;; s <- ladd (o_cols o) 1 ;; o_slice1 c v (SeqN i (mins (o_rows o) d) s)) E _).
    intros v Hv. do 3 pull. inner.
  - refine (through_view1_move o (fun v => check_debug c _ ;;; a <- labs i ;; f <- lmul a (o_cols o) ;; d <- lsub (o_rows o) a ;; s <- ladd (o_cols o) 1 ;;
    o_slice1 c v (SeqN f (mins d (o_cols o)) s)) E _).
    intros v Hv. do 5 pull. inner.
Qed.
Lemma view2_move o m n : alike (rebase r o) o -> o_view2 c (rebase r o) m n = moved r (o_view2 c o m n).
Proof.
  intros E. pose proof E as (_ & _ & _ & E3). unfold o_view2. rewrite E3. do 5 pull.
  apply (make2_move (OC2 o m n)). repeat split.
Qed.
Lemma apply_move o w : alike (rebase r o) o -> o_apply c (rebase r o) w = moved r (o_apply c o w).
Proof.
  intros E. pose proof E as (E0 & E1 & E2 & _). unfold o_apply. rewrite E0.
  destruct w, (is_two o); try reflexivity; auto using slice1_move, slice2_move, rows_move, cols_move, row_move, col_move, diag0_move, diag_move, view1_move, view2_move.
  - unfold o_block. rewrite E1, E2. do 4 pull. now apply slice2_move.
  - unfold o_blockN. rewrite E1, E2. do 2 pull. now apply slice2_move.
Qed.

Lemma slice1_inner o s v : o_slice1 c o s = Ok v -> exists q, v = OS1 o q.
Proof.
  unfold o_slice1. destruct (o_size o); cbn [bind]; try discriminate. destruct (slice_resolve c a (a =? 0) s) as [q| |]; cbn [bind]; try discriminate.
  destruct (check_debug c _); cbn [bind]; try discriminate. intros [= <-]. eauto.
Qed.
Lemma make2_inner o s1 s2 v : o_make2 c o s1 s2 = Ok v -> exists q1 q2, v = OS2 o q1 q2.
Proof.
  unfold o_make2. destruct (check_debug c _); cbn [bind]; try discriminate. destruct (check_debug c _); cbn [bind]; try discriminate. intros [= <-].
  destruct (rsize s1 =? 0), (rsize s2 =? 0); eauto.
Qed.
Ltac inv H := match type of H with bind ?m _ = Ok _ => let E := fresh "E" in destruct m eqn:E; cbn [bind] in H; try discriminate H end.
Lemma slice2_inner o s1 s2 v : o_slice2 c o s1 s2 = Ok v -> exists q1 q2, v = OS2 o q1 q2.
Proof. unfold o_slice2. intros H. do 3 inv H. now apply make2_inner in H. Qed.
Lemma view1_inner1 o v : o_view1 c o = Ok v -> exists q, v = OS1 o q.
Proof. unfold o_view1. intros H. do 3 inv H. injection H as <-. eauto. Qed.
(** The forms of the results of a view operation. *)
Lemma apply_form o w v : o_apply c o w = Ok v ->
  if by_number w then (exists q, v = OS1 o q) \/ (exists q q', v = OS1 (OS1 o q) q') \/ (exists m n q1 q2, v = OS2 (OC2 o m n) q1 q2)
  else exists q1 q2, v = OS2 o q1 q2.
Proof.
  assert (forall v s v', o_view1 c o = Ok v -> o_slice1 c v s = Ok v' -> exists q q', v' = OS1 (OS1 o q) q') as HV.
  { intros v1 s v2 H1 H2. apply view1_inner1 in H1 as [q ->]. apply slice1_inner in H2 as [q' ->]. eauto. }
  unfold o_apply. destruct w, (is_two o); cbn [by_number]; try discriminate; intros H.
  - apply slice1_inner in H. auto.
  - now apply slice2_inner in H.
  - unfold o_rows_slice in H. do 2 inv H. now apply slice2_inner in H.
  - unfold o_cols_slice in H. do 2 inv H. now apply slice2_inner in H.
  - unfold o_row in H. do 6 inv H. right. left. eauto.
  - unfold o_col in H. do 6 inv H. right. left. eauto.
  - unfold o_diag0 in H. do 2 inv H. right. left. eauto.
  - unfold o_diag in H. inv H. right. left. destruct (0 <=? i); [do 3 inv H|do 5 inv H]; eauto.
  - unfold o_block in H. do 4 inv H. now apply slice2_inner in H.
  - unfold o_blockN in H. do 2 inv H. now apply slice2_inner in H.
  - apply view1_inner1 in H. auto.
  - apply slice1_inner in H. auto.
  - unfold o_view2 in H. do 5 inv H. apply make2_inner in H. right. right. destruct H as (q1 & q2 & ->). eauto.
  - unfold o_view2 in H. do 5 inv H. apply make2_inner in H. right. right. destruct H as (q1 & q2 & ->). eauto.
Qed.
Lemma apply_inner o w v : o_apply c o w = Ok v -> owner v = false.
Proof. intros H. apply apply_form in H. destruct (by_number w); [destruct H as [(q & ->)|[(q & q' & ->)|(m & n & q1 & q2 & ->)]]|destruct H as (q1 & q2 & ->)]; reflexivity. Qed.
Lemma chain_move ws : forall o, owner o = false -> o_chain c (rebase r o) ws = moved r (o_chain c o ws).
Proof.
  induction ws as [|w ws IH]; intros o Ho; cbn [o_chain]; [reflexivity|]. rewrite apply_move by now apply inner_alike. unfold moved. rewrite !bind_bind. apply bind_ext.
  intros v Hv. cbn [bind]. apply IH. now apply (apply_inner o w).
Qed.
Lemma chain_inner ws : forall o v, owner o = false -> o_chain c o ws = Ok v -> owner v = false.
Proof.
  induction ws as [|w ws IH]; intros o v Ho H; cbn [o_chain] in H; [now injection H as <-|]. destruct (o_apply c o w) as [o'| |] eqn:E; cbn [bind] in H; try discriminate.
  apply (IH o'); auto. now apply (apply_inner o w).
Qed.
End R.
Lemma rebase_again r r' o : owner r' = true -> rebase r (rebase r' o) = rebase r o.
Proof. intros H. induction o; cbn; try congruence; destruct r'; try discriminate; reflexivity. Qed.

(** ** Places *)
Lemma in_concat_mget {A} (Q : list (list A)) i j p : mget Q i j = Some p -> In p (concat Q).
Proof. unfold mget. destruct (znth Q i) eqn:E; [|discriminate]. intros H. apply in_concat. exists l. split; [now apply znth_in in E|now apply znth_in in H]. Qed.
Section P.
Context (c : cfg).
(** Where the element named p of the view v is in the array r. *)
Definition spot (v : sview) (r : obj) (p : Z) : outcome Z := if v_num v then Ok p else o_at c r (p / v_cols v) (p mod v_cols v).
(** The stored view h is the abstract view v, whichever array of its kind it refers to (B: arrays have rows and columns). *)
Definition same_view (B : Prop) (K : obj -> Prop) (h : held) (v : sview) : Prop :=
  h_on h = v_on v /\ owner (h_view h) = false /\ (forall p, In p (entries (v_den v)) -> 0 <= p) /\
  (v_num v = false -> B /\ 0 <= v_cols v /\ (v_cols v = 0 -> entries (v_den v) = [])) /\
  forall r, K r -> o_denotes_by (spot v r) c (rebase r (h_view h)) (v_den v).

Lemma same_num (K : obj -> Prop) a d w : K a -> (forall r, K r -> owner r = true) -> (forall r i, K r -> o_lin c r i = Ok i) ->
  by_number w = true -> forall v, o_apply c a w = Ok v -> o_denotes c v d -> forall r, K r -> o_denotes c (rebase r v) d.
Proof.
  intros Ka HO HL HB v Hv Hd r Kr. apply apply_form in Hv. rewrite HB in Hv. pose proof (HO a Ka) as Oa. pose proof (HO r Kr) as Or.
  assert (rebase r a = r) as Er by (destruct a; try discriminate Oa; reflexivity).
  assert ((forall i, o_lin c (rebase r v) i = o_lin c v i) /\ (is_two v = true -> forall i j, o_at c (rebase r v) i j = o_at c v i j) /\ alike (rebase r v) v) as (E1 & E2 & E0 & E3 & E4 & E5).
  { destruct Hv as [(q & ->)|[(q & q' & ->)|(m & n & q1 & q2 & ->)]]; cbn [rebase]; rewrite Er; (split; [|split; [|repeat split]]); try discriminate.
    - intros i. cbn [o_lin]. apply bind_ext. intros x _. now rewrite !HL.
    - intros i. cbn [o_lin]. apply bind_ext. intros x _. apply bind_ext. intros y _. now rewrite !HL.
    - intros i. cbn [o_lin o_at]. apply bind_ext. intros x _. apply bind_ext. intros y _. apply bind_ext. intros z _. apply bind_ext. intros u _. apply bind_ext. intros t _. now rewrite !HL.
    - intros _ i j. cbn [o_lin o_at]. apply bind_ext. intros x _. apply bind_ext. intros y _. apply bind_ext. intros z _. apply bind_ext. intros u _. now rewrite !HL. }
  unfold o_denotes, o_denotes_by in *. destruct d as [ps|P].
  - rewrite E0, E5. destruct Hd as (H1 & H2 & H3 & H4). repeat split; auto. intros i p Hp. rewrite E1. auto.
  - rewrite E0, E3, E4, E5. destruct Hd as (H1 & H2 & H3 & H4 & H5 & H6 & H7 & H8).
    do 6 (split; [assumption|]). split; [intros i j p Hp; rewrite E2 by assumption|intros k p Hp; rewrite E1]; auto.
Qed.

(** A 2D object of the same shape from which the column of each element can be read off. *)
Definition probe (m n : Z) : obj := OS2 (O2 0 0 0) (RSeq (mkseqn 0 m 1)) (RSeq (mkseqn 0 n 1)).
Lemma probe_at m n x y z : o_at c (probe m n) x y = Ok z -> z = y.
Proof.
  assert (forall a b u, lmul a b = Ok u -> u = a * b) as HM by (unfold lmul, lret; intros a b u; destruct (in_long _); congruence).
  assert (forall a b u, ladd a b = Ok u -> u = a + b) as HA by (unfold ladd, lret; intros a b u; destruct (in_long _); congruence).
  unfold probe. cbn [o_at rmap qstride qstart]. intros H.
  repeat match type of H with bind ?m _ = Ok _ => let E := fresh "E" in destruct m eqn:E; cbn [bind] in H; try discriminate H end.
  repeat match goal with E : bind ?m _ = Ok _ |- _ => let E' := fresh "E" in destruct m eqn:E'; cbn [bind] in E; try discriminate E end.
  repeat match goal with E : lmul _ _ = Ok _ |- _ => apply HM in E | E : ladd _ _ = Ok _ |- _ => apply HA in E end. lia.
Qed.
Lemma probe_den m n : 0 <= m -> 0 <= n -> (m = 0 <-> n = 0) -> m * n <= LONG_MAX -> o_denotes_by (fun p => Ok (p mod n)) c (probe m n) (whole2 m n).
Proof.
  intros Hm Hn HZ HL. destruct (whole2_den c m n Hm Hn HZ HL) as (_ & Hw & H1 & H2 & H3 & _ & H5 & _). cbn [o_rows o_cols] in H2, H3. unfold whole2. set (Q := chunks m n (all_positions (m * n))) in *.
  unfold probe. apply os2_den; [assumption|cbn; lia|cbn; lia|lia|].
  intros i j p E. pose proof (mget_in _ _ _ _ _ (wfm_rect _ Hw) E) as [R1 R2]. apply H5 in E. cbn [o_at] in E.
  assert (0 <= i <= LONG_MAX /\ 0 <= j <= LONG_MAX) as [Li Lj] by nia.
  assert (forall k, 0 <= k <= LONG_MAX -> lmul k 1 = Ok k /\ ladd 0 k = Ok k /\ lmul k 0 = Ok 0) as HK.
  { intros k Hk. rewrite lmul_ok, ladd_ok, lmul_ok by (unfold LONG_MIN, LONG_MAX in *; lia). repeat split; f_equal; lia. }
  destruct (HK i Li) as (I1 & I2 & I3), (HK j Lj) as (J1 & J2 & J3).
  exists i, j. cbn [rmap qstride qstart o_at]. rewrite I1, J1, I3. cbn [bind]. rewrite I2, J2. repeat split. f_equal.
  unfold lmul, ladd, lret in E. destruct (in_long (i * n)); cbn [bind] in E; [|discriminate]. destruct (in_long (i * n + j)); [|discriminate]. injection E as <-.
  rewrite Z.add_comm, Z.mod_add by lia. rewrite Z.mod_small; lia.
Qed.
Lemma same_coord m n d w v : 0 <= m -> 0 <= n -> (m = 0 <-> n = 0) -> m * n <= LONG_MAX ->
  vop_typed (whole2 m n) w = true -> vop_fits (whole2 m n) w -> vop_ok (whole2 m n) w -> den_apply (whole2 m n) w = Some d ->
  by_number w = false -> o_apply c (O2 m n (m * n)) w = Ok v ->
  forall r, o_denotes_by (fun p => o_at c r (p / n) (p mod n)) c (rebase r v) d.
Proof.
  intros Hm Hn HZ HL HT HF HO Ed HB Hv r. pose proof (whole2_den c m n Hm Hn HZ HL) as W. pose proof (probe_den m n Hm Hn HZ HL) as W'.
  destruct (apply_ok c _ _ w W HT HF HO) as (v1 & d1 & E1 & E2 & D1). destruct (apply_ok c _ _ w W' HT HF HO) as (v2 & d2 & E3 & E4 & D2).
  rewrite Ed in E1, E3. injection E1 as <-. injection E3 as <-. rewrite Hv in E2. injection E2 as <-.
  assert (alike (rebase (probe m n) (O2 m n (m * n))) (O2 m n (m * n))) as HA.
  { repeat split. cbn [rebase probe o_size rsize qsize]. apply lmul_ok. unfold LONG_MIN. nia. }
  pose proof (apply_move c (probe m n) (O2 m n (m * n)) w HA) as HM. cbn [rebase] in HM. rewrite E4, Hv in HM. cbn in HM. injection HM as ->.
  apply apply_form in Hv. rewrite HB in Hv. destruct Hv as (q1 & q2 & ->). cbn [rebase] in *.
  destruct d as [ps|Q]; [destruct D1; discriminate|]. destruct D1 as (_ & G1 & G2 & G3 & G4 & _ & G6 & _), D2 as (_ & _ & _ & _ & _ & _ & G7 & _).
  apply os2_den; auto. intros i j p E. specialize (G6 _ _ _ E). specialize (G7 _ _ _ E). cbn [o_at] in G6.
  change (o_at c (OS2 (probe m n) q1 q2) i j) with (x <- rmap q1 i ;; y <- rmap q2 j ;; o_at c (probe m n) x y) in G7.
  destruct (rmap q1 i) as [x| |] eqn:Ex; cbn [bind] in *; try discriminate. destruct (rmap q2 j) as [y| |] eqn:Ey; cbn [bind] in *; try discriminate.
  exists x, y. repeat split. apply probe_at in G7. unfold lmul, ladd, lret in G6. destruct (in_long (x * n)); cbn [bind] in G6; [|discriminate].
  destruct (in_long (x * n + y)); [|discriminate]. injection G6 as G6.
  assert (n <> 0) as Nn.
  { intros N0. assert (m = 0) as M0 by tauto. assert (In p (entries (D2 Q))) as HI by (cbn; apply (in_concat_mget Q i j p E)).
    apply (entries_apply _ _ _ Ed) in HI. unfold whole2, entries in HI. apply in_chunks in HI. rewrite M0 in HI. apply in_znth in HI as (k & HI). apply znth_all_positions in HI; lia. }
  replace (p / n) with x; [now rewrite G7|]. subst y. apply (Z.div_unique_pos p n x (p mod n)); [apply Z.mod_pos_bound; lia|lia].
Qed.

Lemma chain_keep (K : obj -> Prop) (G : obj -> Z -> outcome Z) o d ws r0 : K r0 -> owner o = false -> chain_ok d ws ->
  (forall r, K r -> o_denotes_by (G r) c (rebase r o) d) ->
  exists o' d', o_chain c o ws = Ok o' /\ den_chain d ws = Some d' /\ owner o' = false /\ (forall r, K r -> o_denotes_by (G r) c (rebase r o') d').
Proof.
  intros K0 Ho HC HG. destruct (chain_ok_den c ws _ _ (HG r0 K0) HC) as (v0 & d' & E1 & E2 & _). rewrite chain_move in E2 by assumption.
  destruct (o_chain c o ws) as [o'| |] eqn:E; try discriminate E2. exists o', d'. repeat split; auto; [now apply (chain_inner c ws o)|].
  intros r Kr. destruct (chain_ok_den c ws _ _ (HG r Kr) HC) as (v & d2 & E3 & E4 & H). rewrite E3 in E1. injection E1 as ->.
  rewrite chain_move, E in E4 by assumption. cbn in E4. injection E4 as <-. exact H.
Qed.

(** ** Programs *)
Section W.
Context {X L O V : Type} (step : cfg -> list X -> O -> res (list X) V) (rt : X -> obj) (mem : X -> list V) (with_mem : X -> list V -> X).
Context (sstep : cfg -> list L -> O -> res (list L) V) (flat : L -> list V) (width : L -> Z) (all : L -> den)
        (assign : L -> Z -> V -> L) (fits : cfg -> list L -> O -> Prop).
Context (R : X -> L -> Prop) (B : Prop) (K : obj -> Prop).
Hypothesis Hstep : forall st w o, Forall2 R st w -> fits c w o -> rsimR R (step c st o) (sstep c w o).
Hypothesis Hown : forall r, K r -> owner r = true.
Hypothesis Hmem : forall a l, R a l -> mem a = flat l.
Hypothesis HK : forall a l, R a l -> K (rt a).
Hypothesis Hput : forall a l q x, R a l -> 0 <= q < zlen (flat l) -> R (with_mem a (zupd (mem a) q x)) (assign l q x).
Hypothesis Htake : forall a l k w ws, R a l -> chain_ok (all l) (w :: ws) ->
  exists o d, o_chain c (rt a) (w :: ws) = Ok o /\ den_chain (all l) (w :: ws) = Some d /\ same_view B K (mkheld k o) (mksview k (by_number w) (width l) d).
Hypothesis Hspot : forall a l v p, R a l -> 0 <= p -> (v_num v = false -> B /\ 0 < v_cols v) ->
  spot v (rt a) p = Ok (place_now v (width l) p) \/ (spot v (rt a) p = UB /\ ~ 0 <= place_now v (width l) p < zlen (flat l)).

Notation vstep := (vstep step rt mem with_mem).
Notation spec_vstep := (spec_vstep sstep flat width all assign).
Definition same_world (s : list X * list held) (w : list L * list sview) : Prop :=
  Forall2 R (fst s) (fst w) /\ Forall2 (same_view B K) (snd s) (snd w).
Definition vsim (m : res (list X * list held) V) (n : res (list L * list sview) V) : Prop :=
  match n with Next w ob => exists s, m = Next s ob /\ same_world s w | Crash => m = Crash end.

Lemma vsim_next s w ob : same_world s w -> vsim (Next s ob) (Next w ob).
Proof. intros H. exists s. auto. Qed.
Lemma vsim_with s w h k k' : same_world s w ->
  (forall hv v a l, same_view B K hv v -> R a l -> znth (snd w) h = Some v -> znth (fst w) (v_on v) = Some l -> znth (fst s) (v_on v) = Some a ->
     vsim (k (v_on v) a (rebase (rt a) (h_view hv))) (k' v l)) ->
  vsim (with_view rt s h k) (swith w h k').
Proof.
  intros HS H. pose proof HS as [H1 H2]. unfold with_view, swith. pose proof (R_nth _ _ _ h H2) as E. destruct (znth (snd w) h) as [v|] eqn:Ev.
  - destruct E as (hv & -> & Hv). pose proof Hv as (Hon & _). rewrite Hon. pose proof (R_nth _ _ _ (v_on v) H1) as E. destruct (znth (fst w) (v_on v)) as [l|] eqn:El.
    + destruct E as (a & Ea & Ha). rewrite Ea. now apply (H hv v a l).
    + rewrite E. now apply vsim_next.
  - rewrite E. now apply vsim_next.
Qed.
Lemma sim_get s w v a l p : same_world s w -> R a l -> 0 <= p -> (v_num v = false -> B /\ 0 < v_cols v) ->
  vsim (show s Value (q <- spot v (rt a) p ;; oget (mem a) q)) (spec_get flat width c w v l true (Some p)).
Proof.
  intros HS Ha Hp Hv. unfold spec_get. rewrite (Hmem a l Ha). destruct (Hspot a l v p Ha Hp Hv) as [E|[E HN]]; rewrite E; cbn [bind].
  - unfold oget. destruct (znth (flat l) (place_now v (width l) p)); [now apply vsim_next|reflexivity].
  - destruct (znth (flat l) (place_now v (width l) p)) eqn:E1; [|reflexivity]. exfalso. apply HN. now apply znth_lt in E1.
Qed.
Lemma sim_put s w v a l p x : same_world s w -> R a l -> 0 <= p -> (v_num v = false -> B /\ 0 < v_cols v) ->
  vsim (store mem with_mem s (v_on v) a (spot v (rt a) p) x) (spec_put flat width assign c w v l true (Some p) x).
Proof.
  intros [HS1 HS2] Ha Hp Hv. unfold spec_put, store. cbv zeta. destruct (Hspot a l v p Ha Hp Hv) as [E|[E HN]]; rewrite E; cbn [bind].
  - destruct (in_range (zlen (flat l)) (place_now v (width l) p)) eqn:G; unfold in_range in G.
    + rewrite oset_ok by (rewrite (Hmem a l Ha); lia). eexists. split; [reflexivity|]. split; [|exact HS2]. cbn [fst]. apply R_upd; auto. apply Hput; auto. lia.
    + rewrite oset_ub by (rewrite (Hmem a l Ha); lia). reflexivity.
  - replace (in_range _ _) with false; [reflexivity|]. symmetry. unfold in_range. lia.
Qed.
Lemma entry_ok hv v p : same_view B K hv v -> In p (entries (v_den v)) -> 0 <= p /\ (v_num v = false -> B /\ 0 < v_cols v).
Proof.
  intros (_ & _ & H1 & H2 & _) HI. split; [auto|]. intros E. destruct (H2 E) as (H0 & H3 & H4). split; [exact H0|]. assert (v_cols v <> 0); [|lia]. intros E0. rewrite (H4 E0) in HI. destruct HI.
Qed.
Lemma spec_get_out w v l p : spec_get flat width c w v l false p = Next w (Failed (report c)).
Proof. reflexivity. Qed.

(** References through stored views. *)
Lemma ref1_case hv v a l ix : same_view B K hv v -> R a l -> two (v_den v) = false ->
  let ps := places (v_den v) in idx_fits (zlen ps) ix -> (checked c = true \/ in_range (zlen ps) (denotes (zlen ps) ix) = true) ->
  if in_range (zlen ps) (denotes (zlen ps) ix)
  then exists p, znth ps (denotes (zlen ps) ix) = Some p /\ In p (entries (v_den v)) /\ o_ref1 c (rebase (rt a) (h_view hv)) ix = spot v (rt a) p
  else o_ref1 c (rebase (rt a) (h_view hv)) ix = Fail (report c).
Proof.
  intros Hv Ha H2 ps Hf Hc. destruct Hv as (_ & _ & _ & _ & Hd). specialize (Hd _ (HK _ _ Ha)). subst ps. destruct (v_den v) as [ps|P]; [|discriminate]. cbn [places entries] in *.
  destruct Hd as (_ & HL & Hs & Hl). pose proof (zlen_nonneg ps). unfold o_ref1. rewrite Hs. cbn [bind]. rewrite idx_get_ok by (auto; lia). cbn [bind].
  set (i := denotes (zlen ps) ix) in *. change (valid_index (zlen ps) i) with ((-1 <? i) && (i <? zlen ps)).
  destruct (in_range (zlen ps) i) eqn:G; unfold in_range in G.
  - replace ((-1 <? i) && (i <? zlen ps)) with true by lia. rewrite check_debug_true. cbn [bind]. destruct (znth_some ps i) as [p Ep]; [lia|]. exists p.
    repeat split; auto. now apply znth_in in Ep.
  - replace ((-1 <? i) && (i <? zlen ps)) with false by lia. destruct Hc as [Hc|Hc]; [|discriminate]. rewrite check_debug_false by assumption. reflexivity.
Qed.
Lemma ref2_case hv v a l ix jx : same_view B K hv v -> R a l -> two (v_den v) = true ->
  let P := table (v_den v) in let i := denotes (zlen P) ix in let j := denotes (ncols P) jx in
  idx_fits (zlen P) ix -> idx_fits (ncols P) jx -> (checked c = true \/ in_range (zlen P) i && in_range (ncols P) j = true) ->
  if in_range (zlen P) i && in_range (ncols P) j
  then exists p, mget P i j = Some p /\ In p (entries (v_den v)) /\ o_ref2 c (rebase (rt a) (h_view hv)) ix jx = spot v (rt a) p
  else o_ref2 c (rebase (rt a) (h_view hv)) ix jx = Fail (report c).
Proof.
  intros Hv Ha H2 P i j Hf1 Hf2 Hc. destruct Hv as (_ & _ & _ & _ & Hd). specialize (Hd _ (HK _ _ Ha)). subst P i j. destruct (v_den v) as [ps|P]; [discriminate|]. cbn [table entries] in *.
  pose proof (den2_dims c _ _ Hd) as [D1 D2]. destruct Hd as (_ & Hw & HL & Hr & Hcl & _ & Ht & _). unfold o_ref2. rewrite Hr, Hcl. rewrite !idx_get_ok by assumption. cbn [bind].
  set (i := denotes (zlen P) ix) in *. set (j := denotes (ncols P) jx) in *. 
  replace (valid_index2 (zlen P) (ncols P) i j) with (in_range (zlen P) i && in_range (ncols P) j) by (unfold valid_index2, valid_row, valid_col, in_range; lia).
  destruct (in_range (zlen P) i && in_range (ncols P) j) eqn:G; unfold in_range in G.
  - rewrite check_debug_true. cbn [bind]. destruct (mget_some (ncols P) P i j) as [p Ep]; [now apply wfm_rect|lia|lia|]. exists p. repeat split; auto. now apply in_concat_mget in Ep.
  - destruct Hc as [Hc|Hc]; [|discriminate]. rewrite check_debug_false by assumption. reflexivity.
Qed.

Lemma vstep_sim s w t : same_world s w -> respects flat all fits c w t -> vsim (vstep c s t) (spec_vstep c w t).
Proof.
  intros HS. pose proof HS as [H1 H2]. destruct t as [o|k ws|h ws|h ix|h ix jx|h ix x|h ix jx x|h|h|h|k pos]; cbn [respects Stale.vstep StaleSpec.spec_vstep]; intros HR.
  - pose proof (Hstep (fst s) (fst w) o H1 HR) as E. destruct (sstep c (fst w) o) as [w' ob|]; cbn in E.
    + destruct E as (st & -> & E). eexists. split; [reflexivity|]. split; [exact E|exact H2].
    + rewrite E. reflexivity.
  - destruct HR as [HN HR]. pose proof (R_nth _ _ _ k H1) as E. destruct (znth (fst w) k) as [l|] eqn:El; [|rewrite E; now apply vsim_next].
    destruct E as (a & -> & Ha). destruct ws as [|w0 ws]; [contradiction|]. destruct (Htake a l k w0 ws Ha (HR l eq_refl)) as (o & d & E1 & E2 & E3). rewrite E1, E2. cbn [keep_view].
    eexists. split; [reflexivity|]. split; [exact H1|]. now apply R_app.
  - apply vsim_with; [assumption|]. intros hv v a l Hv Ha Ev El Ea. specialize (HR v l Ev El). pose proof Hv as (Hon & Hin & Hp & Hc0 & Hd).
    destruct (chain_keep K (spot v) (h_view hv) (v_den v) ws (rt a) (HK a l Ha) Hin HR Hd) as (o' & d' & E1 & E2 & E3 & E4).
    rewrite chain_move by assumption. rewrite E1. cbn [moved bind keep_view]. rewrite E2. eexists. split; [reflexivity|]. split; [exact H1|]. apply R_app; [assumption|].
    assert (forall p, In p (entries d') -> In p (entries (v_den v))) as HE by exact (entries_chain ws (v_den v) d' E2).
    split; [reflexivity|]. cbn [h_view v_den v_num v_cols]. split; [destruct o'; try discriminate; reflexivity|]. split; [auto|]. split.
    + intros En. destruct (Hc0 En) as (C0 & C1 & C2). split; [assumption|]. split; [assumption|]. intros C3. destruct (entries d') as [|p t] eqn:Ed; [reflexivity|]. exfalso. specialize (HE p (or_introl eq_refl)). rewrite (C2 C3) in HE. destruct HE.
    + intros r Kr. rewrite rebase_again by now apply Hown, (HK a l). exact (E4 r Kr).
  - apply vsim_with; [assumption|]. intros hv v a l Hv Ha Ev El Ea. specialize (HR v l Ev El) as (HT & HF & HC). pose proof (ref1_case hv v a l ix Hv Ha HT HF HC) as E. cbv zeta in *.
    destruct (in_range _ _).
    + destruct E as (p & -> & Hp & ->). destruct (entry_ok hv v p Hv Hp). now apply sim_get.
    + rewrite E. now apply vsim_next.
  - apply vsim_with; [assumption|]. intros hv v a l Hv Ha Ev El Ea. specialize (HR v l Ev El) as (HT & HF & HF2 & HC). pose proof (ref2_case hv v a l ix jx Hv Ha HT HF HF2 HC) as E. cbv zeta in *.
    destruct (in_range _ _ && _).
    + destruct E as (p & -> & Hp & ->). destruct (entry_ok hv v p Hv Hp). now apply sim_get.
    + rewrite E. now apply vsim_next.
  - apply vsim_with; [assumption|]. intros hv v a l Hv Ha Ev El Ea. specialize (HR v l Ev El) as (HT & HF & HC). pose proof (ref1_case hv v a l ix Hv Ha HT HF HC) as E. cbv zeta in *.
    destruct (in_range _ _).
    + destruct E as (p & -> & Hp & ->). destruct (entry_ok hv v p Hv Hp). now apply sim_put.
    + unfold store. rewrite E. now apply vsim_next.
  - apply vsim_with; [assumption|]. intros hv v a l Hv Ha Ev El Ea. specialize (HR v l Ev El) as (HT & HF & HF2 & HC). pose proof (ref2_case hv v a l ix jx Hv Ha HT HF HF2 HC) as E. cbv zeta in *.
    destruct (in_range _ _ && _).
    + destruct E as (p & -> & Hp & ->). destruct (entry_ok hv v p Hv Hp). now apply sim_put.
    + unfold store. rewrite E. now apply vsim_next.
  - apply vsim_with; [assumption|]. intros hv v a l Hv Ha Ev El Ea. destruct Hv as (_ & _ & _ & _ & Hd). destruct (linear_of c _ _ (Hd _ (HK a l Ha))) as (_ & -> & _). cbn [show].
    destruct (v_den v); now apply vsim_next.
  - apply vsim_with; [assumption|]. intros hv v a l Hv Ha Ev El Ea. specialize (HR v l Ev El). destruct Hv as (_ & _ & _ & _ & Hd). specialize (Hd _ (HK a l Ha)). destruct (v_den v) as [ps|P]; [discriminate|].
    destruct Hd as (_ & _ & _ & -> & _). now apply vsim_next.
  - apply vsim_with; [assumption|]. intros hv v a l Hv Ha Ev El Ea. specialize (HR v l Ev El). destruct Hv as (_ & _ & _ & _ & Hd). specialize (Hd _ (HK a l Ha)). destruct (v_den v) as [ps|P]; [discriminate|].
    destruct Hd as (_ & _ & _ & _ & -> & _). now apply vsim_next.
  - pose proof (R_nth _ _ _ k H1) as E. destruct (znth (fst w) k) as [l|] eqn:El; [|rewrite E; now apply vsim_next]. destruct E as (a & -> & Ha). specialize (HR l eq_refl).
    unfold it_deref, somewhere, it_make, target, it_somewhere. cbn [it_ptr it_pos bind flag_list f_size f_at]. rewrite (Hmem a l Ha).
    rewrite check_debug_true. cbn [bind].
    destruct (in_range (zlen (flat l)) pos) eqn:G; unfold in_range in G.
    + replace ((-1 <? pos) && (pos <? zlen (flat l))) with true by lia. rewrite check_debug_true. cbn [bind]. destruct (znth_some (flat l) pos) as [x Ex]; [lia|].
      unfold oget. rewrite Ex. now apply vsim_next.
    + replace ((-1 <? pos) && (pos <? zlen (flat l))) with false by lia. destruct HR as [HR|HR]; [|discriminate]. rewrite check_debug_false by assumption. cbn [bind show].
      destruct (znth (flat l) pos) eqn:Ex; [apply znth_lt in Ex; lia|]. now apply vsim_next.
Qed.
Theorem vrun_sim ts : forall s w, same_world s w -> program_ok sstep flat width all assign fits c w ts ->
  snd (run (vstep c) s ts) = snd (run (spec_vstep c) w ts) /\ vsim (fst (run (vstep c) s ts)) (fst (run (spec_vstep c) w ts)).
Proof.
  induction ts as [|t ts IH]; intros s w HS HP; cbn [run].
  - split; [reflexivity|]. now apply vsim_next.
  - cbn [program_ok] in HP. destruct HP as [HR HP]. pose proof (vstep_sim s w t HS HR) as E. destruct (spec_vstep c w t) as [w' ob|]; cbn in E.
    + destruct E as (s' & -> & HS'). assert (match ob with Failed f => fatal f = true | _ => False end \/ program_ok sstep flat width all assign fits c w' ts) as HP'.
      { destruct ob; auto. destruct (fatal f); auto. }
      destruct HP' as [HF|HP'].
      * destruct ob; try contradiction. rewrite HF. split; [reflexivity|]. now apply vsim_next.
      * specialize (IH s' w' HS' HP'). destruct (run (vstep c) s' ts) as [r1 t1], (run (spec_vstep c) w' ts) as [r2 t2]. cbn [fst snd] in IH. destruct IH as [-> IH].
        destruct ob as [| | |f]; cbn [fst snd]; auto. destruct (fatal f); cbn [fst snd]; [|auto]. split; [reflexivity|]. now apply vsim_next.
    + rewrite E. split; reflexivity.
Qed.
End W.
End P.
