(** Theorems on views, in terms of the positions of their elements. *)
From Verif Require Import Base.Outcome Base.ZList Model.IntModel Model.ScalarOps Model.Index Model.Slice Model.Array1D Model.Array2D Model.View2D.
From Verif Require Import Spec.ArraySpec Spec.SliceSpec Spec.MatrixSpec Spec.Matrix2Spec Spec.View2DSpec.
From Verif Require Import Proofs.ScalarProofs Proofs.Array1DProofs Proofs.SliceProofs Proofs.ViewProofs Proofs.SliceThms Proofs.MatrixProofs Proofs.Array2DProofs Proofs.Array2DSim Proofs.View2DProofs Proofs.View2DOps.
Ltac Zify.zify_post_hook ::= Z.div_mod_to_equations.

Definition entries (d : den) : list Z := match d with D1 ps => ps | D2 P => concat P end.
Lemma in_pick {A} (l : list A) ps x : In x (pick l ps) -> In x l.
Proof. unfold pick. intros H. apply in_flat_map in H as (p & _ & H). destruct (znth l p) eqn:E; [|destruct H]. destruct H as [<-|[]]. now apply znth_in in E. Qed.
Lemma in_collect {A B} (f : A -> option B) l x : In x (collect f l) -> exists a, In a l /\ f a = Some x.
Proof. unfold collect. intros H. apply in_flat_map in H as (p & Hp & H). destruct (f p) eqn:E; [|destruct H]. destruct H as [<-|[]]. eauto. Qed.
Lemma in_run {A} a k (l : list A) x : In x (run_of a k l) -> In x l.
Proof. unfold run_of. intros H. rewrite <- (firstn_skipn (Z.to_nat a) l). apply in_or_app. right. rewrite <- (firstn_skipn (Z.to_nat k) (skipn (Z.to_nat a) l)). apply in_or_app. now left. Qed.
Lemma in_norm {A} (M : list (list A)) x : In x (concat (norm M)) -> In x (concat M).
Proof. unfold norm. destruct (ncols M =? 0); [intros []|auto]. Qed.
Lemma in_chunks {A} m n (l : list A) x : In x (concat (chunks m n l)) -> In x l.
Proof.
  intros H. apply in_concat in H as (r & Hr & Hx). unfold chunks in Hr. apply in_map_iff in Hr as (i & <- & _). now apply (in_run (i * n) n l).
Qed.
Lemma entries_apply d w d' : den_apply d w = Some d' -> forall p, In p (entries d') -> In p (entries d).
Proof.
  intros E p. destruct d as [ps|P], w; cbn [den_apply] in E; try discriminate E; try (injection E as <-); cbn [entries].
  - apply in_pick.
  - auto.
  - intros H. apply in_norm in H. now apply in_chunks in H.
  - intros H. unfold select2 in H. apply in_norm in H. apply in_concat in H as (r & Hr & Hp). apply in_map_iff in Hr as (q & <- & Hq). apply in_pick in Hp. apply in_pick in Hq. apply in_concat. eauto.
  - intros H. apply in_concat in H as (r & Hr & Hp). apply in_pick in Hr. apply in_concat. eauto.
  - intros H. apply in_norm in H. apply in_concat in H as (r & Hr & Hp). apply in_map_iff in Hr as (q & <- & Hq). apply in_pick in Hp. apply in_concat. eauto.
  - destruct (znth P (denotes (zlen P) ix)) eqn:Er; [|discriminate]. injection E as <-. cbn [entries]. intros H. apply in_concat. exists l. split; [now apply znth_in in Er|assumption].
  - intros H. apply in_collect in H as (r & Hr & H). apply in_concat. exists r. split; [assumption|now apply znth_in in H].
  - intros H. apply in_collect in H as (i & _ & H). unfold mget in H. destruct (znth P i) as [r|] eqn:Er; [|discriminate]. apply in_concat. exists r. split; [now apply znth_in in Er|now apply znth_in in H].
  - intros H. apply in_collect in H as (t & _ & H). unfold mget in H. destruct (znth P t) as [r|] eqn:Er; [|discriminate]. apply in_concat. exists r. split; [now apply znth_in in Er|now apply znth_in in H].
  - intros H. apply in_concat in H as (r & Hr & Hp). apply in_map_iff in Hr as (q & <- & Hq). apply in_run in Hp. apply in_run in Hq. apply in_concat. eauto.
  - intros H. apply in_norm in H. apply in_concat in H as (r & Hr & Hp). apply in_map_iff in Hr as (q & <- & Hq). apply in_run in Hp. apply in_run in Hq. apply in_concat. eauto.
  - auto.
  - intros H. apply in_norm in H. now apply in_chunks in H.
Qed.
Lemma entries_chain ws : forall d d', den_chain d ws = Some d' -> forall p, In p (entries d') -> In p (entries d).
Proof.
  induction ws as [|w ws IH]; intros d d' E p H; cbn in E; [now injection E as <-|]. destruct (den_apply d w) as [d1|] eqn:E1; [|discriminate].
  apply (entries_apply _ _ _ E1). now apply (IH d1 d').
Qed.
Lemma den_chain_snoc ws w : forall d, den_chain d (ws ++ [w]) = match den_chain d ws with Some d' => den_apply d' w | None => None end.
Proof.
  induction ws as [|w0 ws IH]; intros d; cbn; [destruct (den_apply d w); reflexivity|]. destruct (den_apply d w0); auto.
Qed.
Lemma chain_ok_snoc ws w : forall d d', chain_ok d ws -> den_chain d ws = Some d' -> vop_typed d' w = true -> vop_fits d' w -> vop_ok d' w -> den_apply d' w <> None -> chain_ok d (ws ++ [w]).
Proof.
  induction ws as [|w0 ws IH]; intros d d' HC E HT HF HO HN; cbn in *.
  - injection E as <-. repeat (split; [assumption|]). destruct (den_apply d w); [exact I|congruence].
  - destruct HC as (H1 & H2 & H3 & H4). repeat (split; [assumption|]). destruct (den_apply d w0); [|destruct H4]. eapply IH; eauto.
Qed.
Lemma o_chain_snoc c ws w : forall o, o_chain c o (ws ++ [w]) = (o' <- o_chain c o ws ;; o_apply c o' w).
Proof.
  induction ws as [|w0 ws IH]; intros o; cbn [app o_chain bind]; [now destruct (o_apply c o w)|]. destruct (o_apply c o w0); cbn [bind]; auto.
Qed.

Section T.
Context (c : cfg) (N : Z).

Lemma root_den o d : root o d N -> o_denotes c o d /\ forall p, In p (entries d) -> 0 <= p < N.
Proof.
  intros [(H1 & -> & ->)|(m & n & H1 & H2 & H3 & H4 & H5 & -> & ->)].
  - split; [now apply whole1_den|]. intros p Hp. cbn in Hp. apply in_zseq in Hp. lia.
  - subst N. split; [now apply whole2_den|]. intros p Hp. unfold whole2 in Hp. cbn [entries] in Hp. apply in_chunks in Hp. apply in_zseq in Hp. nia.
Qed.
(** A view with what it denotes. *)
Definition known (o : obj) (d : den) : Prop :=
  o_denotes c o d /\ (forall p, In p (entries d) -> 0 <= p < N) /\ exists r d0 ws, root r d0 N /\ chain_ok d0 ws /\ o_chain c r ws = Ok o /\ den_chain d0 ws = Some d.
Lemma known_view o d : known o d -> is_view c N o.
Proof. intros (_ & _ & r & d0 & ws & H1 & H2 & H3 & _). exists r, d0, ws. auto. Qed.
Lemma view_known o : is_view c N o -> exists d, known o d.
Proof.
  intros (r & d & ws & HR & HC & E). destruct (root_den r d HR) as [Hd Hp]. destruct (chain_ok_den c ws r d Hd HC) as (o' & d' & E1 & E2 & Hd').
  rewrite E in E2. injection E2 as <-. exists d'. split; [assumption|]. split; [|exists r, d, ws; auto]. intros p H. apply Hp. now apply (entries_chain ws d d').
Qed.
Lemma known_apply o d w : known o d -> vop_typed d w = true -> vop_fits d w -> vop_ok d w ->
  exists o' d', den_apply d w = Some d' /\ o_apply c o w = Ok o' /\ known o' d'.
Proof.
  intros (Hd & Hp & r & d0 & ws & HR & HC & HO & HD) HT HF HK. destruct (apply_ok c o d w Hd HT HF HK) as (o' & d' & E1 & E2 & Hd'). exists o', d'. split; [assumption|]. split; [assumption|].
  split; [assumption|]. split. { intros p H. apply Hp. now apply (entries_apply d w d'). }
  exists r, d0, (ws ++ [w]). split; [assumption|]. split; [eapply chain_ok_snoc; eauto; congruence|]. rewrite o_chain_snoc, HO, den_chain_snoc, HD. auto.
Qed.
Lemma known2 o : is_view c N o -> is_two o = true -> exists P, known o (D2 P) /\ zlen P = o_rows o /\ ncols P = o_cols o.
Proof.
  intros HV HT. destruct (view_known o HV) as [[ps|P] HK].
  - destruct HK as ((H & _) & _). congruence.
  - exists P. pose proof HK as ((_ & _ & _ & E1 & E2 & _) & _). auto.
Qed.
Lemma known_at o P i j : known o (D2 P) -> 0 <= i < o_rows o -> 0 <= j < o_cols o -> exists p, mget P i j = Some p /\ 0 <= p < N /\ o_at c o i j = Ok p.
Proof.
  intros (Hd & Hp & _) Hi Hj. pose proof Hd as (_ & Hw & _ & ER & EC & _ & HA & _). destruct (mget_some (ncols P) P i j) as [p E]; [now apply wfm_rect|lia|lia|]. exists p. split; [assumption|].
  split; [|now apply HA]. apply Hp. cbn. unfold mget in E. destruct (znth P i) as [r|] eqn:Er; [|discriminate]. apply in_concat. exists r. split; [now apply znth_in in Er|now apply znth_in in E].
Qed.
Lemma view_dims o : is_view c N o -> is_two o = true -> 0 <= o_rows o <= LONG_MAX /\ 0 <= o_cols o <= LONG_MAX /\ (o_rows o = 0 <-> o_cols o = 0) /\ o_size o = Ok (o_rows o * o_cols o) /\ o_rows o * o_cols o <= LONG_MAX.
Proof.
  intros HV HT. destruct (known2 o HV HT) as (P & (Hd & _) & ER & EC). destruct (den2_dims c o P Hd). pose proof Hd as (_ & Hw & HL & _ & _ & HS & _). rewrite <- ER, <- EC. pose proof (wfm_zero P Hw). tauto.
Qed.

(** A line from its denotation. *)
Lemma line_intro o v k f qs P : known o (D2 P) -> known v (D1 qs) -> zlen qs = k ->
  (forall t, 0 <= t < k -> 0 <= fst (f t) < o_rows o /\ 0 <= snd (f t) < o_cols o /\ znth qs t = mget P (fst (f t)) (snd (f t))) -> line_of c N o v k f.
Proof.
  intros KO KV HL HF. split; [eapply known_view; eauto|]. pose proof KV as ((HT & _ & HS & HN) & _). split; [assumption|]. split; [now rewrite HS, HL|].
  intros t Ht. destruct (HF t Ht) as (H1 & H2 & H3). destruct (known_at o P _ _ KO H1 H2) as (p & E1 & E2 & E3). exists p. split; [assumption|]. split; [assumption|]. apply HN. now rewrite H3.
Qed.
Lemma rect_intro o v m n f g Q P : known o (D2 P) -> known v (D2 Q) -> zlen Q = m -> ncols Q = n ->
  (forall i j, 0 <= i < m -> 0 <= j < n -> 0 <= f i < o_rows o /\ 0 <= g j < o_cols o /\ mget Q i j = mget P (f i) (g j)) -> rect_of c N o v m n f g.
Proof.
  intros KO KV HR HC HF. split; [eapply known_view; eauto|]. pose proof KV as ((HT & _ & _ & ER & EC & HS & HN & _) & _). rewrite HR, HC in *. repeat (split; [assumption|]).
  intros i j Hi Hj. destruct (HF i j Hi Hj) as (H1 & H2 & H3). destruct (known_at o P _ _ KO H1 H2) as (p & E1 & E2 & E3). exists p. split; [assumption|]. split; [assumption|]. apply HN. now rewrite H3.
Qed.

Lemma row_thm o ix : is_view c N o -> is_two o = true -> idx_fits (o_rows o) ix -> let i := denotes (o_rows o) ix in
  (0 <= i < o_rows o -> exists v, o_row c o ix = Ok v /\ line_of c N o v (o_cols o) (fun j => (i, j))) /\
  (~ 0 <= i < o_rows o -> checked c = true -> o_row c o ix = Fail (report c)).
Proof.
  intros HV HT HF i. destruct (known2 o HV HT) as (P & KO & ER & EC). split.
  - intros Hi. destruct (known_apply o (D2 P) (VwRow ix) KO) as (v & d & E1 & E2 & KV); cbn; rewrite ?ER; auto. unfold o_apply in E2. rewrite HT in E2.
    exists v. split; [assumption|]. cbn in E1. rewrite ER in E1. fold i in E1. destruct (znth P i) as [r|] eqn:Er; [|discriminate]. injection E1 as <-.
    assert (rect (ncols P) P) as HR by (apply wfm_rect; apply KO).
    apply (line_intro o v _ _ r P); auto; [rewrite (rect_nth _ _ _ _ HR Er); lia|]. intros j Hj. cbn [fst snd]. repeat (split; [assumption|]). unfold mget. now rewrite Er.
  - intros Hi Hk. pose proof (apply_bad c (F:=Ok) o (D2 P) (VwRow ix)) as H. unfold o_apply in H. rewrite HT in H. apply H; [apply KO|..]; cbn; rewrite ?ER; auto.
Qed.
Lemma col_thm o jx : is_view c N o -> is_two o = true -> idx_fits (o_cols o) jx -> let j := denotes (o_cols o) jx in
  (0 <= j < o_cols o -> exists v, o_col c o jx = Ok v /\ line_of c N o v (o_rows o) (fun i => (i, j))) /\
  (~ 0 <= j < o_cols o -> checked c = true -> o_col c o jx = Fail (report c)).
Proof.
  intros HV HT HF j. destruct (known2 o HV HT) as (P & KO & ER & EC). split.
  - intros Hj. destruct (known_apply o (D2 P) (VwCol jx) KO) as (v & d & E1 & E2 & KV); cbn; rewrite ?EC; auto. unfold o_apply in E2. rewrite HT in E2.
    exists v. split; [assumption|]. cbn in E1. rewrite EC in E1. fold j in E1. injection E1 as <-. assert (wfm P) as Hw by apply KO. destruct (column_spec P j Hw) as [LC NC]; [lia|].
    apply (line_intro o v _ _ (column P j) P); [assumption|assumption|lia|]. intros i Hi. cbn [fst snd]. repeat (split; [assumption|]). apply NC.
  - intros Hj Hk. pose proof (apply_bad c (F:=Ok) o (D2 P) (VwCol jx)) as H. unfold o_apply in H. rewrite HT in H. apply H; [apply KO|..]; cbn; rewrite ?EC; auto.
Qed.
Lemma diag_thm o k : is_view c N o -> is_two o = true -> o_cols o < LONG_MAX -> is_long k -> k <> LONG_MIN ->
  (- o_rows o < k < o_cols o -> exists v, o_diag c o k = Ok v /\
     line_of c N o v (Z.min (o_rows o - Z.max 0 (- k)) (o_cols o - Z.max 0 k)) (fun t => (t + Z.max 0 (- k), t + Z.max 0 k))) /\
  (~ - o_rows o < k < o_cols o -> checked c = true -> o_diag c o k = Fail (report c)).
Proof.
  intros HV HT HC HL HM. destruct (known2 o HV HT) as (P & KO & ER & EC). split.
  - intros Hk. destruct (known_apply o (D2 P) (VwDiag k) KO) as (v & d & E1 & E2 & KV); cbn [vop_typed vop_fits vop_ok]; rewrite ?ER, ?EC; auto. unfold o_apply in E2. rewrite HT in E2.
    exists v. split; [assumption|]. cbn in E1. injection E1 as <-. assert (wfm P) as Hw by apply KO. pose proof (zlen_nonneg P). pose proof (ncols_nonneg P). destruct (diagonal_spec P k Hw) as [LD ND]; [lia|]. rewrite ER, EC in *.
    apply (line_intro o v _ _ (diagonal P k) P); [assumption|assumption|lia|]. intros t Ht. cbn [fst snd]. split; [lia|]. split; [lia|]. rewrite ND by lia. f_equal; lia.
  - intros Hj Hk. pose proof (apply_bad c (F:=Ok) o (D2 P) (VwDiag k)) as H. unfold o_apply in H. rewrite HT in H. apply H; [apply KO|..]; cbn [vop_typed vop_fits vop_ok]; rewrite ?ER, ?EC; auto.
Qed.
Lemma diag0_thm o : is_view c N o -> is_two o = true -> o_cols o < LONG_MAX ->
  exists v, o_diag0 c o = Ok v /\ line_of c N o v (Z.min (o_rows o) (o_cols o)) (fun t => (t, t)).
Proof.
  intros HV HT HC. destruct (known2 o HV HT) as (P & KO & ER & EC). pose proof (view_dims o HV HT) as (D1 & D2 & _).
  destruct (known_apply o (View2DSpec.D2 P) VwDiag0 KO) as (v & d & E1 & E2 & KV); cbn [vop_typed vop_fits vop_ok]; rewrite ?ER, ?EC; auto. unfold o_apply in E2. rewrite HT in E2.
  exists v. split; [assumption|]. cbn in E1. injection E1 as <-. assert (wfm P) as Hw by apply KO. pose proof (zlen_nonneg P). pose proof (ncols_nonneg P). destruct (diagonal_spec P 0 Hw) as [LD ND]; [lia|]. rewrite ER, EC in *.
  apply (line_intro o v _ _ (diagonal P 0) P); [assumption|assumption|lia|]. intros t Ht. cbn [fst snd]. split; [lia|]. split; [lia|]. rewrite ND by lia. f_equal; lia.
Qed.
Lemma mget_run {A} (P : list (list A)) i1 k1 j1 k2 i j : rect (ncols P) P -> 0 <= i1 -> 0 <= k1 -> 0 <= j1 -> 0 <= k2 -> 0 <= i < k1 -> 0 <= j < k2 ->
  mget (map (run_of j1 k2) (run_of i1 k1 P)) i j = mget P (i1 + i) (j1 + j).
Proof.
  intros HR H1 H2 H3 H4 Hi Hj. rewrite mget_map. rewrite znth_run by lia. replace (i <? k1) with true by lia. unfold mget. destruct (znth P (i1 + i)) as [r|] eqn:Er; [|reflexivity].
  rewrite znth_run by lia. now replace (j <? k2) with true by lia.
Qed.
Lemma run_rect {A} (P : list (list A)) i1 k1 j1 k2 : rect (ncols P) P -> 0 <= j1 -> 0 <= k2 -> j1 + k2 <= ncols P -> 0 <= i1 -> 0 <= k1 -> i1 + k1 <= zlen P ->
  rect k2 (map (run_of j1 k2) (run_of i1 k1 P)) /\ zlen (map (run_of j1 k2) (run_of i1 k1 P)) = k1.
Proof.
  intros HR H1 H2 H3 H4 H5 H6. split; [|rewrite zlen_map; now apply zlen_run]. apply Forall_forall. intros q Hq. apply in_map_iff in Hq as (r & <- & Hr). apply in_run in Hr. apply zlen_run; auto. now rewrite (rect_in _ _ _ HR Hr).
Qed.
Lemma block_thm o ix1 jx1 ix2 jx2 : is_view c N o -> is_two o = true ->
  idx_fits (o_rows o) ix1 -> idx_fits (o_rows o) ix2 -> idx_fits (o_cols o) jx1 -> idx_fits (o_cols o) jx2 ->
  let i1 := denotes (o_rows o) ix1 in let i2 := denotes (o_rows o) ix2 in let j1 := denotes (o_cols o) jx1 in let j2 := denotes (o_cols o) jx2 in
  (0 <= i1 <= i2 /\ i2 < o_rows o /\ 0 <= j1 <= j2 /\ j2 < o_cols o ->
     exists v, o_block c o ix1 jx1 ix2 jx2 = Ok v /\ rect_of c N o v (i2 - i1 + 1) (j2 - j1 + 1) (fun i => i1 + i) (fun j => j1 + j)) /\
  (~ (0 <= i1 <= i2 /\ i2 < o_rows o /\ 0 <= j1 <= j2 /\ j2 < o_cols o) -> checked c = true -> o_block c o ix1 jx1 ix2 jx2 = Fail (report c)).
Proof.
  intros HV HT F1 F2 F3 F4 i1 i2 j1 j2. destruct (known2 o HV HT) as (P & KO & ER & EC). split.
  - intros HI. destruct (known_apply o (D2 P) (VwBlock ix1 jx1 ix2 jx2) KO) as (v & d & E1 & E2 & KV); cbn [vop_typed vop_fits vop_ok]; rewrite ?ER, ?EC; auto. unfold o_apply in E2. rewrite HT in E2.
    exists v. split; [assumption|]. cbn in E1. rewrite ER, EC in E1. fold i1 i2 j1 j2 in E1. injection E1 as <-. assert (rect (ncols P) P) as HR by (apply wfm_rect; apply KO).
    destruct (run_rect P i1 (i2 - i1 + 1) j1 (j2 - j1 + 1) HR) as [QR QL]; try lia.
    apply (rect_intro o v _ _ _ _ (map (run_of j1 (j2 - j1 + 1)) (run_of i1 (i2 - i1 + 1) P)) P); auto.
    + apply rect_ncols; auto. apply nonempty_len. lia.
    + intros i j Hi Hj. split; [lia|]. split; [lia|]. apply mget_run; auto; lia.
  - intros HI Hk. pose proof (apply_bad c (F:=Ok) o (D2 P) (VwBlock ix1 jx1 ix2 jx2)) as H. unfold o_apply in H. rewrite HT in H. apply H; [apply KO|..]; cbn [vop_typed vop_fits vop_ok]; rewrite ?ER, ?EC; auto.
Qed.
Lemma norm_shape {A} m n (M : list (list A)) : 0 <= m -> 0 <= n -> rect n M -> zlen M = m ->
  zlen (norm M) = clip m n /\ ncols (norm M) = clip n m /\ (0 < m -> 0 < n -> norm M = M).
Proof.
  intros Hm Hn HR HL. destruct (norm_wfm n M Hn HR) as (W1 & W2 & W3). unfold clip. destruct (Z.eqb_spec n 0) as [E|E]; [|destruct (Z.eqb_spec m 0) as [E'|E']].
  - rewrite W2 by now right. subst n. destruct (m =? 0); repeat split; auto; lia.
  - rewrite W2 by (left; apply zlen_zero; lia). repeat split; auto. lia.
  - assert (M <> []) as NE by (apply nonempty_len; lia). destruct (W3 NE) as [-> EN]; [lia|]. auto.
Qed.
Lemma blockN_thm o ix jx nr nc : is_view c N o -> is_two o = true -> idx_fits (o_rows o) ix -> idx_fits (o_cols o) jx -> is_long nr -> is_long nc ->
  let i := denotes (o_rows o) ix in let j := denotes (o_cols o) jx in
  let good := 0 <= i /\ 0 <= nr /\ (0 < nr -> i + nr <= o_rows o) /\ 0 <= j /\ 0 <= nc /\ (0 < nc -> j + nc <= o_cols o) in
  i + nr <= LONG_MAX -> j + nc <= LONG_MAX ->
  (good -> exists v, o_blockN c o ix jx nr nc = Ok v /\ rect_of c N o v (clip nr nc) (clip nc nr) (fun t => i + t) (fun t => j + t)) /\
  (~ good -> checked c = true -> o_blockN c o ix jx nr nc = Fail (report c)).
Proof.
  intros HV HT F1 F2 L1 L2 i j good G1 G2. destruct (known2 o HV HT) as (P & KO & ER & EC). split.
  - intros HG. pose proof HG as (I1 & I2 & I3 & J1 & J2 & J3).
    destruct (known_apply o (D2 P) (VwBlockN ix jx nr nc) KO) as (v & d & E1 & E2 & KV); cbn [vop_typed vop_fits vop_ok]; rewrite ?ER, ?EC; auto. { tauto. }
    unfold o_apply in E2. rewrite HT in E2. exists v. split; [assumption|]. cbn in E1. rewrite ER, EC in E1. fold i j in E1. injection E1 as <-.
    assert (rect (ncols P) P) as HR by (apply wfm_rect; apply KO).
    set (Q := map (run_of j nc) (run_of i nr P)) in *.
    assert (zlen (norm Q) = clip nr nc /\ ncols (norm Q) = clip nc nr /\ (0 < nr -> 0 < nc -> norm Q = Q)) as (S1 & S2 & S3).
    { destruct (Z.eq_dec nr 0) as [Z1|Z1].
      - assert (Q = []) as -> by (unfold Q, run_of at 2; subst nr; reflexivity). unfold clip. subst nr. cbn. destruct (nc =? 0) eqn:?; repeat split; auto; lia.
      - destruct (Z.eq_dec nc 0) as [Z2|Z2].
        + assert (rect 0 Q) as QR.
          { apply Forall_forall. intros q Hq. apply in_map_iff in Hq as (r & <- & Hr). unfold run_of. subst nc. reflexivity. }
          destruct (norm_wfm 0 Q) as (_ & W & _); auto; [lia|]. rewrite W by now right. unfold clip. subst nc. cbn. destruct (nr =? 0); repeat split; auto; lia.
        + destruct (run_rect P i nr j nc HR) as [QR QL]; try lia. apply norm_shape; auto. }
    apply (rect_intro o v _ _ _ _ (norm Q) P); auto.
    intros t u Ht Hu. unfold clip in Ht, Hu. destruct (Z.eqb_spec nc 0); [lia|]. destruct (Z.eqb_spec nr 0); [lia|]. rewrite S3 by lia. split; [lia|]. split; [lia|]. apply mget_run; auto; lia.
  - intros HI Hk. pose proof (apply_bad c (F:=Ok) o (D2 P) (VwBlockN ix jx nr nc)) as H. unfold o_apply in H. rewrite HT in H. apply H; [apply KO|..]; cbn [vop_typed vop_fits vop_ok]; rewrite ?ER, ?EC; auto; tauto.
Qed.
Lemma slices_thm o s1 s2 : is_view c N o -> is_two o = true -> args_long s1 -> no_overflow (o_rows o) s1 -> args_long s2 -> no_overflow (o_cols o) s2 ->
  let xs := positions (o_rows o) s1 in let ys := positions (o_cols o) s2 in zlen xs * zlen ys <= LONG_MAX ->
  (acceptable (o_rows o) s1 /\ acceptable (o_cols o) s2 ->
     exists v, o_slice2 c o s1 s2 = Ok v /\ rect_of c N o v (clip (zlen xs) (zlen ys)) (clip (zlen ys) (zlen xs)) (nth_pos xs) (nth_pos ys)) /\
  (~ (acceptable (o_rows o) s1 /\ acceptable (o_cols o) s2) -> checked c = true -> o_slice2 c o s1 s2 = Fail (report c)).
Proof.
  intros HV HT A1 N1 A2 N2 xs ys HL. destruct (known2 o HV HT) as (P & KO & ER & EC). split.
  - intros [C1 C2]. destruct (known_apply o (D2 P) (VwSlice2 s1 s2) KO) as (v & d & E1 & E2 & KV); cbn [vop_typed vop_fits vop_ok]; rewrite ?ER, ?EC; auto.
    unfold o_apply in E2. rewrite HT in E2. exists v. split; [assumption|]. cbn in E1. unfold select2 in E1. rewrite ER, EC in E1. fold xs ys in E1. injection E1 as <-.
    assert (wfm P) as Hw by apply KO. pose proof (view_dims o HV HT) as (B1 & B2 & _).
    assert (Forall (fun p => 0 <= p < o_rows o) xs) as FX by (apply positions_in_range; auto; lia). assert (Forall (fun p => 0 <= p < o_cols o) ys) as FY by (apply positions_in_range; auto; lia).
    destruct (pick2_rect P xs ys Hw) as [QR QL]; rewrite ?ER, ?EC; auto. destruct (norm_shape (zlen xs) (zlen ys) _ (zlen_nonneg xs) (zlen_nonneg ys) QR QL) as (S1 & S2 & S3).
    apply (rect_intro o v _ _ _ _ (norm (map (fun r => pick r ys) (pick P xs))) P); auto.
    intros t u Ht Hu. unfold clip in Ht, Hu. pose proof (zlen_nonneg xs). pose proof (zlen_nonneg ys). destruct (Z.eqb_spec (zlen ys) 0); [lia|]. destruct (Z.eqb_spec (zlen xs) 0); [lia|]. rewrite S3 by lia.
    destruct (znth_some xs t Ht) as [x Ex]. destruct (znth_some ys u Hu) as [y Ey]. unfold nth_pos. rewrite Ex, Ey. rewrite Forall_forall in FX, FY.
    split; [apply FX; now apply znth_in in Ex|]. split; [apply FY; now apply znth_in in Ey|]. rewrite pick2_get; rewrite ?ER, ?EC; auto; try (apply Forall_forall; auto). now rewrite Ex, Ey.
  - intros HI Hk. pose proof (apply_bad c (F:=Ok) o (D2 P) (VwSlice2 s1 s2)) as H. unfold o_apply in H. rewrite HT in H. apply H; [apply KO|..]; cbn [vop_typed vop_fits vop_ok]; rewrite ?ER, ?EC; auto.
Qed.
Lemma rows_thm o s : is_view c N o -> is_two o = true -> args_long s -> no_overflow (o_rows o) s ->
  let xs := positions (o_rows o) s in zlen xs * o_cols o <= LONG_MAX ->
  (acceptable (o_rows o) s -> exists v, o_rows_slice c o s = Ok v /\ rect_of c N o v (zlen xs) (clip (o_cols o) (zlen xs)) (nth_pos xs) (fun j => j)) /\
  (~ acceptable (o_rows o) s -> checked c = true -> o_rows_slice c o s = Fail (report c)).
Proof.
  intros HV HT A1 N1 xs HL. destruct (known2 o HV HT) as (P & KO & ER & EC). split.
  - intros C1. destruct (known_apply o (D2 P) (VwRows s) KO) as (v & d & E1 & E2 & KV); cbn [vop_typed vop_fits vop_ok]; rewrite ?ER, ?EC; auto.
    unfold o_apply in E2. rewrite HT in E2. exists v. split; [assumption|]. cbn in E1. rewrite ER in E1. fold xs in E1. injection E1 as <-.
    assert (wfm P) as Hw by apply KO. pose proof (view_dims o HV HT) as (B1 & B2 & _).
    assert (Forall (fun p => 0 <= p < o_rows o) xs) as FX by (apply positions_in_range; auto; lia).
    assert (zlen (pick P xs) = zlen xs) as LX by (apply zlen_pick; now rewrite ER).
    apply (rect_intro o v _ _ _ _ (pick P xs) P); auto.
    + unfold clip. destruct (Z.eqb_spec (zlen xs) 0).
      * assert (pick P xs = []) as -> by (apply zlen_zero; lia). reflexivity.
      * rewrite <- EC. apply rect_ncols; [apply pick_rect; now apply wfm_rect|]. apply nonempty_len. pose proof (zlen_nonneg xs). lia.
    + intros t u Ht Hu. destruct (znth_some xs t Ht) as [x Ex]. unfold nth_pos. rewrite Ex. rewrite Forall_forall in FX. split; [apply FX; now apply znth_in in Ex|].
      split. { unfold clip in Hu. destruct (zlen xs =? 0); lia. } unfold mget. rewrite znth_pick by (rewrite ER; now apply Forall_forall). now rewrite Ex.
  - intros HI Hk. pose proof (apply_bad c (F:=Ok) o (D2 P) (VwRows s)) as H. unfold o_apply in H. rewrite HT in H. apply H; [apply KO|..]; cbn [vop_typed vop_fits vop_ok]; rewrite ?ER, ?EC; auto.
Qed.
Lemma cols_thm o s : is_view c N o -> is_two o = true -> args_long s -> no_overflow (o_cols o) s ->
  let ys := positions (o_cols o) s in o_rows o * zlen ys <= LONG_MAX ->
  (acceptable (o_cols o) s -> exists v, o_cols_slice c o s = Ok v /\ rect_of c N o v (clip (o_rows o) (zlen ys)) (zlen ys) (fun i => i) (nth_pos ys)) /\
  (~ acceptable (o_cols o) s -> checked c = true -> o_cols_slice c o s = Fail (report c)).
Proof.
  intros HV HT A1 N1 ys HL. destruct (known2 o HV HT) as (P & KO & ER & EC). split.
  - intros C1. destruct (known_apply o (D2 P) (VwCols s) KO) as (v & d & E1 & E2 & KV); cbn [vop_typed vop_fits vop_ok]; rewrite ?ER, ?EC; auto.
    unfold o_apply in E2. rewrite HT in E2. exists v. split; [assumption|]. cbn in E1. rewrite EC in E1. fold ys in E1. injection E1 as <-.
    assert (wfm P) as Hw by apply KO. pose proof (view_dims o HV HT) as (B1 & B2 & BZ & _).
    assert (Forall (fun p => 0 <= p < o_cols o) ys) as FY by (apply positions_in_range; auto; lia).
    assert (Forall (fun p => 0 <= p < zlen P) (all_positions (zlen P))) as FX by (apply Forall_forall; intros p Hp; apply in_zseq in Hp; lia).
    destruct (pick2_rect P (all_positions (zlen P)) ys Hw) as [QR QL]; rewrite ?ER, ?EC; auto. { now rewrite <- ER. } rewrite pick_all_eq in QR, QL. rewrite positions_all in QL by lia.
    destruct (norm_shape (o_rows o) (zlen ys) _ ltac:(lia) (zlen_nonneg ys) QR ltac:(lia)) as (S1 & S2 & S3).
    apply (rect_intro o v _ _ _ _ (norm (map (fun r => pick r ys) P)) P); auto.
    + rewrite S2. unfold clip. destruct (Z.eqb_spec (o_rows o) 0); [|reflexivity]. destruct ys as [|y ys']; [reflexivity|]. apply Forall_inv in FY. lia.
    + intros t u Ht Hu. unfold clip in Ht. destruct (Z.eqb_spec (zlen ys) 0); [lia|]. pose proof (zlen_nonneg ys). rewrite S3 by lia.
      destruct (znth_some ys u Hu) as [y Ey]. unfold nth_pos. rewrite Ey. assert (0 <= y < o_cols o) as Ry by (rewrite Forall_forall in FY; apply FY; now apply znth_in in Ey). split; [lia|]. split; [assumption|].
      rewrite <- (pick_all_eq P) at 1. rewrite pick2_get; rewrite ?ER, ?EC; auto; [|now rewrite <- ER]. unfold all_positions. rewrite znth_zseq by lia. rewrite Ey. reflexivity.
  - intros HI Hk. pose proof (apply_bad c (F:=Ok) o (D2 P) (VwCols s)) as H. unfold o_apply in H. rewrite HT in H. apply H; [apply KO|..]; cbn [vop_typed vop_fits vop_ok]; rewrite ?ER, ?EC; auto.
Qed.

(** Linear and two-index positions of any two-dimensional view agree. *)
Lemma linear_view_thm o i j : is_view c N o -> is_two o = true -> 0 <= i < o_rows o -> 0 <= j < o_cols o ->
  exists p, 0 <= p < N /\ o_at c o i j = Ok p /\ o_lin c o (i * o_cols o + j) = Ok p.
Proof.
  intros HV HT Hi Hj. destruct (known2 o HV HT) as (P & KO & ER & EC). destruct (known_at o P i j KO Hi Hj) as (p & E & R & A). exists p. split; [assumption|]. split; [assumption|].
  pose proof KO as ((_ & Hw & _ & _ & _ & _ & _ & HL) & _). apply HL. rewrite <- EC. rewrite concat_get; auto; [now apply wfm_rect|lia|lia].
Qed.
Lemma lin_known o d k n : known o d -> o_size o = Ok n -> 0 <= k < n -> exists p, znth (entries d) k = Some p /\ 0 <= p < N /\ o_lin c o k = Ok p.
Proof.
  intros KO HS Hk. pose proof KO as (Hd & Hp & _). destruct (linear_of c o d Hd) as (H1 & H2 & H3). fold (entries d) in *. rewrite H2 in HS. injection HS as HS.
  destruct (znth_some (entries d) k) as [p E]; [lia|]. exists p. split; [assumption|]. split; [apply Hp; now apply znth_in in E|now apply H3].
Qed.
Lemma view_size o : is_view c N o -> exists n, o_size o = Ok n /\ 0 <= n <= LONG_MAX.
Proof.
  intros HV. destruct (view_known o HV) as [d KO]. destruct (linear_of c o d (proj1 KO)) as (H1 & H2 & H3). fold (entries d) in *. exists (zlen (entries d)). pose proof (zlen_nonneg (entries d)). split; [assumption|lia].
Qed.

(** Values: reading and writing through a view. *)
Lemma value1_thm {V} o (b : list V) ix n : is_view c N o -> zlen b = N -> o_size o = Ok n -> idx_fits n ix ->
  let i := denotes n ix in
  (0 <= i < n -> exists p v, o_lin c o i = Ok p /\ znth b p = Some v /\ o_sub1 c o b ix = Ok v /\
     forall x, exists b', o_set c o b i x = Ok b' /\ zlen b' = N /\ forall q, znth b' q = if q =? p then Some x else znth b q) /\
  (~ 0 <= i < n -> checked c = true -> o_sub1 c o b ix = Fail (report c)).
Proof.
  intros HV HB HS HF i. destruct (view_size o HV) as (n' & E' & HN). rewrite HS in E'. injection E' as <-. destruct (view_known o HV) as [d KO].
  unfold o_sub1. rewrite HS. cbn [bind]. rewrite idx_get_ok by auto. fold i. cbn [bind]. split.
  - intros Hi. destruct (lin_known o d i n KO HS Hi) as (p & E & R & L). destruct (znth_some b p) as [v Ev]; [lia|]. exists p, v. split; [assumption|]. split; [assumption|].
    replace (valid_index n i) with true by (unfold valid_index; lia). rewrite check_debug_true. cbn [bind]. unfold o_get, o_set. rewrite L. cbn [bind]. split; [now apply oget_ok|].
    intros x. rewrite oset_ok by lia. eexists. split; [reflexivity|]. rewrite zlen_zupd. split; [assumption|]. intros q. apply znth_zupd. lia.
  - intros Hi Hk. replace (valid_index n i) with false by (unfold valid_index; lia). now rewrite check_debug_false.
Qed.
Lemma value2_thm {V} o (b : list V) ix jx : is_view c N o -> is_two o = true -> zlen b = N -> idx_fits (o_rows o) ix -> idx_fits (o_cols o) jx ->
  let i := denotes (o_rows o) ix in let j := denotes (o_cols o) jx in let inside := 0 <= i < o_rows o /\ 0 <= j < o_cols o in
  (inside -> exists p v, o_at c o i j = Ok p /\ znth b p = Some v /\ o_sub2 c o b ix jx = Ok v /\
     forall x, exists b', o_set2 c o b i j x = Ok b' /\ zlen b' = N /\ forall q, znth b' q = if q =? p then Some x else znth b q) /\
  (~ inside -> checked c = true -> o_sub2 c o b ix jx = Fail (report c)).
Proof.
  intros HV HT HB F1 F2 i j inside. pose proof (view_dims o HV HT) as (B1 & B2 & _). destruct (known2 o HV HT) as (P & KO & ER & EC).
  unfold o_sub2. rewrite !idx_get_ok by auto. fold i j. cbn [bind]. split.
  - intros [Hi Hj]. destruct (known_at o P i j KO Hi Hj) as (p & E & R & L). destruct (znth_some b p) as [v Ev]; [lia|]. exists p, v. split; [assumption|]. split; [assumption|].
    replace (Array2D.valid_index2 _ _ i j) with true by (unfold Array2D.valid_index2, valid_row, valid_col; lia). rewrite check_debug_true. cbn [bind]. unfold o_get2, o_set2. rewrite L. cbn [bind]. split; [now apply oget_ok|].
    intros x. rewrite oset_ok by lia. eexists. split; [reflexivity|]. rewrite zlen_zupd. split; [assumption|]. intros q. apply znth_zupd. lia.
  - intros Hi Hk. replace (Array2D.valid_index2 _ _ i j) with false by (unfold Array2D.valid_index2, valid_row, valid_col, inside in *; lia). now rewrite check_debug_false.
Qed.

(** view1D and view2D *)
Lemma view1_thm o : is_view c N o -> is_two o = true ->
  exists v, o_view1 c o = Ok v /\ line_of c N o v (o_rows o * o_cols o) (fun t => (t / o_cols o, t mod o_cols o)).
Proof.
  intros HV HT. destruct (known2 o HV HT) as (P & KO & ER & EC). pose proof (view_dims o HV HT) as (B1 & B2 & _).
  destruct (known_apply o (D2 P) VwView1 KO) as (v & d & E1 & E2 & KV); cbn [vop_typed vop_fits vop_ok]; auto.
  unfold o_apply in E2. rewrite HT in E2. exists v. split; [assumption|]. cbn in E1. injection E1 as <-. assert (wfm P) as Hw by apply KO.
  apply (line_intro o v _ _ (concat P) P); auto; [rewrite concat_len, ER, EC; auto|]. intros t Ht. cbn [fst snd].
  assert (0 < o_cols o) as Hc by (destruct (Z.eq_dec (o_cols o) 0) as [E0|]; [rewrite E0 in Ht|]; lia).
  destruct (addr_div (o_rows o) (o_cols o) t Hc Ht) as (i & j & Hi & Hj & ->). rewrite Z.div_add_l, Z.div_small, Z.add_0_r by lia.
  rewrite (Z.add_comm (i * _)), Z.mod_add, Z.mod_small by lia. split; [assumption|]. split; [assumption|]. rewrite Z.add_comm. rewrite <- EC. apply concat_get; [now apply wfm_rect|lia|lia].
Qed.
Lemma view1_line_thm o : is_view c N o -> is_two o = false -> exists v, o_apply c o VwView1 = Ok v /\ is_view c N v /\ o_size v = o_size o /\
  forall n t, o_size o = Ok n -> 0 <= t < n -> exists p, 0 <= p < N /\ o_lin c o t = Ok p /\ o_lin c v t = Ok p.
Proof.
  intros HV HT. destruct (view_known o HV) as [[ps|P] KO]; [|destruct KO as ((H & _) & _); congruence].
  destruct (known_apply o (D1 ps) VwView1 KO) as (v & d & E1 & E2 & KV); cbn [vop_typed vop_fits vop_ok]; auto.
  exists v. split; [assumption|]. cbn in E1. injection E1 as <-. split; [eapply known_view; eauto|]. split. { destruct KO as ((_ & _ & -> & _) & _). destruct KV as ((_ & _ & -> & _) & _). reflexivity. }
  intros n t HS Ht. destruct (lin_known o _ t n KO HS Ht) as (p & E & R & L). exists p. split; [assumption|]. split; [assumption|]. destruct KV as ((_ & _ & _ & HN) & _). now apply HN.
Qed.
Lemma typed_view2 d m n : vop_typed d (VwView2 m n) = true.
Proof. now destruct d. Qed.
Lemma view2_thm o k m n : is_view c N o -> o_size o = Ok k -> is_long m -> is_long n -> is_long (m * n) ->
  (0 <= m -> 0 <= n -> m * n = k -> exists v, o_view2 c o m n = Ok v /\ is_view c N v /\ is_two v = true /\
     o_rows v = clip m n /\ o_cols v = clip n m /\ o_size v = Ok k /\
     (forall i j, 0 <= i < m -> 0 <= j < n -> exists p, 0 <= p < N /\ o_lin c o (i * n + j) = Ok p /\ o_at c v i j = Ok p) /\
     (forall t, 0 <= t < k -> exists p, 0 <= p < N /\ o_lin c o t = Ok p /\ o_lin c v t = Ok p)) /\
  (m * n <> k -> exc c = true \/ ndbg c = false -> o_view2 c o m n = Fail (report c)) /\
  (m < 0 \/ n < 0 -> checked c = true -> o_view2 c o m n = Fail (report c)).
Proof.
  intros HV HS Lm Ln Lmn. destruct (view_known o HV) as [d KO]. pose proof (linear_of c o d (proj1 KO)) as (H1 & H2 & H3). fold (entries d) in *. rewrite HS in H2. injection H2 as H2. split; [|split].
  - intros Hm Hn HK. pose proof (known_apply o d (VwView2 m n) KO (typed_view2 d m n)) as HA.
    destruct HA as (v & d' & E1 & E2 & KV).
    { destruct d; cbn; auto. }
    { destruct d as [ps|P]; cbn [vop_ok entries] in *; [lia|]. rewrite concat_len in H2; [lia|]. apply KO. }
    assert (o_view2 c o m n = Ok v) as E3 by (unfold o_apply in E2; destruct (is_two o); exact E2). exists v. split; [assumption|]. split; [eapply known_view; eauto|].
    assert (d' = D2 (norm (chunks m n (entries d)))) as -> by (destruct d; cbn [den_apply entries] in *; congruence).
    destruct (chunks_spec m n (entries d) Hm Hn) as (CR & CL & CN); [lia|]. destruct (norm_shape m n _ Hm Hn CR CL) as (S1 & S2 & S3).
    pose proof KV as ((HT & Hw & HL & ER & EC & HSv & HA & HLin) & _). split; [assumption|]. split; [congruence|]. split; [congruence|].
    assert (zlen (norm (chunks m n (entries d))) * ncols (norm (chunks m n (entries d))) = k) as EK.
    { rewrite S1, S2. unfold clip. destruct (Z.eqb_spec n 0) as [->|]; [lia|]. destruct (Z.eqb_spec m 0) as [->|]; lia. }
    split; [now rewrite HSv, EK|].
    assert (forall i j, 0 <= i < m -> 0 <= j < n -> exists p, mget (norm (chunks m n (entries d))) i j = Some p /\ 0 <= p < N /\ o_lin c o (i * n + j) = Ok p /\ o_at c v i j = Ok p) as HE.
    { intros i j Hi Hj. rewrite S3 by lia. destruct (lin_known o d (i * n + j) k KO HS) as (p & E & R & L). { pose proof (addr_range m n i j Hi Hj). lia. }
      exists p. rewrite CN by assumption. split; [assumption|]. split; [assumption|]. split; [assumption|]. apply HA. rewrite S3 by lia. now rewrite CN. }
    split; [intros i j Hi Hj; destruct (HE i j Hi Hj) as (p & _ & R); eauto|].
    intros t Ht. assert (0 < n) by (destruct (Z.eq_dec n 0) as [E0|]; [rewrite E0 in HK|]; lia). destruct (addr_div m n t) as (i & j & Hi & Hj & ->); [assumption|lia|].
    destruct (HE i j Hi Hj) as (p & E & R & L & _). exists p. split; [assumption|]. split; [assumption|]. apply HLin. rewrite S3 in * by lia. rewrite (concat_get n); auto; lia.
  - intros HK HE. apply (view2_mismatch c (F:=Ok) o d); auto; [apply KO|]. fold (entries d). lia.
  - intros HN HK. apply (view2_negative c (F:=Ok) o d); auto. apply KO.
Qed.
(** Views of views are again views, and an invalid request anywhere in a chain is reported. *)
Lemma chain_thm ws o : is_view c N o -> (forall d, o_denotes c o d -> chain_ok d ws) -> exists v, o_chain c o ws = Ok v /\ is_view c N v.
Proof.
  intros HV HC. destruct (view_known o HV) as [d KO]. specialize (HC d (proj1 KO)). revert o d HV KO HC. induction ws as [|w ws IH]; intros o d HV KO HC; [exists o; auto|].
  destruct HC as (HT & HF & HO & HC). destruct (known_apply o d w KO HT HF HO) as (v & d' & E1 & E2 & KV). rewrite E1 in HC. cbn [o_chain]. rewrite E2. cbn [bind]. apply (IH v d'); auto. eapply known_view; eauto.
Qed.
End T.

Lemma view2_negative_ok : exists c o v, is_view c 6 o /\ o_size o = Ok 6 /\ o_view2 c o (-2) (-3) = Ok v /\ o_rows v = -2 /\ o_cols v = -3.
Proof.
  exists (mkcfg false true true 1000), (O1 6). eexists. split; [|split; [reflexivity|split; [vm_compute; reflexivity|split; reflexivity]]].
  exists (O1 6), (whole1 6), []. split; [left; unfold LONG_MAX; split; [lia|split; reflexivity]|]. split; [exact I|reflexivity].
Qed.
