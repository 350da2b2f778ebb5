From Verif Require Import Base.Outcome Base.ZList Model.IntModel Model.ScalarOps Model.Index Model.Slice Model.Array1D Model.Array2D Model.Store1D Model.FixedArray.
From Verif Require Import Spec.ArraySpec Spec.SliceSpec Spec.Store1DSpec Spec.MatrixSpec Spec.Matrix2Spec Spec.FixedSpec.
From Verif Require Import Proofs.ScalarProofs Proofs.Array1DProofs Proofs.SliceProofs Proofs.ViewProofs Proofs.Store1DProofs.
Ltac Zify.zify_post_hook ::= Z.div_mod_to_equations.

Section P.
Context {V : Type} (zero : V).
Implicit Types (l m b : list V) (c : cfg) (A : src1 V).

Lemma check_gate {X} c ok (x : outcome X) : (check_debug c (Ok ok) ;;; x) = gate c ok x.
Proof.
  unfold gate, check_debug, check_always, checked, report. destruct ok; [destruct (dbg c), (exc c), (ndbg c); reflexivity|].
  destruct (dbg c), (exc c), (ndbg c); reflexivity.
Qed.

Lemma drop_drop j k l : skipn j (skipn k l) = skipn (k + j) l.
Proof. revert l. induction k as [|k IH]; intros l; [reflexivity|]. destruct l; [now rewrite skipn_nil|]. cbn. apply IH. Qed.
(** The copy loop, from any point on *)
Lemma loop_over suf : forall pre off dn rest, zlen pre - off = zlen dn ->
  for_loop (length suf) (zlen pre) (fun i b => v <- oget (pre ++ suf) i ;; oset b (i - off) v) (dn ++ rest) =
  if zlen suf <=? zlen rest then Ok (dn ++ suf ++ skipn (length suf) rest) else UB.
Proof.
  induction suf as [|x suf IH]; intros pre off dn rest E.
  - replace (zlen (@nil V) <=? zlen rest) with true by (pose proof (zlen_nonneg rest); change (zlen (@nil V)) with 0; lia). reflexivity.
  - cbn [length for_loop]. rewrite (oget_ok _ _ x) by (rewrite znth_app_r by lia; now rewrite Z.sub_diag, znth_cons_0).
    cbn [bind]. destruct rest as [|y rest].
    + rewrite oset_ub by (rewrite app_nil_r; lia). cbn [bind].
      replace (zlen (x :: suf) <=? zlen (@nil V)) with false by (rewrite zlen_cons; pose proof (zlen_nonneg suf); change (zlen (@nil V)) with 0; lia). reflexivity.
    + rewrite oset_ok by (rewrite zlen_app, zlen_cons; pose proof (zlen_nonneg rest); pose proof (zlen_nonneg dn); lia). cbn [bind].
      rewrite zupd_app_r by lia. replace (zlen pre - off - zlen dn) with 0 by lia. change (zupd (y :: rest) 0 x) with (x :: rest).
      specialize (IH (pre ++ [x]) off (dn ++ [x]) rest). rewrite <- !app_assoc in IH. cbn [app] in IH.
      rewrite !zlen_app in IH. change (zlen [x]) with 1 in IH. rewrite IH by lia. rewrite !zlen_cons.
      replace (1 + zlen suf <=? 1 + zlen rest) with (zlen suf <=? zlen rest) by lia. reflexivity.
Qed.
Lemma mloop_over suf : forall pre dn rest, zlen pre = zlen dn ->
  mfor_loop (length suf) (zlen pre) (fun i b => commit b (v <- oget (pre ++ suf) i ;; oset b i v)) (dn ++ rest) =
  if zlen suf <=? zlen rest then MOk (dn ++ suf ++ skipn (length suf) rest) else MUB.
Proof.
  induction suf as [|x suf IH]; intros pre dn rest E.
  - replace (zlen (@nil V) <=? zlen rest) with true by (pose proof (zlen_nonneg rest); change (zlen (@nil V)) with 0; lia). reflexivity.
  - cbn [length mfor_loop]. rewrite (oget_ok _ _ x) by (rewrite znth_app_r by lia; now rewrite Z.sub_diag, znth_cons_0).
    cbn [bind]. destruct rest as [|y rest].
    + rewrite oset_ub by (rewrite app_nil_r; lia). cbn [commit mseq mbind].
      replace (zlen (x :: suf) <=? zlen (@nil V)) with false by (rewrite zlen_cons; pose proof (zlen_nonneg suf); change (zlen (@nil V)) with 0; lia). reflexivity.
    + rewrite oset_ok by (rewrite zlen_app, zlen_cons; pose proof (zlen_nonneg rest); pose proof (zlen_nonneg dn); lia). cbn [commit mseq mbind].
      rewrite zupd_app_r by lia. replace (zlen pre - zlen dn) with 0 by lia. change (zupd (y :: rest) 0 x) with (x :: rest).
      specialize (IH (pre ++ [x]) (dn ++ [x]) rest). rewrite <- !app_assoc in IH. cbn [app] in IH.
      rewrite !zlen_app in IH. change (zlen [x]) with 1 in IH. rewrite IH by lia. rewrite !zlen_cons.
      replace (1 + zlen suf <=? 1 + zlen rest) with (zlen suf <=? zlen rest) by lia. reflexivity.
Qed.

Lemma copy_over A m b : produces A m -> copy A b = over b m.
Proof.
  intros [E H]. unfold copy. rewrite E. rewrite (for_ext 0 (zlen m) _ (fun i b => v <- oget m i ;; oset b (i - 0) v)).
  - unfold for_. replace (Z.to_nat (zlen m - 0)) with (length m) by (unfold zlen; lia).
    exact (loop_over m [] 0 [] b eq_refl).
  - intros i s Hi. rewrite H by lia. now rewrite Z.sub_0_r.
Qed.
Lemma assign_over m b : assign_loop (zlen m) (fun _ => oget m) b = match over b m with Ok b' => MOk b' | Fail f => MFail f b | UB => MUB end.
Proof.
  unfold assign_loop, mfor, over. replace (Z.to_nat (zlen m - 0)) with (length m) by (unfold zlen; lia).
  etransitivity; [exact (mloop_over m [] [] b eq_refl)|]. destruct (zlen m <=? zlen b); reflexivity.
Qed.
Lemma over_same l m : zlen l = zlen m -> over l m = Ok m.
Proof. intros E. unfold over. rewrite E, Z.leb_refl. rewrite skipn_all2 by (unfold zlen in E; lia). now rewrite app_nil_r. Qed.
Lemma over_len l m r : over l m = Ok r -> zlen r = zlen l.
Proof.
  unfold over. destruct (Z.leb_spec (zlen m) (zlen l)); [|discriminate]. intros [= <-]. unfold zlen in *. rewrite app_length, skipn_length. lia.
Qed.

Notation ob l := (mkarr l (zlen l)).
Lemma zeros_len n : 0 <= n -> zlen (zeros zero n) = n.
Proof. apply zlen_repeat. Qed.
Lemma fx_new_ob n : 0 <= n -> fx_new zero n = ob (zeros zero n).
Proof. intros. unfold fx_new. rewrite zeros_len by assumption. reflexivity. Qed.
Lemma set_all_ob x l : arr_set_all x (ob l) = Ok (ob (repeat x (length l))).
Proof.
  unfold arr_set_all. cbn [an buf]. rewrite fill_ok. cbn [bind]. do 2 f_equal. unfold zlen. now rewrite repeat_length.
Qed.
Definition obo (m : outcome (list V)) : outcome (arr V) := match m with Ok l => Ok (ob l) | Fail f => Fail f | UB => UB end.
Lemma of_src_ob c n A m : 0 <= n -> produces A m -> fx_of_src zero c n A = obo (gate c (n =? zlen m) (over (zeros zero n) m)).
Proof.
  intros Hn HA. unfold fx_of_src. rewrite check_gate, (proj1 HA). unfold gate. destruct (_ || _); [|reflexivity].
  cbn [buf fx_new]. rewrite (copy_over A m) by assumption. fold (zeros zero n). destruct (over (zeros zero n) m) as [r|f|] eqn:E; cbn [bind obo]; auto.
  apply over_len in E. rewrite zeros_len in E by assumption. now rewrite E.
Qed.
Lemma src_arr_ob m : produces (src_of_arr (ob m)) m.
Proof. apply produces_arr. now split. Qed.
Lemma copy_ob l : fx_copy zero (ob l) = Ok (ob l).
Proof.
  unfold fx_copy. cbn [an]. rewrite (copy_over _ l _ (src_arr_ob l)). cbn [fx_new buf].
  rewrite over_same by (apply zlen_repeat; apply zlen_nonneg). reflexivity.
Qed.
Lemma zeros_length l : repeat zero (length l) = zeros zero (zlen l).
Proof. unfold zeros, zlen. now rewrite Nat2Z.id. Qed.
Lemma move_ob l : fx_move zero (ob l) = Ok (ob l, ob (zeros zero (zlen l))).
Proof. unfold fx_move. rewrite copy_ob. cbn [noexcept bind]. rewrite set_all_ob, zeros_length. reflexivity. Qed.
Lemma of_iter_ob c n m p q : 0 <= n -> 0 <= p <= zlen m -> 0 <= q <= zlen m -> zlen m <= LONG_MAX ->
  fx_of_iter zero c n m p q =
  obo (gate c (q - p =? n) (gate c (p <=? q) (if q <? p then UB else over (zeros zero n) (segment m p q)))).
Proof.
  intros Hn Hp Hq Hm. unfold fx_of_iter. rewrite lsub_ok by (unfold LONG_MIN, LONG_MAX in *; lia). cbn [bind]. rewrite !check_gate. unfold gate.
  destruct (_ || _); [|reflexivity]. destruct (_ || _); [|reflexivity]. destruct (Z.ltb_spec q p) as [|Hpq]; [reflexivity|].
  assert (m = firstn (Z.to_nat p) m ++ segment m p q ++ skipn (Z.to_nat q) m) as Em.
  { unfold segment. rewrite <- (firstn_skipn (Z.to_nat p) m) at 1. f_equal.
    rewrite <- (firstn_skipn (Z.to_nat (q - p)) (skipn (Z.to_nat p) m)) at 1. f_equal. rewrite drop_drop. f_equal. lia. }
  assert (zlen (segment m p q) = q - p) as El.
  { unfold segment. rewrite zlen_firstn; [reflexivity|]. rewrite zlen_skipn by lia. lia. }
  assert (zlen (firstn (Z.to_nat p) m) = p) as Ep by (apply zlen_firstn; lia).
  rewrite (for_ext p q _ (fun i b => v <- oget (firstn (Z.to_nat p) m ++ segment m p q) i ;; oset b (i - p) v)).
  - unfold for_. replace (Z.to_nat (q - p)) with (length (segment m p q)) by (unfold zlen in El; lia).
    cbn [fx_new buf]. fold (zeros zero n).
    pose proof (loop_over (segment m p q) (firstn (Z.to_nat p) m) p [] (zeros zero n)) as HL. rewrite Ep in HL.
    change (zlen (@nil V)) with 0 in HL. cbn [app] in HL. rewrite HL by lia.
    fold (over (zeros zero n) (segment m p q)). destruct (over (zeros zero n) (segment m p q)) as [r|f|] eqn:E; cbn [bind obo]; auto.
    apply over_len in E. rewrite zeros_len in E by assumption. now rewrite E.
  - intros i s Hi. f_equal. unfold oget. rewrite Em at 1. rewrite app_assoc. rewrite znth_app_l; [reflexivity|].
    rewrite zlen_app, Ep, El. lia.
Qed.
Definition obm (l : list V) (m : outcome (list V)) : mut (arr V) := match m with Ok r => MOk (ob r) | Fail f => MFail f (ob l) | UB => MUB end.
Lemma assign_ob c A m l : produces A m -> (forall i, sun A i = oget m i) -> fx_assign c A (ob l) = obm l (gate c (zlen l =? zlen m) (over l m)).
Proof.
  intros [E _] H. unfold fx_assign, arr_assign, arr_assign_rd. cbn [an buf]. rewrite E.
  assert (assign_loop (zlen m) (fun _ => sun A) l = assign_loop (zlen m) (fun _ => oget m) l) as ->.
  { unfold assign_loop, mfor. generalize (Z.to_nat (zlen m - 0)). intros k. generalize 0. clear E. revert l. induction k as [|k IH]; intros l0 i; [reflexivity|].
    cbn [mfor_loop]. rewrite H. destruct (commit l0 _); cbn [mseq mbind]; auto. }
  rewrite assign_over. unfold gate, check_debug, check_always, checked, report. 
  assert (forall r, over l m = Ok r -> zlen r = zlen l) as HL by (intros; eapply over_len; eauto).
  assert (forall f, over l m <> Fail f) as HF by (intros f; unfold over; destruct (_ <=? _); discriminate).
  destruct (zlen l =? zlen m) eqn:EE, (dbg c), (exc c), (ndbg c); cbn [bind orb negb andb]; try reflexivity;
    destruct (over l m) as [r|f|]; try (now exfalso; eapply HF); cbn [with_buf mbind obm an]; try (rewrite (HL r) by reflexivity); reflexivity.
Qed.
Lemma assign_same_ob m l : zlen l = zlen m -> fx_assign_same (ob m) (ob l) = MOk (ob m).
Proof.
  intros E. unfold fx_assign_same. cbn [an buf src_of_arr sun].
  change (fun _ : list V => oget m) with (fun _ : list V => oget m). rewrite assign_over, over_same by assumption. cbn. now rewrite E.
Qed.
Lemma move_assign_ob m l : zlen l = zlen m -> fx_move_assign zero (ob l) (ob m) = Ok (ob m, ob (zeros zero (zlen m))).
Proof. intros E. unfold fx_move_assign. rewrite assign_same_ob by assumption. rewrite set_all_ob, zeros_length. reflexivity. Qed.
Lemma swap_ob m l : zlen l = zlen m -> fx_swap zero (ob l) (ob m) = Ok (ob m, ob l).
Proof.
  intros E. unfold fx_swap. rewrite move_ob. cbn [bind fst snd]. rewrite move_assign_ob by (rewrite zeros_len; auto using zlen_nonneg).
  cbn [bind fst snd]. rewrite move_assign_ob by (rewrite zeros_len; auto using zlen_nonneg). reflexivity.
Qed.
Lemma swap_self_ob l : fx_swap_self zero (ob l) = Ok (ob l).
Proof.
  unfold fx_swap_self. rewrite move_ob. cbn [bind fst snd]. rewrite move_assign_ob by (rewrite zeros_len; auto using zlen_nonneg). reflexivity.
Qed.

Lemma pos_cases c l ix : zlen l <= LONG_MAX -> match ix with Plain i => is_long i | FromLast k => is_long k end ->
  (idx_get (zlen l) ix = UB /\ (match ix with Plain _ => false | FromLast d => LONG_MAX <? zlen l - d end) = true) \/
  (idx_get (zlen l) ix = Ok (denotes (zlen l) ix) /\ (match ix with Plain _ => false | FromLast d => LONG_MAX <? zlen l - d end) = false).
Proof.
  intros HL Hix. pose proof (zlen_nonneg l). destruct (match ix with Plain _ => false | FromLast d => LONG_MAX <? zlen l - d end) eqn:F.
  - left. split; [|reflexivity]. destruct ix as [i|k]; [discriminate|]. apply idx_get_ub; auto; lia.
  - right. split; [|reflexivity]. apply idx_get_ok; [lia|]. destruct ix; [assumption|split; [assumption|lia]].
Qed.
Lemma write_ob c ix x l : zlen l <= LONG_MAX -> match ix with Plain i => is_long i | FromLast k => is_long k end ->
  arr_write c ix x (ob l) = obo (at_pos c l ix (fun p => Ok (zupd l p x))).
Proof.
  intros HL Hix. unfold arr_write, at_pos. cbn [an buf]. destruct (pos_cases c l ix HL Hix) as [[-> ->]|[-> ->]]; [reflexivity|]. cbn [bind].
  set (p := denotes (zlen l) ix). rewrite check_gate. unfold gate, valid_index, in_range.
  replace ((-1 <? p) && (p <? zlen l)) with ((0 <=? p) && (p <? zlen l)) by lia. destruct ((0 <=? p) && (p <? zlen l)) eqn:G; cbn [orb].
  - rewrite oset_ok by lia. cbn [bind obo]. now rewrite zlen_zupd.
  - destruct (checked c); [reflexivity|]. cbn [negb]. rewrite oset_ub by lia. reflexivity.
Qed.
Lemma read_ob c ix l : zlen l <= LONG_MAX -> match ix with Plain i => is_long i | FromLast k => is_long k end ->
  sub1 c (src_of_arr (ob l)) ix = at_pos c l ix (fun p => oget l p).
Proof.
  intros HL Hix. unfold sub1, at_pos. cbn [an buf src_of_arr ssize sun]. destruct (pos_cases c l ix HL Hix) as [[-> ->]|[-> ->]]; [reflexivity|]. cbn [bind].
  set (p := denotes (zlen l) ix). rewrite check_gate. unfold gate, valid_index, in_range.
  replace ((-1 <? p) && (p <? zlen l)) with ((0 <=? p) && (p <? zlen l)) by lia. destruct ((0 <=? p) && (p <? zlen l)) eqn:G; cbn [orb]; [reflexivity|].
  destruct (checked c); [reflexivity|]. cbn [negb]. rewrite oget_ub by lia. reflexivity.
Qed.

(** Steps and programs *)
Lemma objects_nth (w : list (list V)) i : znth (objects w) i = option_map (fun l => ob l) (znth w i).
Proof. apply znth_map. Qed.
Lemma objects_upd (w : list (list V)) i l : zupd (objects w) i (ob l) = objects (zupd w i l).
Proof.
  unfold objects, zupd. destruct (i <? 0); [reflexivity|]. generalize (Z.to_nat i). induction w as [|x w IH]; intros k; [destruct k; reflexivity|].
  destruct k; cbn; [reflexivity|]. now rewrite IH.
Qed.
Lemma objects_app (w : list (list V)) l : objects w ++ [ob l] = objects (w ++ [l]).
Proof. unfold objects. now rewrite map_app. Qed.
Lemma push_ob w (m : outcome (list V)) : push (objects w) (obo m) = on_res (spush w m).
Proof. destruct m; cbn; [now rewrite objects_app|reflexivity|reflexivity]. Qed.
Lemma put_ob w i (m : outcome (list V)) : put (objects w) i (obo m) = on_res (sput w i m).
Proof. destruct m; cbn; [now rewrite objects_upd|reflexivity|reflexivity]. Qed.
Lemma put_mut_ob w i l (m : outcome (list V)) : znth w i = Some l -> put_mut (objects w) i (obm l m) = on_res (sput w i m).
Proof. intros H. destruct m; cbn; [now rewrite objects_upd|rewrite objects_upd, zupd_id by assumption; reflexivity|reflexivity]. Qed.
Lemma with1_ob w i (k : arr V -> res (list (arr V)) V) k' : (forall l, znth w i = Some l -> k (ob l) = on_res (k' l)) -> with1 (objects w) i k = on_res (swith1 w i k').
Proof. intros H. unfold with1, swith1. rewrite objects_nth. destruct (znth w i) as [l|]; cbn; [now apply H|reflexivity]. Qed.
Lemma with2_ob w i j (k : arr V -> arr V -> res (list (arr V)) V) k' :
  (forall l m, znth w i = Some l -> znth w j = Some m -> k (ob l) (ob m) = on_res (k' l m)) -> with2 (objects w) i j k = on_res (swith2 w i j k').
Proof. intros H. unfold with2, swith2. apply with1_ob. intros l Hl. apply with1_ob. intros m Hm. now apply H. Qed.

Lemma sizes_nth (w : list (list V)) i l : sizes_long w -> znth w i = Some l -> zlen l <= LONG_MAX.
Proof. intros H E. apply znth_in in E. unfold sizes_long in H. rewrite Forall_forall in H. now apply H. Qed.

Theorem fstep_thm c w o : sizes_long w -> fop_ok w o -> fstep zero c (objects w) o = on_res (spec_fstep zero c w o).
Proof.
  intros HS HO. destruct o as [n|n x|n l|j|j|n j|n j p q|i x|i l|i j|i j|i j|i ix x|i ix|i]; cbn [fstep spec_fstep fop_ok] in *.
  - rewrite fx_new_ob by lia. apply (push_ob w (Ok _)).
  - unfold fx_new_fill. rewrite fx_new_ob by lia. rewrite set_all_ob. unfold zeros. rewrite repeat_length. apply (push_ob w (Ok _)).
  - unfold fx_of_list. rewrite (of_src_ob c n _ l) by (try lia; apply produces_list). apply push_ob.
  - apply with1_ob. intros l Hl. rewrite copy_ob. apply (push_ob w (Ok _)).
  - apply with1_ob. intros l Hl. rewrite move_ob. rewrite objects_upd, objects_app. reflexivity.
  - apply with1_ob. intros l Hl. cbn [an]. destruct (Z.eqb_spec n (zlen l)) as [->|NE].
    + rewrite copy_ob. unfold gate. cbn [orb]. rewrite over_same by (apply zeros_len, zlen_nonneg). apply (push_ob w (Ok _)).
    + rewrite (of_src_ob c n _ l) by (try lia; apply src_arr_ob). replace (n =? zlen l) with false by lia. apply push_ob.
  - apply with1_ob. intros l Hl. cbn [buf]. destruct HO as [Hn HP]. destruct (HP l Hl). rewrite of_iter_ob by (try lia; eapply sizes_nth; eauto). apply push_ob.
  - apply with1_ob. intros l Hl. unfold fx_set_all. rewrite set_all_ob. apply (put_ob w i (Ok _)).
  - apply with1_ob. intros m Hm. change (fx_assign_list c l (ob m)) with (fx_assign c (src_of_list l) (ob m)).
    rewrite (assign_ob c _ l m) by (reflexivity || apply produces_list). now apply put_mut_ob.
  - apply with2_ob. intros l m Hl Hm. destruct (i =? j); [reflexivity|]. cbn [an]. destruct (Z.eqb_spec (zlen l) (zlen m)) as [E|NE].
    + rewrite assign_same_ob by assumption. unfold gate. cbn [orb]. rewrite over_same by assumption. apply (put_mut_ob w i l (Ok m)). assumption.
    + rewrite (assign_ob c _ m l) by (reflexivity || apply src_arr_ob). replace (zlen l =? zlen m) with false by lia. now apply put_mut_ob.
  - apply with2_ob. intros l m Hl Hm. destruct (i =? j); [reflexivity|]. cbn [an]. destruct (Z.eqb_spec (zlen l) (zlen m)) as [E|NE].
    + rewrite move_assign_ob by assumption. now rewrite !objects_upd.
    + rewrite (assign_ob c _ m l) by (reflexivity || apply src_arr_ob). replace (zlen l =? zlen m) with false by lia. now apply put_mut_ob.
  - apply with2_ob. intros l m Hl Hm. destruct (Z.eqb_spec i j) as [->|NE].
    + rewrite Hl in Hm. injection Hm as ->. rewrite Z.eqb_refl, swap_self_ob. cbn. rewrite objects_upd. do 2 f_equal.
      rewrite zupd_twice; [reflexivity|]. now apply znth_lt in Hl.
    + cbn [an]. destruct (Z.eqb_spec (zlen l) (zlen m)) as [E|]; [|reflexivity]. rewrite swap_ob by assumption. now rewrite !objects_upd.
  - apply with1_ob. intros l Hl. rewrite write_ob by (auto; eapply sizes_nth; eauto). apply put_ob.
  - apply with1_ob. intros l Hl. rewrite read_ob by (auto; eapply sizes_nth; eauto). destruct (at_pos c l ix _); reflexivity.
  - apply with1_ob. intros l Hl. reflexivity.
Qed.

(** Sizes never change. *)
Notation lens := (map (fun l : list V => zlen l)).
Definition keeps (w w' : list (list V)) : Prop := exists t, lens w' = lens w ++ t /\ Forall (fun n => n <= LONG_MAX) t.
Lemma lens_upd (w : list (list V)) i l m : znth w i = Some l -> zlen m = zlen l -> lens (zupd w i m) = lens w.
Proof.
  intros H E. pose proof (znth_lt _ _ _ H). apply list_ext_zlen; rewrite !zlen_map, ?zlen_zupd; [reflexivity|]. intros k Hk.
  rewrite !znth_map, znth_zupd by lia. destruct (Z.eqb_spec k i) as [->|]; [|reflexivity]. rewrite H. cbn. congruence.
Qed.
Lemma keeps_refl w : keeps w w.
Proof. exists []. rewrite app_nil_r. auto. Qed.
Lemma keeps_app w l : zlen l <= LONG_MAX -> keeps w (w ++ [l]).
Proof. intros H. exists [zlen l]. rewrite map_app. auto. Qed.
Lemma keeps_upd w i l m : znth w i = Some l -> zlen m = zlen l -> keeps w (zupd w i m).
Proof. intros. exists []. rewrite (lens_upd w i l m), app_nil_r by assumption. auto. Qed.
Lemma keeps_push w (m : outcome (list V)) w' (o : obs V) : (forall l, m = Ok l -> zlen l <= LONG_MAX) -> spush w m = Next w' o -> keeps w w'.
Proof. intros H. destruct m; cbn; intros [= <- <-]; auto using keeps_app, keeps_refl. Qed.
Lemma keeps_put w i l (m : outcome (list V)) w' (o : obs V) : znth w i = Some l -> (forall r, m = Ok r -> zlen r = zlen l) -> sput w i m = Next w' o -> keeps w w'.
Proof. intros HL H. destruct m; cbn; intros [= <- <-]; eauto using keeps_upd, keeps_refl. Qed.
Lemma gate_len c ok l m r : gate c ok (over l m) = Ok r -> zlen r = zlen l.
Proof. unfold gate. destruct (_ || _); [apply over_len|discriminate]. Qed.
Lemma with1_inv {X} (w : list X) i (k : X -> res (list X) V) w' o : swith1 w i k = Next w' o ->
  (w' = w) \/ exists l : X, znth w i = Some l /\ k l = Next w' o.
Proof. unfold swith1. destruct (znth w i); intros H; [eauto|injection H; auto]. Qed.

Lemma keeps_step c w o w' ob0 : sizes_long w -> fop_ok w o -> spec_fstep zero c w o = Next w' ob0 -> keeps w w'.
Proof.
  intros HS HO. destruct o as [n|n x|n l|j|j|n j|n j p q|i x|i l|i j|i j|i j|i ix x|i ix|i]; cbn [spec_fstep fop_ok] in *; intros H.
  - eapply keeps_push; [|exact H]. intros l [= <-]. rewrite zeros_len; lia.
  - eapply keeps_push; [|exact H]. intros l [= <-]. rewrite zlen_repeat; lia.
  - eapply keeps_push; [|exact H]. intros r E. apply gate_len in E. rewrite zeros_len in E; lia.
  - apply with1_inv in H. destruct H as [->|(l & Hl & H)]; [apply keeps_refl|]. eapply keeps_push; [|exact H]. intros r [= <-]. eapply sizes_nth; eauto.
  - apply with1_inv in H. destruct H as [->|(l & Hl & H)]; [apply keeps_refl|]. injection H as <- _. exists [zlen l].
    rewrite map_app, (lens_upd w j l) by (auto; apply zeros_len, zlen_nonneg). split; [reflexivity|]. constructor; [eapply sizes_nth; eauto|constructor].
  - apply with1_inv in H. destruct H as [->|(l & Hl & H)]; [apply keeps_refl|]. eapply keeps_push; [|exact H]. intros r E. apply gate_len in E. rewrite zeros_len in E; lia.
  - apply with1_inv in H. destruct H as [->|(l & Hl & H)]; [apply keeps_refl|]. eapply keeps_push; [|exact H]. intros r E. unfold gate at 1 in E.
    destruct (_ || _); [|discriminate]. unfold gate in E. destruct (_ || _); [|discriminate]. destruct (q <? p); [discriminate|]. apply over_len in E. rewrite zeros_len in E; lia.
  - apply with1_inv in H. destruct H as [->|(l & Hl & H)]; [apply keeps_refl|]. eapply keeps_put; [exact Hl| |exact H]. intros r [= <-]. unfold zlen. now rewrite repeat_length.
  - apply with1_inv in H. destruct H as [->|(m & Hm & H)]; [apply keeps_refl|]. eapply keeps_put; [exact Hm| |exact H]. intros r E. now apply gate_len in E.
  - unfold swith2 in H. apply with1_inv in H. destruct H as [->|(l & Hl & H)]; [apply keeps_refl|]. apply with1_inv in H. destruct H as [->|(m & Hm & H)]; [apply keeps_refl|].
    destruct (i =? j); [injection H as <- _; apply keeps_refl|]. eapply keeps_put; [exact Hl| |exact H]. intros r E. now apply gate_len in E.
  - unfold swith2 in H. apply with1_inv in H. destruct H as [->|(l & Hl & H)]; [apply keeps_refl|]. apply with1_inv in H. destruct H as [->|(m & Hm & H)]; [apply keeps_refl|].
    destruct (Z.eqb_spec i j); [injection H as <- _; apply keeps_refl|]. destruct (Z.eqb_spec (zlen l) (zlen m)) as [E|].
    + injection H as <- _. exists []. rewrite app_nil_r. split; [|constructor]. pose proof (znth_lt _ _ _ Hl). pose proof (znth_lt _ _ _ Hm).
      rewrite (lens_upd (zupd w i m) j m).
      * eapply lens_upd; eauto.
      * rewrite znth_zupd by lia. now replace (j =? i) with false by lia.
      * apply zeros_len, zlen_nonneg.
    + eapply keeps_put; [exact Hl| |exact H]. intros r E. now apply gate_len in E.
  - unfold swith2 in H. apply with1_inv in H. destruct H as [->|(l & Hl & H)]; [apply keeps_refl|]. apply with1_inv in H. destruct H as [->|(m & Hm & H)]; [apply keeps_refl|].
    destruct (Z.eqb_spec (zlen l) (zlen m)) as [E|]; [|injection H as <- _; apply keeps_refl]. injection H as <- _. exists []. rewrite app_nil_r. split; [|constructor].
    pose proof (znth_lt _ _ _ Hl). pose proof (znth_lt _ _ _ Hm). destruct (Z.eqb_spec i j) as [->|].
    + rewrite zupd_twice by lia. rewrite Hl in Hm. injection Hm as ->. eapply lens_upd; eauto.
    + rewrite (lens_upd (zupd w i m) j m); [eapply lens_upd; eauto| |assumption]. rewrite znth_zupd by lia. now replace (j =? i) with false by lia.
  - apply with1_inv in H. destruct H as [->|(l & Hl & H)]; [apply keeps_refl|]. eapply keeps_put; [exact Hl| |exact H]. intros r E. unfold at_pos in E.
    destruct (match ix with Plain _ => false | FromLast d => LONG_MAX <? zlen l - d end); [discriminate|]. destruct (in_range _ _); [|destruct (checked c); discriminate].
    injection E as <-. apply zlen_zupd.
  - apply with1_inv in H. destruct H as [->|(l & Hl & H)]; [apply keeps_refl|]. destruct (at_pos c l ix _); [| |discriminate]; injection H as <- _; apply keeps_refl.
  - apply with1_inv in H. destruct H as [->|(l & Hl & H)]; [apply keeps_refl|]. injection H as <- _; apply keeps_refl.
Qed.
Lemma keeps_long w w' : sizes_long w -> keeps w w' -> sizes_long w'.
Proof.
  intros HS (t & E & HT). unfold sizes_long in *. rewrite Forall_forall in *. intros l Hl. apply (in_map (fun l => zlen l)) in Hl. rewrite E in Hl.
  apply in_app_or in Hl. destruct Hl as [Hl|Hl]; [|auto]. apply in_map_iff in Hl. destruct Hl as (l' & <- & Hl'). now apply HS.
Qed.
Lemma keeps_trans w w' w'' : keeps w w' -> keeps w' w'' -> keeps w w''.
Proof. intros (t & E & HT) (u & F & HU). exists (t ++ u). rewrite F, E, app_assoc. split; [reflexivity|]. now apply Forall_app. Qed.

Theorem fixed_history_thm c ops : forall w, sizes_long w -> fops_ok zero c w ops ->
  run (fstep zero c) (objects w) ops =
  (on_res (fst (run (spec_fstep zero c) w ops)), snd (run (spec_fstep zero c) w ops)).
Proof.
  induction ops as [|o ops IH]; intros w HS HO; [reflexivity|]. cbn [run fops_ok] in *. destruct HO as [HO HR]. rewrite fstep_thm by assumption.
  destruct (spec_fstep zero c w o) as [w' ob0|] eqn:E; [|reflexivity]. cbn [on_res].
  pose proof (keeps_long _ _ HS (keeps_step _ _ _ _ _ HS HO E)) as HS'. specialize (IH w' HS' HR).
  destruct ob0 as [|x|n|f]; try (rewrite IH; destruct (run (spec_fstep zero c) w' ops); reflexivity).
  destruct (fatal f); [reflexivity|]. rewrite IH. destruct (run (spec_fstep zero c) w' ops); reflexivity.
Qed.
Theorem fixed_sizes_thm c ops : forall w w' ob0, sizes_long w -> fops_ok zero c w ops ->
  fst (run (fstep zero c) (objects w) ops) = Next w' ob0 ->
  exists u t, w' = objects u /\ lens u = lens w ++ t.
Proof.
  intros w w' ob0 HS HO. rewrite fixed_history_thm by assumption. cbn [fst].
  assert (forall w w'' o0, sizes_long w -> fops_ok zero c w ops -> fst (run (spec_fstep zero c) w ops) = Next w'' o0 -> keeps w w'') as HK.
  { clear. induction ops as [|o ops IH]; intros w w'' o0 HS HO H; [injection H as <- _; apply keeps_refl|]. cbn [run fops_ok] in *. destruct HO as [HO HR].
    destruct (spec_fstep zero c w o) as [w' ob0|] eqn:E; [|discriminate]. pose proof (keeps_step _ _ _ _ _ HS HO E) as HK. pose proof (keeps_long _ _ HS HK) as HS'.
    specialize (IH w' w'' o0 HS' HR). destruct ob0 as [|x|n|f];
      try (destruct (run (spec_fstep zero c) w' ops) as [r tr]; cbn [fst] in *; eapply keeps_trans; [exact HK|]; now apply IH).
    destruct (fatal f); [injection H as <- _; exact HK|]. destruct (run (spec_fstep zero c) w' ops) as [r tr]; cbn [fst] in *; eapply keeps_trans; [exact HK|]; now apply IH. }
  destruct (fst (run (spec_fstep zero c) w ops)) as [w'' o0|] eqn:E; [|discriminate]. cbn [on_res]. intros [= <- <-].
  destruct (HK _ _ _ HS HO E) as (t & Et & _). eauto.
Qed.
End P.
