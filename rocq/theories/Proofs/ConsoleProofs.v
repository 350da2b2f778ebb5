(** Printing to streams: the text is that of Layout.v, and which flags stay set. *)
From Coq Require Import Ascii.
From Flocq Require Import Core BinarySingleNaN.
From Verif Require Import Base.Outcome Base.ZList Model.IntModel Model.ScalarOps Model.Index Model.Array1D Model.Array2D Model.Expr Model.Reduce Model.FloatModel Model.Scalars Model.ArrayIO Model.FloatIO Model.Layout Model.Console.
From Verif Require Import Spec.ArraySpec Spec.MatrixSpec Spec.Shape2Spec Spec.ExprSpec Spec.IOSpec Spec.ConsoleSpec.
From Verif Require Import Proofs.ExprProofs Proofs.ReduceProofs Proofs.IOText Proofs.LayoutProofs.
From Coq Require Import ZifyBool ZifyNat.

Lemma pad_0 s : pad 0 s = s. Proof. reflexivity. Qed.
Lemma put_text s os : os_width os = 0 -> os_text (put s os) = os_text os ++ s.
Proof. intros H. cbn. rewrite H. reflexivity. Qed.
Lemma put_width s os : os_width (put s os) = 0. Proof. reflexivity. Qed.
Lemma put_flags s os : flags (put s os) = flags os. Proof. reflexivity. Qed.
Lemma put_added s os : os_width os = 0 -> added os s (put s os).
Proof. intros H. split; [now apply put_text|]. split; reflexivity. Qed.

(** Effects on the flags. *)
Notation fl := (bool * bool * floatfield * Z)%type.
Definition pos_set (x : fl) : fl := let '(_, q, f, n) := x in (true, q, f, n).
Section L.
Context {A : Type} (f : Z -> A -> outcome text) (body : Z -> stream -> mut stream) (e : fl -> fl).
Lemma loop_writes (HE : forall x, e (e x) = e x) (l : list A) : forall i0, (forall k x os, znth l k = Some x -> os_width os = 0 -> writes (body (i0 + k) os) os (e (flags os)) (f (i0 + k) x)) ->
  forall os, os_width os = 0 -> writes (mfor_loop (length l) i0 body os) os (match l with [] => flags os | _ => e (flags os) end) (written f i0 l).
Proof.
  induction l as [|x l IH]; intros i0 HB os Hw; [exists os; now rewrite app_nil_r|].
  cbn [length mfor_loop written]. pose proof (HB 0 x os (znth_cons_0 x l) Hw) as H0. rewrite Z.add_0_r in H0. destruct (f i0 x) as [s|g|]; cbn [bind writes] in *.
  - destruct H0 as (os1 & -> & T1 & W1 & F1). cbn [mseq mbind].
    assert (HB' : forall k y os, znth l k = Some y -> os_width os = 0 -> writes (body (i0 + 1 + k) os) os (e (flags os)) (f (i0 + 1 + k) y)).
    { intros k y os' Hk. pose proof (znth_lt _ _ _ Hk). replace (i0 + 1 + k) with (i0 + (k + 1)) by lia. apply HB. rewrite znth_cons_pos by lia. now replace (k + 1 - 1) with k by lia. }
    specialize (IH (i0 + 1) HB' os1 W1). destruct (written f (i0 + 1) l) as [r|g|]; cbn [bind writes] in *.
    + destruct IH as (os2 & -> & T2 & W2 & F2). exists os2. split; [reflexivity|]. split; [now rewrite T2, T1, app_assoc|]. split; [exact W2|]. rewrite F2. destruct l; [exact F1|]. rewrite F1. apply HE.
    + destruct IH as (os2 & u & -> & T2). exists os2, (s ++ u). split; [reflexivity|]. now rewrite T2, T1, app_assoc.
    + now rewrite IH.
  - destruct H0 as (os1 & u & -> & T1). exists os1, u. split; [reflexivity|exact T1].
  - now rewrite H0.
Qed.
End L.
Lemma writes_bind m os fl1 r k fl2 r2 : writes m os fl1 r -> (forall s os', r = Ok s -> os_width os' = 0 -> os_text os' = os_text os ++ s -> flags os' = fl1 -> writes (k os') os' fl2 (r2 s)) ->
  writes (mseq m k) os fl2 (s <- r ;; t <- r2 s ;; Ok (s ++ t)).
Proof.
  destruct r as [s|g|]; cbn [writes bind].
  - intros (os' & -> & T & W & F) H. cbn [mseq mbind]. specialize (H s os' eq_refl W T F). destruct (r2 s); cbn [bind writes] in *.
    + destruct H as (os2 & -> & T2 & W2 & F2). exists os2. split; [reflexivity|]. split; [now rewrite T2, T, app_assoc|]. now split.
    + destruct H as (os2 & u & -> & T2). exists os2, (s ++ u). split; [reflexivity|]. now rewrite T2, T, app_assoc.
    + exact H.
  - intros (os' & u & -> & T) _. exists os', u. now split.
  - intros -> _. reflexivity.
Qed.
Lemma writes_cont m os fl2 s r os1 : os_text os1 = os_text os ++ s -> writes m os1 fl2 r -> writes m os fl2 (t <- r ;; Ok (s ++ t)).
Proof.
  intros T. destruct r; cbn [bind writes]; intros H; [| |exact H].
  - destruct H as (os2 & -> & T2 & W2 & F2). exists os2. split; [reflexivity|]. split; [now rewrite T2, T, app_assoc|]. now split.
  - destruct H as (os2 & u & -> & T2). exists os2, (s ++ u). split; [reflexivity|]. now rewrite T2, T, app_assoc.
Qed.
Lemma writes_lift {V} (m : outcome V) os1 os k fl2 (r : V -> outcome text) u : os_text os1 = os_text os ++ u -> (forall v, m = Ok v -> writes (k v) os fl2 (r v)) ->
  writes (lift1 m os1 k) os fl2 (v <- m ;; r v).
Proof. intros T H. destruct m as [v|g|]; cbn [lift1 bind]; [now apply H|exists os1, u; now split|reflexivity]. Qed.
Lemma writes_ok os os' s fl1 : os_text os' = os_text os ++ s -> os_width os' = 0 -> flags os' = fl1 -> writes (MOk os') os fl1 (Ok s).
Proof. intros T W F. exists os'. now repeat split. Qed.

Ltac flat := repeat first [rewrite <- app_assoc | progress simpl app]; reflexivity.
Lemma show_U64 i : show U64 i = udec i. Proof. reflexivity. Qed.

Section A.
Context (lg : flt F64 -> flt F64) {V : Type} (set : stream -> stream) (shown : V -> text) (g : fl -> fl).
Hypothesis SE : forall os, flags (set os) = g (flags os).
Hypothesis ST : forall os, os_text (set os) = os_text os.
Hypothesis SW : forall os, os_width (set os) = os_width os.
Hypothesis GG : forall x, g (g x) = g x.
Hypothesis GP : forall x, pos_set (g (pos_set (x))) = g (pos_set x).
Hypothesis PG : forall x, g (pos_set (g x)) = pos_set (g x).
(** One element with its label. *)
Definition eff (detailed : bool) (x : fl) : fl := if detailed then g (pos_set x) else g x.
Lemma pp x : pos_set (pos_set x) = pos_set x. Proof. destruct x as [[[]]]. reflexivity. Qed.
Lemma eff_idem d x : eff d (eff d x) = eff d x.
Proof using GG GP. unfold eff. destruct d; [|apply GG]. now rewrite GP, GG. Qed.
Lemma name_text name os : os_width os = 0 -> added os (heading name) (put_name name os).
Proof.
  intros H. destruct name as [|a name]; [split; [now rewrite app_nil_r|now split]|]. unfold put_name, added. cbn [os_text put os_width]. rewrite H. change (Z.to_nat 0) with O. rewrite !pad_0. unfold heading. split; [now rewrite <- !app_assoc|]. now split.
Qed.
Lemma empty_text d n os : os_width os = 0 -> added os (brackets d (n =? 0)) (put_empty d n os).
Proof. intros H. unfold put_empty, brackets. destruct (_ && _)%bool; [now apply put_added|split; [now rewrite app_nil_r|now split]]. Qed.
Lemma start_text name d n os : os_width os = 0 -> added os (heading name ++ brackets d (n =? 0)) (put_empty d n (put_name name os)).
Proof.
  intros H. destruct (name_text name os H) as (T1 & W1 & F1). destruct (empty_text d n _ W1) as (T2 & W2 & F2). split; [|split; congruence]. now rewrite T2, T1, app_assoc.
Qed.

Theorem stream1 af name A l os : yields A (map Ok l) -> os_width os = 0 ->
  writes (ostream_print1 lg set shown af name A os) os (match l with [] => flags os | _ => eff (a_detailed af) (flags os) end) (print_one lg shown (a_row af) (a_detailed af) name l).
Proof using SE ST SW GG GP.
  intros HY Hw. pose proof HY as (HS & HL & HU). rewrite zlen_map in HS, HL, HU. unfold ostream_print1, print_one. rewrite HS. destruct (start_text name (a_detailed af) (zlen l) os Hw) as (T0 & W0 & F0). set (os0 := put_empty _ _ _) in *.
  set (body := fun i os => _) at 1. set (f := fun i x => _) at 1. 
  assert (HB : forall k x os, znth l k = Some x -> os_width os = 0 -> writes (body (0 + k) os) os (eff (a_detailed af) (flags os)) (f (0 + k) x)).
  { intros k x os1 Hk W1. pose proof (znth_lt _ _ _ Hk) as Bk. rewrite Z.add_0_l. assert (EU : sun A k = Ok x). { rewrite HU by lia. unfold elt. rewrite znth_map, Hk. reflexivity. } unfold f, body, eff. clear f body. destruct (a_row af).
    - destruct (a_detailed af).
      + rewrite EU. cbn [lift1]. apply writes_ok; [|reflexivity|].
        * unfold put_elem. rewrite !put_text by reflexivity || now rewrite ?SW. rewrite ST. unfold put_index. rewrite !put_text by reflexivity || assumption. cbn [os_text set_int]. rewrite put_text by assumption. rewrite show_U64. flat.
        * unfold put_elem, put_index. rewrite !put_flags, SE. f_equal.
      + rewrite EU. cbn [lift1]. apply writes_ok; [|reflexivity|].
        * unfold put_elem. rewrite !put_text by reflexivity || now rewrite ?SW. rewrite ST. cbn [app]. now rewrite <- app_assoc.
        * unfold put_elem. now rewrite !put_flags, SE.
    - destruct (a_detailed af).
      + set (os2 := put _ (put_index _ _)). assert (T2 : os_text os2 = os_text os1 ++ "["%char :: udec k ++ ["]"; " "; "="]%char).
        { unfold os2, put_index. rewrite !put_text by reflexivity || assumption. cbn [os_text set_int]. rewrite put_text by assumption. rewrite show_U64. flat. }
        apply (writes_lift _ _ _ _ _ _ _ T2). intros s Es. rewrite EU. cbn [lift1]. apply writes_ok; [|reflexivity|].
        * unfold put_elem. rewrite !put_text by reflexivity || now rewrite ?SW. rewrite ST. rewrite put_text by reflexivity. rewrite T2. flat.
        * unfold put_elem. rewrite !put_flags, SE. f_equal.
      + rewrite EU. cbn [lift1]. apply writes_ok; [|reflexivity|].
        * unfold put_elem. rewrite !put_text by reflexivity || now rewrite ?SW. rewrite ST. now rewrite <- app_assoc.
        * unfold put_elem. now rewrite !put_flags, SE. }
  pose proof (loop_writes f body _ (eff_idem (a_detailed af)) l 0 HB os0 W0) as HLp. unfold mfor. replace (Z.to_nat (zlen l - 0)) with (length l) by (unfold zlen; lia).
  pose proof (fun E H => writes_bind _ _ _ _ (fun os => MOk (if a_row af then put [nl] os else os)) E (fun _ => Ok (if a_row af then [nl] else [])) HLp H) as HB2.
  specialize (HB2 (match l with [] => flags os0 | _ => eff (a_detailed af) (flags os0) end)).
  assert (H3 := HB2 ltac:(intros s os' _ W' T' F'; apply writes_ok; destruct (a_row af); [now apply put_text|now rewrite app_nil_r|reflexivity|exact W'|exact F'|exact F'])).
  rewrite <- F0. apply (writes_cont _ _ _ _ _ _ T0) in H3. destruct (written f 0 l); cbn [bind] in *; [|exact H3|exact H3]. now rewrite !app_assoc in *.
Qed.

Lemma stream2_row af A M i r (w : outcome (option Z)) os : wfm M -> s2rows A = zlen M -> s2cols A = ncols M -> znth M i = Some r ->
  (forall i j, 0 <= i < zlen M -> 0 <= j < ncols M -> exists v, mget M i j = Some v /\ s2un A i j = Ok v) -> os_width os = 0 ->
  writes (mfor 0 (s2cols A) (fun j os =>
        let post := if j =? s2cols A - 1 then [] else [sp; sp] in
        let label k := if a_detailed af
          then let os := put ["]"; " "; "="]%char (put_index j (put [","; " "]%char (put_index i (put ["["%char] os)))) in
               lift1 (smart_spaces lg (s2rows A) i) os (fun s => k (put s os))
          else k os in
        label (fun os => lift1 w os (fun q =>
          let os := match q with Some k => setw k os | None => os end in
          lift1 (s2un A i j) os (fun v => MOk (put post (put_elem set shown v os)))))) os) os (match r with [] => flags os | _ => eff (a_detailed af) (flags os) end)
  (written (fun j x =>
                   let post := if j =? ncols M - 1 then [] else [sp; sp] in
                   label <- (if a_detailed af then s <- smart_spaces lg (zlen M) i ;;
                               Ok ("["%char :: udec i ++ [","; " "]%char ++ udec j ++ ["]"; " "; "="]%char ++ s) else Ok []) ;;
                   w <- w ;;
                   Ok (label ++ pad (match w with Some k => Z.to_nat k | None => O end) (shown x) ++ post)) 0 r).
Proof using SE ST SW GG GP.
  intros [HR _] ER EC Hi HU Hw. rewrite ER, EC. pose proof (znth_lt _ _ _ Hi) as Bi. assert (HZ : zlen r = ncols M) by (apply (proj1 (Forall_forall _ _) HR); now apply znth_in in Hi).
  unfold mfor. replace (Z.to_nat (ncols M - 0)) with (length r) by (unfold zlen in HZ; lia). apply loop_writes; [apply eff_idem| |exact Hw].
  intros k x os1 Hk W1. rewrite Z.add_0_l. pose proof (znth_lt _ _ _ Hk) as Bk. destruct (HU i k Bi ltac:(lia)) as (v & Ev & EU). unfold mget in Ev. rewrite Hi, Hk in Ev. injection Ev as <-. rewrite EU. cbv zeta. unfold eff.
  destruct (a_detailed af).
  - rewrite bind_assoc || idtac. set (os2 := put _ (put_index k _)).
    assert (T2 : os_text os2 = os_text os1 ++ "["%char :: udec i ++ [","; " "]%char ++ udec k ++ ["]"; " "; "="]%char).
    { unfold os2, put_index. rewrite !put_text by reflexivity || assumption. cbn [os_text set_int]. rewrite !put_text by reflexivity || assumption. cbn [os_text set_int]. rewrite put_text by assumption. rewrite !show_U64. flat. }
    destruct (smart_spaces lg (zlen M) i) as [s|e|] eqn:Es; cbn [lift1 bind]; [|eexists; eexists; split; [reflexivity|exact T2]|reflexivity].
    assert (T3 : os_text (put s os2) = os_text os1 ++ "["%char :: udec i ++ [","; " "]%char ++ udec k ++ ["]"; " "; "="]%char ++ s).
    { rewrite put_text by reflexivity. rewrite T2. flat. }
    destruct w as [q|e|]; cbn [lift1 bind]; [|eexists; eexists; split; [reflexivity|exact T3]|reflexivity].
    apply writes_ok; [|reflexivity|].
    + rewrite put_text by reflexivity. unfold put_elem. unfold put at 1. cbn [os_text]. rewrite SW, ST. destruct q as [z|]; cbn [setw os_width os_text]; rewrite T3; flat.
    + unfold put_elem. rewrite !put_flags, SE. f_equal. now destruct q.
  - destruct w as [q|e|]; cbn [lift1 bind]; [|exists os1, []; split; [reflexivity|now rewrite app_nil_r]|reflexivity].
    apply writes_ok; [|reflexivity|].
    + rewrite put_text by reflexivity. unfold put_elem. unfold put at 1. cbn [os_text]. rewrite SW, ST. destruct q as [z|]; cbn [setw os_width os_text app]; [now rewrite <- app_assoc|]. rewrite W1. now rewrite <- app_assoc.
    + unfold put_elem. rewrite !put_flags, SE. f_equal. now destruct q.
Qed.
Theorem stream2 {W} (maxi : outcome W) (width : W -> outcome (option Z)) af name A M os : produces2 A M -> os_width os = 0 ->
  writes (ostream_print2 lg set shown maxi width af name A os) os (match M with [] => flags os | _ => eff (a_detailed af) (flags os) end)
    (m <- maxi ;; print_two lg shown (width m) (a_detailed af) name (ncols M) M).
Proof using SE ST SW GG GP.
  intros (WF & ER & EC & ES & HU & HLin) Hw. unfold ostream_print2, print_two. rewrite ES.
  assert (EZ : zlen (concat M) = zlen M * ncols M) by (rewrite (rect_size (ncols M)) by apply WF; lia).
  rewrite EZ. destruct (start_text name (a_detailed af) (zlen M * ncols M) os Hw) as (T0 & W0 & F0). set (os0 := put_empty _ _ _) in *.
  destruct maxi as [m|e|]; cbn [lift1 bind]; [|eexists; eexists; split; [reflexivity|exact T0]|reflexivity].
  rewrite ER at 1. unfold mfor at 1. replace (Z.to_nat (zlen M - 0)) with (length M) by (unfold zlen; lia). rewrite <- F0.
  set (body := fun i os => _) at 1. set (f := fun i r => _) at 1.
  assert (H : writes (mfor_loop (length M) 0 body os0) os0 (match M with [] => flags os0 | _ => eff (a_detailed af) (flags os0) end) (written f 0 M)).
  { apply loop_writes; [apply eff_idem| |exact W0]. intros i r os1 Hi W1. rewrite Z.add_0_l. unfold body, f.
    pose proof (stream2_row af A M i r (width m) os1 WF ER EC Hi HU W1) as HRow.
    assert (NE : r <> []). { destruct WF as [HR HP]. pose proof (znth_in _ _ _ Hi) as HI. specialize (HP ltac:(intros ->; destruct HI)). pose proof (proj1 (Forall_forall _ _) HR r HI) as E. cbn in E. intros ->. cbn in E. lia. }
    replace (match r with [] => flags os1 | _ => eff (a_detailed af) (flags os1) end) with (eff (a_detailed af) (flags os1)) in HRow by (destruct r; [congruence|reflexivity]).
    pose proof (fun H => writes_bind _ _ _ _ (fun os => MOk (put [nl] os)) (eff (a_detailed af) (flags os1)) (fun _ => Ok [nl]) HRow H) as HB2.
    apply HB2. intros s os' _ W' T' F'. apply writes_ok; [now apply put_text|reflexivity|exact F']. }
  apply (writes_cont _ _ _ _ _ _ T0) in H. destruct (written f 0 M); cbn [bind] in *; [|exact H|exact H]. now rewrite app_assoc.
Qed.
End A.
