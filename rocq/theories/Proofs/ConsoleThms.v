(** Printing to streams, the console and files, and reading files. *)
From Coq Require Import Ascii.
From Flocq Require Import Core BinarySingleNaN.
From Verif Require Import Base.Outcome Base.ZList Model.IntModel Model.ScalarOps Model.Index Model.Array1D Model.Array2D Model.Expr Model.Reduce Model.FloatModel Model.Scalars Model.ArrayIO Model.FloatIO Model.Layout Model.Console.
From Verif Require Import Spec.ArraySpec Spec.MatrixSpec Spec.Shape2Spec Spec.ExprSpec Spec.IOSpec Spec.FloatSpec Spec.FloatIOSpec Spec.LayoutSpec Spec.ConsoleSpec.
From Verif Require Import Proofs.ExprProofs Proofs.ReduceProofs Proofs.IOText Proofs.FloatIOText Proofs.ReadProofs Proofs.LayoutProofs Proofs.LayoutMore Proofs.ConsoleProofs.
From Coq Require Import ZifyBool ZifyNat.

(** ** Streams *)
Section K.
Context (lg : forall f : fmt, flt f -> flt f).
Theorem ints1_stream t A l fm af name os : yields A (map Ok l) -> os_width os = 0 ->
  writes (ints1 lg t A fm af name os) os (match l with [] => flags os | _ => int_flags os end) (print_one (lg F64) (show t) (a_row af) (a_detailed af) name l).
Proof.
  intros HY Hw. pose proof (stream1 (lg F64) set_int (show t) pos_set) as H. specialize (H ltac:(reflexivity) ltac:(reflexivity) ltac:(reflexivity)).
  specialize (H ltac:(intros [[[]]]; reflexivity) ltac:(intros [[[]]]; reflexivity) af name A l os HY Hw). unfold ints1. unfold eff in H. destruct (a_detailed af); exact H.
Qed.
Theorem bools1_stream A l fm af name os : yields A (map Ok l) -> os_width os = 0 ->
  writes (bools1 lg A fm af name os) os (match l with [] => flags os | _ => if a_detailed af then int_flags os else flags os end) (print_one (lg F64) show_bool (a_row af) (a_detailed af) name l).
Proof.
  intros HY Hw. pose proof (stream1 (lg F64) (fun os => os) show_bool (fun x => x)) as H. specialize (H ltac:(reflexivity) ltac:(reflexivity) ltac:(reflexivity)).
  specialize (H ltac:(reflexivity) ltac:(intros [[[]]]; reflexivity) af name A l os HY Hw). unfold bools1. unfold eff in H. destruct (a_detailed af); exact H.
Qed.
Theorem flts1_stream f A l fm af name os : yields A (map Ok l) -> os_width os = 0 ->
  writes (flts1 lg f A fm af name os) os (match l with [] => flags os | _ => flt_flags fm f end) (print_one (lg F64) (show_flt f fm) (a_row af) (a_detailed af) name l).
Proof.
  intros HY Hw. pose proof (stream1 (lg F64) (set_flt f fm) (show_flt f fm) (fun _ => flt_flags fm f)) as H. specialize (H ltac:(reflexivity) ltac:(reflexivity) ltac:(reflexivity)).
  specialize (H ltac:(reflexivity) ltac:(reflexivity) af name A l os HY Hw). unfold flts1. unfold eff in H. destruct (a_detailed af); exact H.
Qed.

Lemma flat_yields {V} (A : src2 V) M : produces2 A M -> zlen (concat M) <= LONG_MAX -> yields (flat2 A) (map Ok (concat M)).
Proof.
  intros (WF & ER & EC & ES & HU & HL) HM. assert (EZ : zlen (concat M) = zlen M * ncols M) by (rewrite (rect_size (ncols M)) by apply WF; lia).
  split; [|split]; rewrite zlen_map; [cbn; lia|lia|]. intros i Hi. cbn [flat2 sun]. rewrite HL by lia. destruct (znth_some (concat M) i Hi) as (v & Hv). rewrite (oget_ok _ _ _ Hv). unfold elt. rewrite znth_map, Hv. reflexivity.
Qed.
Lemma fold_same {V} (op : V -> V -> outcome V) A B l d : yields A l -> yields B l -> r_fold op A d = r_fold op B d.
Proof. intros HA HB. now rewrite (fold_ok op A l d HA), (fold_ok op B l d HB). Qed.
Theorem ints2_stream t A M fm af name os : produces2 A M -> zlen (concat M) <= LONG_MAX -> os_width os = 0 ->
  writes (ints2 lg t A fm af name os) os (match M with [] => flags os | _ => int_flags os end) (print_ints (lg F64) t (a_detailed af) name (ncols M) M).
Proof.
  intros HP HM Hw. unfold ints2, print_ints.
  assert (r_max Z.gtb (x_un (abss t) (flat2 A)) 0 = r_max Z.gtb (x_un (abss t) (src_of_list (concat M))) 0) as ->.
  { unfold r_max. refine (fold_same _ _ _ _ _ (un_ok _ _ _ (flat_yields A M HP HM)) (un_ok _ _ _ (yields_list _ HM))). }
  pose proof (stream2 (lg F64) set_int (show t) pos_set) as H. specialize (H ltac:(reflexivity) ltac:(reflexivity) ltac:(reflexivity)).
  specialize (H ltac:(intros [[[]]]; reflexivity) ltac:(intros [[[]]]; reflexivity)). specialize (H _ (r_max Z.gtb (x_un (abss t) (src_of_list (concat M))) 0) (fun m => w <- integer_spacing (lg F64) t m ;; Ok (Some w)) af name A M os HP Hw).
  unfold eff in H. destruct (a_detailed af); exact H.
Qed.
Theorem bools2_stream A M fm af name os : produces2 A M -> os_width os = 0 ->
  writes (bools2 lg A fm af name os) os (match M with [] => flags os | _ => if a_detailed af then int_flags os else flags os end) (print_bools (lg F64) (a_detailed af) name (ncols M) M).
Proof.
  intros HP Hw. unfold bools2, print_bools.
  pose proof (stream2 (lg F64) (fun os => os) show_bool (fun x => x)) as H. specialize (H ltac:(reflexivity) ltac:(reflexivity) ltac:(reflexivity)).
  specialize (H ltac:(reflexivity) ltac:(intros [[[]]]; reflexivity)). specialize (H _ (Ok tt) (fun _ => Ok (Some boolean_spacing)) af name A M os HP Hw).
  unfold eff in H. destruct (a_detailed af); exact H.
Qed.
Theorem flts2_stream f A M fm af name os : produces2 A M -> zlen (concat M) <= LONG_MAX -> 0 <= f_prec fm f -> os_width os = 0 ->
  writes (flts2 lg f A fm af name os) os (match M with [] => flags os | _ => flt_flags fm f end) (print_floats (lg F64) (lg f) (f_sci fm) (Z.to_nat (f_prec fm f)) (a_detailed af) name (ncols M) M).
Proof.
  intros HP HM Hn Hw. unfold flts2, print_floats.
  assert (r_max (fun x y => Bltb y x) (x_un (fun x => Ok (Babs x)) (flat2 A)) (B754_zero false) = r_max (fun x y => Bltb y x) (src_of_list (map (@Babs (fprec f) (femax f)) (concat M))) (B754_zero false)) as ->.
  { unfold r_max. apply fold_same with (l := map Ok (map Babs (concat M))).
    - pose proof (un_ok (fun x => Ok (Babs x)) _ _ (flat_yields _ _ HP HM)) as U. rewrite map_map in *. exact U.
    - apply yields_list. now rewrite zlen_map. }
  pose proof (stream2 (lg F64) (set_flt f fm) (show_flt f fm) (fun _ => flt_flags fm f)) as H. specialize (H ltac:(reflexivity) ltac:(reflexivity) ltac:(reflexivity)).
  specialize (H ltac:(reflexivity) ltac:(reflexivity)).
  specialize (H _ (r_max (fun x y => Bltb y x) (src_of_list (map (@Babs (fprec f) (femax f)) (concat M))) (B754_zero false)) (fun m => if f_sci fm then Ok None else w <- flt_width lg f (f_prec fm f) m ;; Ok (Some w)) af name A M os HP Hw).
  assert (show_float (fprec f) (femax f) (f_sci fm) (Z.to_nat (f_prec fm f)) = show_flt f fm) as -> by (unfold show_flt, used_prec; replace (f_prec fm f <? 0) with false by lia; reflexivity).
  set (m := r_max _ _ _) in *. replace (max_abs <- m ;; _) with (m <- m ;; print_two (lg F64) (show_flt f fm) (if f_sci fm then Ok None else w <- flt_width lg f (f_prec fm f) m ;; Ok (Some w)) (a_detailed af) name (ncols M) M).
  - unfold eff in H. destruct (a_detailed af); exact H.
  - destruct m as [m| |]; cbn [bind]; [|reflexivity|reflexivity]. unfold floating_spacing, flt_width. rewrite Z2Nat.id by lia. reflexivity.
Qed.
End K.

(** ** The console *)
Lemma with_out_console w s os : added (w_out w) s os -> on_console w s (with_out os w).
Proof. intros H. split; [exact H|]. now repeat split. Qed.
Lemma on_console_app w s w1 t w2 : on_console w s w1 -> on_console w1 t w2 -> on_console w (s ++ t) w2.
Proof. intros ((T1 & W1 & F1) & A1 & B1 & C1) ((T2 & W2 & F2) & A2 & B2 & C2). split; [|repeat split; congruence]. split; [now rewrite T2, T1, app_assoc|]. split; congruence. Qed.
Lemma on_console_nil w : os_width (w_out w) = 0 -> on_console w [] w.
Proof. intros H. split; [|now repeat split]. split; [now rewrite app_nil_r|now split]. Qed.
Lemma console_width w s w' : on_console w s w' -> os_width (w_out w') = 0 /\ w_fmt w' = w_fmt w /\ w_afmt w' = w_afmt w.
Proof. intros ((_ & H & _) & _ & F & G). auto. Qed.
Lemma put_console w s : os_width (w_out w) = 0 -> on_console w s (with_out (put s (w_out w)) w).
Proof. intros H. apply with_out_console. now apply put_added. Qed.
Theorem print_text P name s w : prints P (w_fmt w) (w_afmt w) name s -> os_width (w_out w) = 0 -> exists w', print_array P name w = MOk w' /\ on_console w s w'.
Proof. intros (os & E & <- & _) Hw. unfold print_array. rewrite E. eexists. split; [reflexivity|]. now apply put_console. Qed.
Theorem print_fails P name w f os : P (w_fmt w) (w_afmt w) name fresh = MFail f os -> print_array P name w = MFail f w.
Proof. intros E. unfold print_array. now rewrite E. Qed.
Lemma print_arrays_cons P Q Qs w : print_arrays (P :: Q :: Qs) w =
  match P (w_fmt w) (w_afmt w) [] fresh with MOk s => print_arrays (Q :: Qs) (with_out (put (os_text (put [nl] s)) (w_out w)) w) | MFail f _ => MFail f w | MUB => MUB end.
Proof. reflexivity. Qed.
Theorem print_many fm af Ps ss : Forall2 (fun P s => prints P fm af [] s) Ps ss -> forall w, w_fmt w = fm -> w_afmt w = af -> os_width (w_out w) = 0 ->
  exists w', print_arrays Ps w = MOk w' /\ on_console w (between nl ss) w'.
Proof.
  induction 1 as [|P s Ps ss HP HF IH]; intros w Ef Ea Hw; [exists w; split; [reflexivity|now apply on_console_nil]|].
  destruct HF as [|Q t Qs ts HQ HF]; [subst; exact (print_text P [] s w HP Hw)|].
  rewrite print_arrays_cons, Ef, Ea. destruct HP as (os & -> & ET & EW). rewrite put_text by exact EW. rewrite ET.
  pose proof (put_console w (s ++ [nl]) Hw) as OC. destruct (console_width _ _ _ OC) as (W1 & F1 & G1).
  destruct (IH _ (eq_trans F1 Ef) (eq_trans G1 Ea) W1) as (w' & -> & O2). exists w'. split; [reflexivity|].
  replace (between nl (s :: t :: ts)) with ((s ++ [nl]) ++ between nl (t :: ts)) by (cbn [between]; now rewrite <- app_assoc). exact (on_console_app _ _ _ _ _ OC O2).
Qed.
Theorem print_many_fails fm af Ps ss P f os Qs : Forall2 (fun P s => prints P fm af [] s) Ps ss -> P fm af [] fresh = MFail f os -> forall w, w_fmt w = fm -> w_afmt w = af -> os_width (w_out w) = 0 ->
  exists w', print_arrays (Ps ++ P :: Qs) w = MFail f w' /\ on_console w (after_each nl ss) w'.
Proof.
  intros HF HP. induction HF as [|R s Ps ss HR HF IH]; intros w Ef Ea Hw.
  - exists w. split; [|now apply on_console_nil]. cbn [app]. subst. destruct Qs as [|Q Qs]; [now apply print_fails with os|]. rewrite print_arrays_cons, HP. reflexivity.
  - cbn [app]. assert (exists Q Q', Ps ++ P :: Qs = Q :: Q') as (Q & Q' & EQ) by (destruct Ps; cbn; eauto). rewrite EQ in *.
    rewrite print_arrays_cons, Ef, Ea. destruct HR as (os1 & -> & ET & EW). rewrite put_text by exact EW. rewrite ET.
    pose proof (put_console w (s ++ [nl]) Hw) as OC. destruct (console_width _ _ _ OC) as (W1 & F1 & G1).
    destruct (IH _ (eq_trans F1 Ef) (eq_trans G1 Ea) W1) as (w' & -> & O2). exists w'. split; [reflexivity|]. exact (on_console_app _ _ _ _ _ OC O2).
Qed.
Theorem printn_text P name s w : prints P (w_fmt w) (w_afmt w) name s -> os_width (w_out w) = 0 -> exists w', printn_array P name w = MOk w' /\ on_console w (s ++ [nl]) w'.
Proof.
  intros HP Hw. destruct (print_text P name s w HP Hw) as (w1 & E & O1). unfold printn_array. rewrite E. cbn [mseq mbind]. eexists. split; [reflexivity|]. destruct (console_width _ _ _ O1) as (W1 & _). exact (on_console_app _ _ _ _ _ O1 (put_console w1 [nl] W1)).
Qed.
Theorem printn_many fm af Ps ss : Forall2 (fun P s => prints P fm af [] s) Ps ss -> forall w, w_fmt w = fm -> w_afmt w = af -> os_width (w_out w) = 0 ->
  exists w', printn_arrays Ps w = MOk w' /\ on_console w (after_each nl ss) w'.
Proof.
  induction 1 as [|P s Ps ss HP HF IH]; intros w Ef Ea Hw; [exists w; split; [reflexivity|now apply on_console_nil]|].
  subst. destruct (printn_text P [] s w HP Hw) as (w1 & E & OC). cbn [printn_arrays]. rewrite E. cbn [mseq mbind]. destruct (console_width _ _ _ OC) as (W1 & F1 & G1).
  destruct (IH _ F1 G1 W1) as (w' & E2 & O2). exists w'. split; [exact E2|exact (on_console_app _ _ _ _ _ OC O2)].
Qed.
(** Numbers. *)
Lemma put_value_text fm v os : os_width os = 0 -> os_text (put_value fm v os) = os_text os ++ value_text fm v /\ os_width (put_value fm v os) = 0.
Proof. intros H. destruct v; cbn [put_value value_text]; (split; [|reflexivity]); rewrite put_text; try reflexivity; exact H. Qed.
Theorem print_value_text v name w : os_width (w_out w) = 0 -> on_console w (heading name ++ value_text (w_fmt w) v ++ [nl]) (print_value v name w).
Proof.
  intros Hw. unfold print_value. change (match name with [] => fresh | _ => put [nl] (put [":"%char] (put name fresh)) end) with (put_name name fresh). destruct (name_text name fresh eq_refl) as (T1 & W1 & _). destruct (put_value_text (w_fmt w) v _ W1) as (T2 & W2). cbv zeta. apply with_out_console.
  rewrite T2, T1. cbn [fresh os_text app]. split; [|now split]. rewrite put_text by reflexivity. rewrite put_text by exact Hw. now rewrite <- !app_assoc.
Qed.
Lemma console_fmt w s w' : on_console w s w' -> w_fmt w' = w_fmt w. Proof. intros H. apply H. Qed.
Theorem print_values_text vs : forall w, os_width (w_out w) = 0 -> on_console w (after_each nl (map (value_text (w_fmt w)) vs)) (print_values vs w).
Proof.
  induction vs as [|v vs IH]; intros w Hw; [now apply on_console_nil|]. pose proof (print_value_text v [] w Hw) as O1. cbn [heading app] in O1. destruct (console_width _ _ _ O1) as (W1 & F1 & _).
  specialize (IH _ W1). rewrite F1 in IH. exact (on_console_app _ _ _ _ _ O1 IH).
Qed.
Theorem printn_value_text v name w : os_width (w_out w) = 0 -> on_console w (heading name ++ value_text (w_fmt w) v ++ [nl; nl]) (printn_value v name w).
Proof.
  intros Hw. pose proof (print_value_text v name w Hw) as O1. destruct (console_width _ _ _ O1) as (W1 & _). pose proof (on_console_app _ _ _ _ _ O1 (put_console _ [nl] W1)) as O2. rewrite <- !app_assoc in O2. exact O2.
Qed.
Theorem printn_values_text vs w : os_width (w_out w) = 0 -> on_console w (after_each nl (map (value_text (w_fmt w)) vs) ++ [nl]) (printn_values vs w).
Proof.
  intros Hw. pose proof (print_values_text vs w Hw) as O1. destruct (console_width _ _ _ O1) as (W1 & _). exact (on_console_app _ _ _ _ _ O1 (put_console _ [nl] W1)).
Qed.
(** std::cout << A and std::cout << x: the text, and the flags that stay. *)
Theorem cout_writes P w fl s : os_width (w_out w) = 0 -> writes (P (w_fmt w) (w_afmt w) [] (w_out w)) (w_out w) fl (Ok s) ->
  exists w', cout_array P w = MOk w' /\ os_text (w_out w') = os_text (w_out w) ++ s /\ os_width (w_out w') = 0 /\ flags (w_out w') = fl /\ w_files w' = w_files w /\ w_fmt w' = w_fmt w /\ w_afmt w' = w_afmt w.
Proof. intros Hw (os' & E & T & W & F). unfold cout_array. rewrite E. cbn [mbind]. eexists. split; [reflexivity|]. now repeat split. Qed.

Theorem builtin_ints t x os : (signed t = false -> 0 <= x) ->
  (os_pos os = true -> put_int t x os = put (show t x) os) /\
  (os_pos os = false -> exists s, put_int t x os = put s os /\ (if signed t && (0 <=? x) then show t x = "+"%char :: s else show t x = s)).
Proof.
  intros U. unfold put_int, show. split; intros P; rewrite P.
  - destruct (signed t); cbn [andb]; [now destruct (x <? 0)|]. specialize (U eq_refl). replace (x <? 0) with false by lia. now rewrite Z.abs_eq by lia.
  - destruct (signed t); cbn [andb]; eexists; (split; [reflexivity|]).
    + destruct (Z.ltb_spec x 0); [replace (0 <=? x) with false by lia; reflexivity|]. replace (0 <=? x) with true by lia. reflexivity.
    + specialize (U eq_refl). replace (x <? 0) with false by lia. now rewrite Z.abs_eq by lia.
Qed.

(** ** The initial array format *)
Lemma plain_print {V} lg (shown : V -> text) l : print_one lg shown false false [] l = Ok (after_each nl (map shown l)).
Proof.
  unfold print_one, after_each. assert (forall i, written (fun _ x => Ok (shown x ++ [nl])) i l = Ok (concat (map (fun s => s ++ [nl]) (map shown l)))) as E.
  { induction l as [|x l IH]; intros i; cbn [written map concat]; [reflexivity|]. rewrite IH. reflexivity. }
  rewrite E. cbn [bind]. destruct l; cbn; rewrite ?app_nil_r; reflexivity.
Qed.
Theorem initial_ints lg t A l fm : yields A (map Ok l) -> prints (ints1 lg t A) fm aformat_reset [] (after_each nl (map (show t) l)).
Proof.
  intros H. pose proof (ints1_stream lg t A l fm aformat_reset [] fresh H eq_refl) as W. cbn [a_row a_detailed aformat_reset] in W. rewrite plain_print in W.
  destruct W as (os & E & T & Wd & _). exists os. auto.
Qed.
Theorem initial_reals lg f A l fm : yields A (map Ok l) -> prints (flts1 lg f A) fm aformat_reset [] (after_each nl (map (show_flt f fm) l)).
Proof.
  intros H. pose proof (flts1_stream lg f A l fm aformat_reset [] fresh H eq_refl) as W. cbn [a_row a_detailed aformat_reset] in W. rewrite plain_print in W.
  destruct W as (os & E & T & Wd & _). exists os. auto.
Qed.
Theorem initial_bools lg A l fm : yields A (map Ok l) -> prints (bools1 lg A) fm aformat_reset [] (after_each nl (map show_bool l)).
Proof.
  intros H. pose proof (bools1_stream lg A l fm aformat_reset [] fresh H eq_refl) as W. cbn [a_row a_detailed aformat_reset] in W. rewrite plain_print in W.
  destruct W as (os & E & T & Wd & _). exists os. auto.
Qed.
