(** Printing objects whose elements fail, files, formats. *)
From Coq Require Import Ascii.
From Flocq Require Import Core BinarySingleNaN.
From Verif Require Import Base.Outcome Base.ZList Model.IntModel Model.ScalarOps Model.Index Model.Array1D Model.Array2D Model.Expr Model.Reduce Model.FloatModel Model.Scalars Model.ArrayIO Model.FloatIO Model.Layout Model.Console.
From Verif Require Import Spec.ArraySpec Spec.MatrixSpec Spec.Shape2Spec Spec.ExprSpec Spec.ReduceSpec Spec.IOSpec Spec.FloatSpec Spec.FloatIOSpec Spec.LayoutSpec Spec.ConsoleSpec.
From Verif Require Import Proofs.ExprProofs Proofs.ReduceProofs Proofs.IOText Proofs.FloatIOText Proofs.ReadProofs Proofs.LayoutProofs Proofs.LayoutMore Proofs.ConsoleProofs Proofs.ConsoleThms Proofs.LiteralProofs.
From Coq Require Import ZifyBool ZifyNat.

(** ** A failing element *)
Lemma mfor_loop_app {S} a b i (body : Z -> S -> mut S) s : mfor_loop (a + b) i body s = mseq (mfor_loop a i body s) (mfor_loop b (i + Z.of_nat a) body).
Proof.
  revert i s. induction a as [|a IH]; intros i s; [cbn; now rewrite Z.add_0_r|]. cbn [Nat.add mfor_loop]. destruct (body i s); cbn [mseq mbind]; try reflexivity. rewrite IH. now replace (i + 1 + Z.of_nat a) with (i + Z.of_nat (Datatypes.S a)) by lia.
Qed.
Definition row_sep (row : bool) : text := if row then [sp; sp] else [nl].
Section A.
Context (lg : flt F64 -> flt F64) {V : Type} (set : stream -> stream) (shown : V -> text).
Hypothesis ST : forall os, os_text (set os) = os_text os.
Hypothesis SW : forall os, os_width (set os) = os_width os.
Theorem stream1_fails af name A vs e r os : yields A (map Ok vs ++ Fail e :: r) -> a_detailed af = false -> os_width os = 0 ->
  exists os', ostream_print1 lg set shown af name A os = MFail e os' /\ os_text os' = os_text os ++ heading name ++ concat (map (fun v => shown v ++ row_sep (a_row af)) vs).
Proof using ST SW.
  intros (HS & HL & HU) HD Hw. unfold ostream_print1. rewrite HD. destruct (start_text name false (ssize A) os Hw) as (T0 & W0 & _). set (os0 := put_empty _ _ _) in *. cbn [brackets andb] in T0. rewrite app_nil_r in T0.
  set (body := fun i os => _) at 1. pose proof (zlen_nonneg r) as Zr. pose proof (zlen_nonneg vs) as Zv.
  assert (EN : ssize A = zlen vs + (1 + zlen r)) by (rewrite HS, zlen_app, zlen_map, zlen_cons; lia). clear HS HL. rewrite zlen_app, zlen_map, zlen_cons in HU.
  unfold mfor. rewrite EN. replace (Z.to_nat (zlen vs + (1 + zlen r) - 0)) with (length vs + Datatypes.S (length r))%nat by (unfold zlen; lia). rewrite mfor_loop_app.
  assert (HLoop : exists os1, mfor_loop (length vs) 0 body os0 = MOk os1 /\ os_text os1 = os_text os0 ++ concat (map (fun v => shown v ++ row_sep (a_row af)) vs) /\ os_width os1 = 0).
  { destruct (mfor_loop_inv (fun i os1 => os_text os1 = os_text os0 ++ concat (map (fun v => shown v ++ row_sep (a_row af)) (firstn (Z.to_nat i) vs)) /\ os_width os1 = 0) (length vs) 0 body os0) as (os1 & E1 & T1 & W1).
    - cbn. split; [now rewrite app_nil_r|exact W0].
    - intros i os1 Hi (T1 & W1). destruct (znth_some vs i ltac:(unfold zlen; lia)) as (v & Hv).
      assert (EU : sun A i = Ok v). { rewrite HU by (unfold zlen in *; lia). unfold elt. rewrite znth_app_l by (rewrite zlen_map; unfold zlen; lia). rewrite znth_map, Hv. reflexivity. }
      assert (EF : firstn (Z.to_nat (i + 1)) vs = firstn (Z.to_nat i) vs ++ [v]).
      { apply list_ext_zlen; [rewrite zlen_app, !zlen_firstn; cbn; unfold zlen in *; lia|]. intros k Hk. rewrite zlen_firstn in Hk by (unfold zlen; lia). rewrite znth_firstn by lia. replace (k <? i + 1) with true by lia.
        destruct (Z.eq_dec k i) as [->|NE]; [rewrite znth_app_r; rewrite zlen_firstn by (unfold zlen; lia); [|lia]; rewrite Z.sub_diag, Hv; reflexivity|]. rewrite znth_app_l by (rewrite zlen_firstn by (unfold zlen; lia); lia). rewrite znth_firstn by lia. now replace (k <? i) with true by lia. }
      assert (EB : body i os1 = MOk (put (row_sep (a_row af)) (put (shown v) (set os1)))).
      { unfold body, put_elem, row_sep. rewrite EU. cbn [lift1]. destruct (a_row af); [|reflexivity]. replace (i =? _ - 1) with false by (unfold zlen in *; lia). reflexivity. }
      rewrite EB. eexists. split; [reflexivity|]. split; [|reflexivity]. rewrite put_text by reflexivity. rewrite put_text by now rewrite SW. rewrite ST, T1, EF, map_app, concat_app. cbn [map concat]. now rewrite app_nil_r, <- !app_assoc.
    - exists os1. split; [exact E1|]. split; [|exact W1]. rewrite T1. rewrite firstn_all2 by lia. reflexivity. }
  destruct HLoop as (os1 & E1 & T1 & W1). rewrite E1. cbn [mseq mbind mfor_loop].
  assert (EU : sun A (0 + Z.of_nat (length vs)) = Fail e). { rewrite HU by (unfold zlen in *; lia). unfold elt. rewrite znth_app_r by (rewrite zlen_map; unfold zlen; lia). rewrite zlen_map. replace (0 + Z.of_nat (length vs) - zlen vs) with 0 by (unfold zlen; lia). rewrite znth_cons_0. reflexivity. }
  assert (EB : body (0 + Z.of_nat (length vs)) os1 = MFail e os1) by (unfold body; rewrite EU; destruct (a_row af); reflexivity).
  rewrite EB. cbn [mseq mbind]. exists os1. split; [reflexivity|]. now rewrite T1, T0, <- !app_assoc.
Qed.
Theorem stream2_fails {W} (width : W -> outcome (option Z)) af name A e os : 0 < s2size A -> os_width os = 0 ->
  exists os', ostream_print2 lg set shown (Fail e) width af name A os = MFail e os' /\ os_text os' = os_text os ++ heading name.
Proof using.
  clear ST SW. intros HS Hw. unfold ostream_print2. cbn [lift1]. eexists. split; [reflexivity|]. destruct (start_text name (a_detailed af) (s2size A) os Hw) as (T0 & _). rewrite T0. unfold brackets. replace (s2size A =? 0) with false by lia. rewrite Bool.andb_false_r. now rewrite app_nil_r.
Qed.
End A.
Lemma foldo_stops {V S} (op : S -> V -> outcome S) l e r : forall s t, foldo op s l = Ok t -> foldo op s (l ++ Fail e :: r) = Fail e.
Proof. induction l as [|v l IH]; intros s t; cbn; [reflexivity|]. destruct v as [x| |]; cbn [bind]; try discriminate. destruct (op s x); cbn [bind]; try discriminate. apply IH. Qed.
Lemma fold_stops {V} (op : V -> V -> outcome V) (g : V -> V -> V) A vs e r d : (forall x y, op x y = Ok (g x y)) -> yields A (map Ok vs ++ Fail e :: r) -> r_fold op A d = Fail e.
Proof.
  intros HO HY. rewrite (fold_ok op A _ d HY). destruct vs as [|v vs]; [reflexivity|]. cbn [map app bind]. apply (foldo_stops op (map Ok vs) e r v (fold_left g vs v)).
  clear HY. revert v. induction vs as [|x vs IH]; intros v; cbn; [reflexivity|]. rewrite HO. cbn [bind]. apply IH.
Qed.
Lemma fold_stops_un {V W} (op : W -> W -> outcome W) (g : W -> W -> W) (f : V -> outcome W) h A vs e r d : (forall x y, op x y = Ok (g x y)) -> Forall (fun v => f v = Ok (h v)) vs -> yields A (map Ok vs ++ Fail e :: r) ->
  r_fold op (x_un f A) d = Fail e.
Proof.
  intros HO HF HY. apply (un_ok f) in HY. rewrite map_app in HY. cbn [map bind] in HY. rewrite map_map in HY. cbn [bind] in HY.
  replace (map (fun x => f x) vs) with (map Ok (map h vs)) in HY; [eapply fold_stops; eauto|]. rewrite map_map. apply map_ext_Forall. eapply Forall_impl; [|exact HF]. cbn. intros v E. now rewrite E.
Qed.
Section K.
Context (lg : forall f : fmt, flt f -> flt f).
Theorem ints1_fails t A vs e r fm af name os : yields A (map Ok vs ++ Fail e :: r) -> a_detailed af = false -> os_width os = 0 ->
  exists os', ints1 lg t A fm af name os = MFail e os' /\ os_text os' = os_text os ++ heading name ++ concat (map (fun v => show t v ++ row_sep (a_row af)) vs).
Proof. intros HY HD Hw. unfold ints1. now apply stream1_fails with r. Qed.
Theorem bools1_fails A vs e r fm af name os : yields A (map Ok vs ++ Fail e :: r) -> a_detailed af = false -> os_width os = 0 ->
  exists os', bools1 lg A fm af name os = MFail e os' /\ os_text os' = os_text os ++ heading name ++ concat (map (fun v => show_bool v ++ row_sep (a_row af)) vs).
Proof. intros HY HD Hw. unfold bools1. now apply stream1_fails with r. Qed.
Theorem flts1_fails f A vs e r fm af name os : yields A (map Ok vs ++ Fail e :: r) -> a_detailed af = false -> os_width os = 0 ->
  exists os', flts1 lg f A fm af name os = MFail e os' /\ os_text os' = os_text os ++ heading name ++ concat (map (fun v => show_flt f fm v ++ row_sep (a_row af)) vs).
Proof. intros HY HD Hw. unfold flts1. now apply stream1_fails with r. Qed.
Theorem ints2_fails t A vs e r fm af name os : yields (flat2 A) (map Ok vs ++ Fail e :: r) -> Forall (in_type t) vs -> signed t = false \/ ~ In (tmin t) vs -> os_width os = 0 ->
  exists os', ints2 lg t A fm af name os = MFail e os' /\ os_text os' = os_text os ++ heading name.
Proof.
  intros HY HT HM Hw. unfold ints2, r_max. rewrite (fold_stops_un _ (fun m x => Reduce.maxs Z.gtb x m) (abss t) Z.abs _ vs e r 0); [|reflexivity| |exact HY].
  - apply stream2_fails; [|exact Hw]. destruct HY as (HS & _). cbn [flat2 ssize] in HS. rewrite HS, zlen_app, zlen_cons. pose proof (zlen_nonneg (map Ok vs)). pose proof (zlen_nonneg r). lia.
  - apply Forall_forall. intros x Hx. rewrite Forall_forall in HT. apply abss_ok; [now apply HT|]. destruct HM as [HM|HM]; [now left|right; congruence].
Qed.
Theorem flts2_fails f A vs e r fm af name os : yields (flat2 A) (map Ok vs ++ Fail e :: r) -> os_width os = 0 ->
  exists os', flts2 lg f A fm af name os = MFail e os' /\ os_text os' = os_text os ++ heading name.
Proof.
  intros HY Hw. unfold flts2, r_max. rewrite (fold_stops_un _ (fun m x => Reduce.maxs (fun x y => Bltb y x) x m) (fun x => Ok (Babs x)) Babs _ vs e r _); [|reflexivity| |exact HY].
  - apply stream2_fails; [|exact Hw]. destruct HY as (HS & _). cbn [flat2 ssize] in HS. rewrite HS, zlen_app, zlen_cons. pose proof (zlen_nonneg (map (@Ok (flt f)) vs)). pose proof (zlen_nonneg r). lia.
  - apply Forall_forall. reflexivity.
Qed.
End K.

(** ** Files *)
Lemma text_eqb_refl p : text_eqb p p = true. Proof. unfold text_eqb. now destruct (list_eq_dec ascii_dec p p). Qed.
Lemma with_file_in p s w : in_file w p s (with_file p s w).
Proof. split; [cbn; now rewrite text_eqb_refl|]. split; [|now repeat split]. intros q Hq. cbn. unfold text_eqb. now destruct (list_eq_dec ascii_dec q p). Qed.
Lemma always_loud c : loud c = true -> check_always c false = Fail (report c).
Proof. unfold loud, check_always, report. destruct (exc c), (ndbg c); cbn; congruence. Qed.
Lemma always_silent c : loud c = false -> check_always c false = Ok tt.
Proof. unfold loud, check_always. destruct (exc c), (ndbg c); cbn; congruence. Qed.
Section F.
Context (can_write can_read : path -> bool).
Theorem file_text c p P name s w : can_write p = true -> prints P (w_fmt w) (w_afmt w) name s -> exists w', print_to_file can_write c p P name w = MOk w' /\ in_file w p s w'.
Proof. intros HW (os & E & <- & _). unfold print_to_file. rewrite HW. cbn [check_always]. rewrite E. cbn [mbind]. eexists. split; [reflexivity|apply with_file_in]. Qed.
Theorem file_fails c p P name w e os : can_write p = true -> P (w_fmt w) (w_afmt w) name fresh = MFail e os -> exists w', print_to_file can_write c p P name w = MFail e w' /\ in_file w p (os_text os) w'.
Proof. intros HW E. unfold print_to_file. rewrite HW. cbn [check_always]. rewrite E. cbn [mbind]. eexists. split; [reflexivity|apply with_file_in]. Qed.
Theorem file_closed c p P name w : can_write p = false -> loud c = true -> print_to_file can_write c p P name w = MFail (report c) w.
Proof. intros HW HL. unfold print_to_file. now rewrite HW, always_loud. Qed.
Theorem file_closed_silent c p P name s w : can_write p = false -> loud c = false -> prints P (w_fmt w) (w_afmt w) name s -> print_to_file can_write c p P name w = MOk w.
Proof. intros HW HL (os & E & _). unfold print_to_file. now rewrite HW, always_silent, E. Qed.
Theorem read_open {S} c p (rd : text -> S -> mut S) rd0 s w A : can_read p = true -> w_files w p = Some s -> read_from_file can_read c p rd rd0 w A = rd s A.
Proof. intros HR E. unfold read_from_file, opened. now rewrite HR, E. Qed.
Theorem read_closed {S} c p (rd : text -> S -> mut S) rd0 w A : can_read p = false \/ w_files w p = None -> loud c = true -> read_from_file can_read c p rd rd0 w A = MFail (report c) A.
Proof. intros HR HL. unfold read_from_file, opened. destruct HR as [-> | ->]; [now rewrite always_loud|]. destruct (can_read p); now rewrite always_loud. Qed.
Theorem read_closed_silent {S} c p (rd : text -> S -> mut S) rd0 w A : can_read p = false \/ w_files w p = None -> loud c = false -> read_from_file can_read c p rd rd0 w A = rd0 A.
Proof. intros HR HL. unfold read_from_file, opened. destruct HR as [-> | ->]; [now rewrite always_silent|]. destruct (can_read p); now rewrite always_silent. Qed.
Lemma in_file_open w p s w' : in_file w p s w' -> w_files w' p = Some s. Proof. intros H. apply H. Qed.

Context (lg : forall f : fmt, flt f -> flt f).
Lemma prints_of P fm af name fl s : writes (P fm af name fresh) fresh fl (Ok s) -> prints P fm af name s.
Proof. intros (os & E & T & W & _). now exists os. Qed.
Theorem file_ints1 c t p src l w : can_write p = true -> can_read p = true -> yields src (map Ok l) -> 8 <= amax c < two62 -> 2 * zlen l <= amax c -> Forall (in_type t) l -> a_detailed (w_afmt w) = false ->
  exists w' s, print_to_file can_write c p (ints1 lg t src) [] w = MOk w' /\ in_file w p s w' /\ forall A, exists A', read_file_ints1 can_read c t p w' A = MOk A' /\ rep A' l.
Proof.
  intros HW HR HY Ha Hl HT HD. pose proof (ints1_stream lg t src l (w_fmt w) (w_afmt w) [] fresh HY eq_refl) as H. rewrite HD in H.
  destruct (ints_read1 (lg F64) c t l (mkarr [] 0) Ha Hl HT (a_row (w_afmt w))) as (s & Es & _). rewrite Es in H. apply prints_of in H. destruct (file_text c p _ [] s w HW H) as (w' & E & I).
  exists w', s. split; [exact E|]. split; [exact I|]. intros A. unfold read_file_ints1. rewrite (read_open c p _ _ s) by (auto; now apply in_file_open in I). destruct (ints_read1 (lg F64) c t l A Ha Hl HT (a_row (w_afmt w))) as (s' & Es' & R). rewrite Es in Es'. injection Es' as <-. exact R.
Qed.
Theorem file_flts1 c f p src l w : can_write p = true -> can_read p = true -> yields src (map Ok l) -> 8 <= amax c < two62 -> 2 * zlen l <= amax c -> 0 <= f_prec (w_fmt w) f ->
  Forall (fun x => is_finite x = true) l -> Forall (enough_digits (fprec f) (femax f) (f_sci (w_fmt w)) (Z.to_nat (f_prec (w_fmt w) f))) l -> a_detailed (w_afmt w) = false ->
  exists w' s, print_to_file can_write c p (flts1 lg f src) [] w = MOk w' /\ in_file w p s w' /\ forall A, exists A', read_file_flts1 can_read c f p w' A = MOk A' /\ rep A' l.
Proof.
  intros HW HR HY Ha Hl Hp HF HE HD. pose proof (flts1_stream lg f src l (w_fmt w) (w_afmt w) [] fresh HY eq_refl) as H. rewrite HD in H.
  assert (ES : show_flt f (w_fmt w) = show_float (fprec f) (femax f) (f_sci (w_fmt w)) (Z.to_nat (f_prec (w_fmt w) f))) by (unfold show_flt, used_prec; replace (f_prec (w_fmt w) f <? 0) with false by lia; reflexivity). rewrite ES in H.
  pose proof (fun A => floats_read1 (lg F64) (fprec f) (femax f) (B754_zero false) c (f_sci (w_fmt w)) (Z.to_nat (f_prec (w_fmt w) f)) l A Ha Hl HF HE (a_row (w_afmt w))) as RD.
  destruct (RD (mkarr [] 0)) as (s & Es & _). rewrite Es in H. apply prints_of in H. destruct (file_text c p _ [] s w HW H) as (w' & E & I).
  exists w', s. split; [exact E|]. split; [exact I|]. intros A. unfold read_file_flts1. rewrite (read_open c p _ _ s) by (auto; now apply in_file_open in I). destruct (RD A) as (s' & Es' & R). rewrite Es in Es'. injection Es' as <-. exact R.
Qed.
Lemma produced_ncols {V} (src : src2 V) M : produces2 src M -> M <> [] -> rect (ncols M) M /\ 0 < ncols M.
Proof. intros ((HR & HP) & _) H. auto. Qed.
Theorem file_ints2 (HD : log10_contract (fprec F64) (femax F64) (lg F64)) c t p src M w : can_write p = true -> can_read p = true -> produces2 src M -> cfg_ok c -> 4 <= amax c -> M <> [] -> 2 * zlen M * ncols M <= amax c ->
  Forall (Forall (in_type t)) M -> signed t = false \/ ~ In (tmin t) (concat M) -> a_detailed (w_afmt w) = false ->
  exists w' s, print_to_file can_write c p (ints2 lg t src) [] w = MOk w' /\ in_file w p s w' /\ forall A, exists A', read_file_ints2 can_read c t p w' A = MOk A' /\ holds A' (zlen M) (ncols M) (mget M).
Proof.
  intros HW HR HP Hc Ha HM Hl HT HS Hd. destruct (produced_ncols _ _ HP HM) as (R1 & R2). pose proof (ints2_stream lg t src M (w_fmt w) (w_afmt w) [] fresh HP (size_ok c _ M Hc R1 Hl) eq_refl) as H. rewrite Hd in H.
  pose proof (fun A => ints_read2 (lg F64) HD c t M (ncols M) A Hc Ha HM R1 R2 Hl HT HS) as RD.
  destruct (RD arr2_empty) as (s & Es & _). rewrite Es in H. apply prints_of in H. destruct (file_text c p _ [] s w HW H) as (w' & E & I).
  exists w', s. split; [exact E|]. split; [exact I|]. intros A. unfold read_file_ints2. rewrite (read_open c p _ _ s) by (auto; now apply in_file_open in I). destruct (RD A) as (s' & Es' & R). rewrite Es in Es'. injection Es' as <-. exact R.
Qed.
Theorem file_flts2 c f p src M w : can_write p = true -> can_read p = true -> produces2 src M -> cfg_ok c -> 4 <= amax c -> M <> [] -> 2 * zlen M * ncols M <= amax c ->
  f_sci (w_fmt w) = true -> 0 <= f_prec (w_fmt w) f -> 2 ^ fprec f < 10 ^ f_prec (w_fmt w) f -> Forall (Forall (fun x => is_finite x = true)) M -> a_detailed (w_afmt w) = false ->
  exists w' s, print_to_file can_write c p (flts2 lg f src) [] w = MOk w' /\ in_file w p s w' /\ forall A, exists A', read_file_flts2 can_read c f p w' A = MOk A' /\ holds A' (zlen M) (ncols M) (mget M).
Proof.
  intros HW HR HP Hc Ha HM Hl HS Hp H2 HF Hd. destruct (produced_ncols _ _ HP HM) as (R1 & R2). pose proof (flts2_stream lg f src M (w_fmt w) (w_afmt w) [] fresh HP (size_ok c _ M Hc R1 Hl) Hp eq_refl) as H. rewrite Hd, HS in H.
  assert (H2' : 2 ^ fprec f < 10 ^ Z.of_nat (Z.to_nat (f_prec (w_fmt w) f))) by now rewrite Z2Nat.id.
  pose proof (fun A => sci_read2 (lg F64) (fprec f) (femax f) (lg f) (B754_zero false) c _ M (ncols M) A Hc Ha HM R1 R2 Hl H2' HF) as RD.
  destruct (RD arr2_empty) as (s & Es & _). rewrite Es in H. apply prints_of in H. destruct (file_text c p _ [] s w HW H) as (w' & E & I).
  exists w', s. split; [exact E|]. split; [exact I|]. intros A. unfold read_file_flts2. rewrite (read_open c p _ _ s) by (auto; now apply in_file_open in I). destruct (RD A) as (s' & Es' & R). rewrite Es in Es'. injection Es' as <-. exact R.
Qed.
(** Reading a file that cannot be opened, where checks are off. *)
Theorem closed_empties1 c t p w A : 8 <= amax c < two62 -> can_read p = false \/ w_files w p = None -> loud c = false -> exists A', read_file_ints1 can_read c t p w A = MOk A' /\ rep A' [].
Proof.
  intros Ha HR HL. unfold read_file_ints1. rewrite read_closed_silent by assumption. pose proof (read_array 0 c [] false A Ha ltac:(cbn; lia)) as R. rewrite HL in R. exact R.
Qed.
Theorem closed_empties2 c t p w A : can_read p = false \/ w_files w p = None -> loud c = false -> read_file_ints2 can_read c t p w A = MOk arr2_empty.
Proof. intros HR HL. unfold read_file_ints2. rewrite read_closed_silent by assumption. reflexivity. Qed.
End F.

(** ** Formats *)
Lemma int_cast n : - 2 ^ 31 <= n < 2 ^ 31 -> icast I32 n = n.
Proof. intros H. unfold icast. apply wrap_in. cbn. lia. Qed.
Theorem precision_ok c which n fm : 0 <= n < 2 ^ 31 -> exists fm', format_precision c which n fm = Ok fm' /\ f_sci fm' = f_sci fm /\ forall f, f_prec fm' f = if which f then n else f_prec fm f.
Proof.
  intros H. unfold format_precision, nonneg_arg. replace (-1 <? n) with true by lia. rewrite check_debug_true. cbn [bind]. rewrite int_cast by lia. eexists. split; [reflexivity|]. now split.
Qed.
Theorem precision_bad c which n fm : n < 0 -> checked c = true -> format_precision c which n fm = Fail (report c).
Proof.
  intros H HC. unfold format_precision, nonneg_arg. replace (-1 <? n) with false by lia. now rewrite check_debug_false.
Qed.
(** ** Names are not read back *)
Lemma colon_stops t s : forall st, In ":"%char s -> snd (extract t st s) = false.
Proof.
  induction s as [|a s IH]; intros st HI; [destruct HI|]. cbn [extract]. destruct (ascii_dec a ":"%char) as [->|NE].
  - change (digit_of ":") with (@None Z). change (is_ws ":") with false. destruct st; cbn; try reflexivity. now destruct (to_int t neg n).
  - assert (HS : In ":"%char s) by (destruct HI; [congruence|assumption]).
    destruct st; destruct (digit_of a); try (now apply IH); repeat first [destruct (to_int t _ _); cbn [snd fst] | destruct (is_ws a); [now apply IH|] | destruct (Ascii.eqb a _); [now apply IH|] | reflexivity].
Qed.
Lemma colon_count t u r : forall st, zlen (fst (extract t st (u ++ ":"%char :: r))) <= zlen u + 1.
Proof.
  induction u as [|a u IH]; intros st; cbn [app extract].
  - change (digit_of ":") with (@None Z). change (is_ws ":") with false. destruct st; cbn; try lia. destruct (to_int t neg n); cbn; lia.
  - rewrite zlen_cons. pose proof (zlen_nonneg u). destruct st; destruct (digit_of a);
    repeat first [match goal with |- zlen (fst (extract t ?st _)) <= _ => specialize (IH st); lia end
      | destruct (to_int t _ _); cbn [snd fst]; rewrite ?zlen_cons | match goal with |- context [if is_ws a then _ else _] => destruct (is_ws a) end | match goal with |- context [if Ascii.eqb a ?b then _ else _] => destruct (Ascii.eqb a b) end | (cbn [fst]; cbn; lia) | match goal with |- 1 + zlen (fst (extract t ?st _)) <= _ => specialize (IH st); lia end].
    all: cbn [fst]; rewrite ?zlen_nil; lia.
Qed.
Theorem named_unreadable c t name s A : 8 <= amax c < two62 -> 2 * (zlen name + 1) <= amax c -> loud c = true -> read1_text c t (name ++ ":"%char :: s) A = MFail (report c) A.
Proof.
  intros Ha Hn HL. unfold read1_text. rewrite (colon_stops t) by (apply in_or_app; right; now left). pose proof (colon_count t name s Skip) as HC.
  pose proof (read_array 0 c (fst (extract t Skip (name ++ ":"%char :: s))) false A Ha ltac:(lia)) as R. rewrite HL in R. exact R.
Qed.
Theorem file_named can_write can_read lg c t p src l name w : can_write p = true -> can_read p = true -> yields src (map Ok l) -> a_detailed (w_afmt w) = false -> name <> [] ->
  8 <= amax c < two62 -> 2 * (zlen name + 1) <= amax c -> loud c = true ->
  exists w', print_to_file can_write c p (ints1 lg t src) name w = MOk w' /\ forall A, read_file_ints1 can_read c t p w' A = MFail (report c) A.
Proof.
  intros HW HR HY HD HN Ha Hn HL. pose proof (ints1_stream lg t src l (w_fmt w) (w_afmt w) name fresh HY eq_refl) as H. rewrite HD in H.
  assert (exists s, print_one (lg F64) (show t) (a_row (w_afmt w)) false name l = Ok (name ++ ":"%char :: s)) as (s & Es).
  { unfold print_one. assert (EH : heading name = name ++ [":"%char; nl]) by (destruct name; [congruence|reflexivity]). rewrite EH.
    match goal with |- context [written ?F 0 l] => assert (exists b, written F 0 l = Ok b) as (b & ->) end.
    { generalize 0. generalize (zlen l). intros n. clear. induction l as [|x k IH]; intros i; cbn [written]; [eauto|]. destruct (IH (i + 1)) as (b & Eb). destruct (a_row (w_afmt w)); cbn [bind]; rewrite Eb; cbn [bind]; eauto. }
    cbn [bind brackets andb app]. eexists. rewrite <- app_assoc. reflexivity. }
  rewrite Es in H. apply prints_of in H. destruct (file_text can_write c p _ name _ w HW H) as (w' & E & I). exists w'. split; [exact E|]. intros A. unfold read_file_ints1. rewrite (read_open can_read c p _ _ _ _ _ HR (in_file_open _ _ _ _ I)). now apply named_unreadable.
Qed.
Theorem float_differs f (x : flt f) :
  match fextract (fprec f) (femax f) FSkip (show_float (fprec f) (femax f) true (Z.to_nat (f_prec format_reset f)) x ++ [nl]) with ([y], true) => Beqb x y | _ => true end = false ->
  forall lg c p w, 8 <= amax c < two62 -> w_fmt w = format_reset -> w_afmt w = aformat_reset ->
  exists w', print_to_file (fun _ => true) c p (flts1 lg f (src_of_list [x])) [] w = MOk w' /\ forall A, exists A' y, read_file_flts1 (fun _ => true) c f p w' A = MOk A' /\ rep A' [y] /\ Beqb x y = false.
Proof.
  intros HX lg c p w Ha HF HG. pose proof (flts1_stream lg f (src_of_list [x]) [x] (w_fmt w) (w_afmt w) [] fresh (yields_list [x] ltac:(cbn; unfold LONG_MAX; lia)) eq_refl) as H. rewrite HG in H at 2. rewrite HG in H at 2. cbn [a_row a_detailed aformat_reset] in H. rewrite one_col in H. cbn [map concat] in H. rewrite app_nil_r in H.
  apply prints_of in H. destruct (file_text (fun _ => true) c p _ [] _ w eq_refl H) as (w' & E & I). exists w'. split; [exact E|]. intros A. unfold read_file_flts1. rewrite (read_open (fun _ => true) c p _ _ _ _ _ eq_refl (in_file_open _ _ _ _ I)). unfold read1_ftext. rewrite HF.
  replace (show_flt f format_reset x) with (show_float (fprec f) (femax f) true (Z.to_nat (f_prec format_reset f)) x) by (destruct f; reflexivity). destruct (fextract _ _ _ _) as [[|y [|z l]] []]; try discriminate.
  destruct (read_array (B754_zero false) c [y] true A Ha ltac:(cbn; lia)) as (A' & EA & RA). exists A', y. auto.
Qed.
Theorem indexes_as_array lg l os fm af : os_width os = 0 -> a_row af = false -> a_detailed af = false -> zlen l <= LONG_MAX -> ints1 lg I64 (src_of_list l) fm af [] os = MOk (put_indexes l os).
Proof.
  intros Hw HR HD HL. unfold ints1, ostream_print1. rewrite HR, HD. cbn [put_name put_empty andb src_of_list ssize]. clear Hw HL.
  set (body := fun i os => _). assert (forall k i os, i + Z.of_nat k = zlen l -> 0 <= i -> mfor_loop k i body os = MOk (put_indexes (skipn (Z.to_nat i) l) os)) as H.
  { induction k as [|k IH]; intros i os1 Hk Hi; [rewrite skipn_all2 by (unfold zlen in Hk; lia); reflexivity|]. cbn [mfor_loop]. destruct (znth_some l i ltac:(lia)) as (x & Hx).
    assert (ES : skipn (Z.to_nat i) l = x :: skipn (Z.to_nat (i + 1)) l).
    { replace (Z.to_nat (i + 1)) with (Datatypes.S (Z.to_nat i)) by lia. unfold znth in Hx. replace (i <? 0) with false in Hx by lia. clear - Hx. revert l Hx. induction (Z.to_nat i) as [|n IHn]; intros [|y l] Hx; cbn in *; try discriminate; [congruence|now apply IHn]. }
    rewrite ES. unfold body at 1. cbn [sun src_of_list]. rewrite (oget_ok _ _ _ Hx). cbn [lift1 mseq mbind]. rewrite IH by lia. reflexivity. }
  unfold mfor. rewrite H; [reflexivity|unfold zlen; lia|lia].
Qed.
Theorem later_same w s w' t x u : on_console w s w' -> os_width (w_out w) = 0 -> os_text (put_int t x (w_out w)) = os_text (w_out w) ++ u -> os_text (put_int t x (w_out w')) = os_text (w_out w') ++ u.
Proof.
  intros ((T & W & F) & _) Hw. unfold put_int. rewrite !put_text by assumption. intros E. apply app_inv_head in E. subst u. f_equal. unfold flags in F. injection F as F _ _ _. now rewrite F.
Qed.
