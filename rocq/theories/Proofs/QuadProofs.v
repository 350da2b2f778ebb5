(** Reading numbers of quadruple precision: exactly the texts of numbers are accepted, with the rounded value. *)
From Coq Require Import Ascii String Reals Lra.
From Flocq Require Import Core BinarySingleNaN.
From Verif Require Import Base.Outcome Base.ZList Model.IntModel Model.Index Model.Array1D Model.Array2D Model.Scalars Model.ArrayIO Model.FloatIO Model.QuadIO.
From Verif Require Import Spec.IOSpec Spec.FloatSpec Spec.FloatIOSpec Spec.QuadSpec Proofs.IOText Proofs.FloatIOProofs Proofs.FloatIOText Proofs.ReadProofs.
From Coq Require Import ZifyBool ZifyNat.

(** ** Characters *)
Definition dig (dg : ascii -> option Z) (u : text) (ds : list Z) : Prop := Forall2 (fun a d => dg a = Some d) u ds.
Definition stops (dg : ascii -> option Z) (s : text) : Prop := match s with [] => True | a :: _ => dg a = None end.
Lemma hexit a d : hex_of a = Some d <-> In (a, d) hexits.
Proof.
  split.
  - all_ascii a; vm_compute; intros H; try discriminate; injection H as <-; tauto.
  - cbn. intuition; match goal with H : (_, _) = (_, _) |- _ => injection H as <- <-; reflexivity end.
Qed.
Lemma lower_e a : Ascii.eqb (lower a) "e" = true <-> In a ["e"; "E"]%char.
Proof. split; [all_ascii a; vm_compute; intros H; try discriminate; tauto|cbn; intuition (subst; reflexivity)]. Qed.
Lemma lower_p a : Ascii.eqb (lower a) "p" = true <-> In a ["p"; "P"]%char.
Proof. split; [all_ascii a; vm_compute; intros H; try discriminate; tauto|cbn; intuition (subst; reflexivity)]. Qed.
Lemma lower_x a : Ascii.eqb (lower a) "x" = true <-> In a ["x"; "X"]%char.
Proof. split; [all_ascii a; vm_compute; intros H; try discriminate; tauto|cbn; intuition (subst; reflexivity)]. Qed.
Lemma sign_of_char a neg : sign_of a = Some neg <-> sign [a] neg.
Proof.
  unfold sign, sign_of. split.
  - destruct (Ascii.eqb_spec a "-") as [->|]; [intros [= <-]; auto|]. destruct (Ascii.eqb_spec a "+") as [->|]; [intros [= <-]; auto|discriminate].
  - intros [[H _]|[[H ->]|[H ->]]]; [discriminate|injection H as ->; reflexivity..].
Qed.
Lemma digit_nosign a d : digit_of a = Some d -> sign_of a = None.
Proof. all_ascii a; vm_compute; intros; try discriminate; reflexivity. Qed.

(** ** Digits *)
Lemma span_app dg u ds r : dig dg u ds -> stops dg r -> span dg (u ++ r) = (ds, r).
Proof.
  intros H Hr. induction H as [|a d u ds Ha H IH]; cbn [app span].
  - destruct r as [|a r]; [reflexivity|]. cbn [stops] in Hr. cbn [span]. now rewrite Hr.
  - now rewrite Ha, IH.
Qed.
Lemma span_inv dg s : forall ds r, span dg s = (ds, r) -> exists u, s = u ++ r /\ dig dg u ds /\ stops dg r.
Proof.
  induction s as [|a s IH]; intros ds r H; cbn [span] in H.
  - injection H as <- <-. exists []. repeat split. constructor.
  - destruct (dg a) as [d|] eqn:Ea.
    + destruct (span dg s) as [ds' r'] eqn:E. cbn [fst snd] in H. injection H as <- <-. destruct (IH _ _ eq_refl) as (u & -> & D & St). exists (a :: u). repeat split; auto. now constructor.
    + injection H as <- <-. exists []. repeat split; auto. constructor.
Qed.
Lemma dig_dec ds : Forall (fun d => 0 <= d < 10) ds -> dig digit_of (map numeral ds) ds.
Proof. intros H. induction H as [|d ds Hd H IH]; cbn; constructor; auto. now apply digit_numeral. Qed.
Lemma dec_dig u ds : dig digit_of u ds -> u = map numeral ds /\ Forall (fun d => 0 <= d < 10) ds.
Proof. intros H. induction H as [|a d u ds Ha H [-> IH]]; [split; [reflexivity|constructor]|]. apply digit_char in Ha as [-> Hd]. split; [reflexivity|now constructor]. Qed.
Lemma dig_hex u ds : dig hex_of u ds <-> hex_digits u ds.
Proof. unfold dig, hex_digits. split; intros H; induction H; constructor; auto; now apply hexit. Qed.
Lemma dig_nil dg u : dig dg u [] -> u = [].
Proof. now inversion 1. Qed.

(** ** Exponents *)
Lemma exp_none mark : exp_part mark [] = (0, []).
Proof. reflexivity. Qed.
Lemma exp_some mark a s X : Ascii.eqb (lower a) mark = true -> integer s X -> exp_part mark (a :: s) = (X, []).
Proof.
  intros Ha HI. unfold exp_part. rewrite Ha.
  assert (K : forall neg (u : text) n, digits u n -> match span digit_of u with ([], _) => (0, a :: s) | (ds, s3) => let n := value_of 10 ds in (if neg : bool then - n else n, s3) end = (if neg then - n else n, [])).
  { intros neg u n (ds & Hne & Hd & -> & ->). pose proof (span_app digit_of (map numeral ds) ds [] (dig_dec ds Hd) I) as E. rewrite app_nil_r in E. rewrite E. destruct ds; [congruence|]. reflexivity. }
  destruct HI as [HI|[(u & -> & HI)|(u & -> & HI)]].
  - pose proof (K false s X HI) as E. destruct HI as (ds & Hne & Hd & -> & ->). destruct ds as [|d ds]; [congruence|]. cbn [map] in *.
    rewrite (digit_nosign (numeral d) d) by (apply digit_numeral; now inversion Hd). exact E.
  - exact (K false u X HI).
  - etransitivity; [exact (K true u (- X) HI)|]. f_equal. lia.
Qed.
Lemma exp_inv mark s x : exp_part mark s = (x, []) -> (s = [] /\ x = 0) \/ exists a s1, s = a :: s1 /\ Ascii.eqb (lower a) mark = true /\ integer s1 x.
Proof.
  destruct s as [|a s1]; [intros [= <-]; now left|]. unfold exp_part. destruct (Ascii.eqb (lower a) mark) eqn:Ea; [|discriminate]. intros H. right. exists a, s1. split; [reflexivity|]. split; [exact Ea|].
  assert (K : forall neg (u : text), match span digit_of u with ([], _) => (0, a :: s1) | (ds, s3) => let n := value_of 10 ds in (if neg : bool then - n else n, s3) end = (x, []) ->
    exists n, digits u n /\ x = if neg then - n else n).
  { intros neg u. destruct (span digit_of u) as [[|d ds] r] eqn:E; [discriminate|]. intros [= <- ->]. apply span_inv in E as (v & -> & D & _). apply dec_dig in D as [-> Hd]. rewrite app_nil_r.
    exists (value_of 10 (d :: ds)). split; [|reflexivity]. exists (d :: ds). repeat split; auto. discriminate. }
  destruct s1 as [|g s2].
  - apply (K false []) in H as (n & Hn & ->). now left.
  - destruct (sign_of g) as [[]|] eqn:Eg.
    + apply (K true s2) in H as (n & Hn & ->). right; right. exists s2. split; [|now rewrite Z.opp_involutive]. unfold sign_of in Eg. destruct (Ascii.eqb_spec g "-") as [->|]; [reflexivity|]. destruct (Ascii.eqb g "+"); discriminate.
    + apply (K false s2) in H as (n & Hn & ->). right; left. exists s2. split; [|assumption]. unfold sign_of in Eg. destruct (Ascii.eqb_spec g "-") as [->|]; [discriminate|]. destruct (Ascii.eqb_spec g "+") as [->|]; [reflexivity|discriminate].
    + apply (K false (g :: s2)) in H as (n & Hn & ->). now left.
Qed.

(** ** Digits with a point *)
Inductive gman (dg : ascii -> option Z) : text -> list Z -> list Z -> Prop :=
| gm_int u ds : dig dg u ds -> gman dg u ds []
| gm_frac u v ds fs : dig dg u ds -> dig dg v fs -> gman dg (u ++ "."%char :: v) ds fs.
Lemma num_ok dg b mark m w ds fs X : dg "."%char = None -> gman dg m ds fs -> ds ++ fs <> [] -> exp_part mark w = (X, []) -> (match w with [] => True | a :: _ => dg a = None /\ a <> "."%char end) ->
  num_part dg b mark (m ++ w) = Some (value_of b (ds ++ fs), zlen fs, X, []).
Proof.
  intros Hp HG HN HX Hw. assert (Sw : stops dg w) by (destruct w; cbn; tauto). unfold num_part. destruct HG as [u ds D|u v ds fs D1 D2].
  - rewrite (span_app dg u ds w D Sw). rewrite app_nil_r in *.
    assert ((match w with a :: s' => if Ascii.eqb a "." then span dg s' else ([], w) | [] => ([], w) end) = ([], w)) as ->.
    { destruct w as [|a w]; [reflexivity|]. destruct (Ascii.eqb_spec a "."); [tauto|reflexivity]. }
    cbv iota beta. rewrite app_nil_r. destruct ds; [congruence|]. now rewrite HX.
  - rewrite <- app_assoc. cbn [app]. rewrite (span_app dg u ds _ D1) by exact Hp. change (Ascii.eqb "." ".") with true. cbv iota. rewrite (span_app dg v fs w D2 Sw). destruct (ds ++ fs); [congruence|]. now rewrite HX.
Qed.
Lemma num_inv dg b mark s n k x : num_part dg b mark s = Some (n, k, x, []) -> exists m w ds fs, s = m ++ w /\ gman dg m ds fs /\ ds ++ fs <> [] /\ n = value_of b (ds ++ fs) /\ k = zlen fs /\ exp_part mark w = (x, []).
Proof.
  unfold num_part. destruct (span dg s) as [ds s1] eqn:E1. apply span_inv in E1 as (u & -> & D1 & S1).
  destruct (match s1 with a :: s' => if Ascii.eqb a "." then span dg s' else ([], s1) | [] => ([], s1) end) as [fs s2] eqn:E2. intros H.
  assert (HN : ds ++ fs <> []) by (intros E; rewrite E in H; discriminate).
  assert (H' : (let '(x, s3) := exp_part mark s2 in Some (value_of b (ds ++ fs), zlen fs, x, s3)) = Some (n, k, x, [])) by (destruct (ds ++ fs); [congruence|exact H]). clear H.
  destruct (exp_part mark s2) as [x' s3] eqn:E3. injection H' as <- <- <- ->.
  assert (exists m, u ++ s1 = m ++ s2 /\ gman dg m ds fs) as (m & Em & HG).
  { destruct s1 as [|a s1]; [injection E2 as <- <-; exists u; split; [reflexivity|now constructor]|].
    destruct (Ascii.eqb_spec a ".") as [->|]; [|injection E2 as <- <-; exists u; split; [reflexivity|now constructor]].
    apply span_inv in E2 as (v & -> & D2 & _). exists (u ++ "."%char :: v). rewrite <- app_assoc. split; [reflexivity|now constructor]. }
  exists m, s2, ds, fs. now rewrite Em.
Qed.
Lemma man_dec m ds fs : gman digit_of m ds fs -> ds ++ fs <> [] -> mantissa m (value_of 10 (ds ++ fs)) (zlen fs).
Proof.
  intros [u ds' D|u v ds' fs' D1 D2] HN.
  - apply dec_dig in D as [-> Hd]. rewrite app_nil_r in *. now constructor.
  - apply dec_dig in D1 as [-> H1]. apply dec_dig in D2 as [-> H2]. constructor; auto. now apply Forall_app.
Qed.
Lemma dec_man m D k : mantissa m D k -> exists ds fs, gman digit_of m ds fs /\ ds ++ fs <> [] /\ D = value_of 10 (ds ++ fs) /\ k = zlen fs.
Proof.
  intros [ds HN Hd|ds fs HN Hd].
  - exists ds, []. rewrite app_nil_r. repeat split; auto. constructor. now apply dig_dec.
  - apply Forall_app in Hd as [H1 H2]. exists ds, fs. repeat split; auto. constructor; now apply dig_dec.
Qed.
Lemma man_hex m ds fs : gman hex_of m ds fs -> ds ++ fs <> [] -> hex_mantissa m (value_of 16 (ds ++ fs)) (zlen fs).
Proof.
  intros [u ds' D|u v ds' fs' D1 D2] HN.
  - rewrite app_nil_r in *. constructor; auto. now apply dig_hex.
  - constructor; auto; now apply dig_hex.
Qed.
Lemma hex_man m N k : hex_mantissa m N k -> exists ds fs, gman hex_of m ds fs /\ ds ++ fs <> [] /\ N = value_of 16 (ds ++ fs) /\ k = zlen fs.
Proof.
  intros [u ds HN Hd|u v ds fs HN H1 H2].
  - exists ds, []. rewrite app_nil_r. repeat split; auto. constructor. now apply dig_hex.
  - exists ds, fs. repeat split; auto. constructor; now apply dig_hex.
Qed.
Lemma dec_part_ok m w D k X : mantissa m D k -> exponent w X -> num_part digit_of 10 "e" (m ++ w) = Some (D, k, X, []).
Proof.
  intros HM HX. apply dec_man in HM as (ds & fs & HG & HN & -> & ->). destruct HX as [|a s X Ha HI].
  - now apply num_ok with (w := []).
  - apply num_ok; auto; [apply exp_some; [now apply lower_e|assumption]|]. cbn in Ha. intuition (subst; try reflexivity; discriminate).
Qed.
Lemma dec_part_inv s n k x : num_part digit_of 10 "e" s = Some (n, k, x, []) -> exists m w, s = m ++ w /\ mantissa m n k /\ exponent w x.
Proof.
  intros H. apply num_inv in H as (m & w & ds & fs & -> & HG & HN & -> & -> & HX). exists m, w. split; [reflexivity|]. split; [now apply man_dec|].
  apply exp_inv in HX as [[-> ->]|(a & s1 & -> & Ha & HI)]; constructor; auto. now apply lower_e.
Qed.
Lemma hex_part_ok m w N k X : hex_mantissa m N k -> hex_exponent w X -> num_part hex_of 16 "p" (m ++ w) = Some (N, k, X, []).
Proof.
  intros HM HX. apply hex_man in HM as (ds & fs & HG & HN & -> & ->). destruct HX as [|a s X Ha HI].
  - now apply num_ok with (w := []).
  - apply num_ok; auto; [apply exp_some; [now apply lower_p|assumption]|]. cbn in Ha. intuition (subst; try reflexivity; discriminate).
Qed.
Lemma hex_part_inv s n k x : num_part hex_of 16 "p" s = Some (n, k, x, []) -> exists m w, s = m ++ w /\ hex_mantissa m n k /\ hex_exponent w x.
Proof.
  intros H. apply num_inv in H as (m & w & ds & fs & -> & HG & HN & -> & -> & HX). exists m, w. split; [reflexivity|]. split; [now apply man_hex|].
  apply exp_inv in HX as [[-> ->]|(a & s1 & -> & Ha & HI)]; constructor; auto. now apply lower_p.
Qed.

(** ** Values *)
Lemma dec_quad_rounds neg D E : 0 <= D -> rounds_to (dec_quad neg D E) neg (IZR D * ten_to E).
Proof. intros HD. unfold dec_quad. destruct (dec_float_ok qp qe neg D E HD) as [(x & -> & N & _)|(-> & T)]; [now left|right; auto]. Qed.
Lemma rounds_unique x y neg r : (0 <= r)%R -> rounds_to x neg r -> rounds_to y neg r -> x = y.
Proof.
  intros Hr [N1|[T1 ->]] [N2|[T2 ->]].
  - now apply (nearest_unique qp qe x y neg r).
  - exfalso. now apply (nearest_small qp qe x neg r).
  - exfalso. now apply (nearest_small qp qe y neg r).
  - reflexivity.
Qed.
Lemma hex_quad_rounds neg N E : 0 <= N -> rounds_to (hex_quad neg N E) neg (IZR N * bpow radix2 E).
Proof.
  intros HN. unfold hex_quad. set (m := if neg then - N else N). assert (Ev : F2R (Float radix2 m E) = signed_by neg (IZR N * bpow radix2 E)).
  { unfold F2R, m. cbn. destruct neg; cbn [signed_by]; rewrite ?opp_IZR; lra. }
  set (v := (IZR N * bpow radix2 E)%R) in *. assert (Pv : (0 <= v)%R) by (apply Rmult_le_pos; [now apply IZR_le|apply bpow_ge_0]).
  destruct (Z.eq_dec N 0) as [->|Hne].
  - left. assert (m = 0) as -> by (unfold m; destruct neg; reflexivity). unfold v. rewrite Rmult_0_l. unfold nearest_to. rewrite near_0. cbn. destruct neg; repeat split; cbn; lra.
  - assert (Pv' : (0 < v)%R) by (apply Rmult_lt_0_compat; [apply IZR_lt; lia|apply bpow_gt_0]).
    pose proof (binary_normalize_correct qp qe _ _ mode_NE m E neg) as B. cbv zeta in B. rewrite Ev in B.
    assert (R : round radix2 (SpecFloat.fexp qp qe) (round_mode mode_NE) (signed_by neg v) = signed_by neg (near qp qe v)).
    { change (near qp qe (signed_by neg v) = signed_by neg (near qp qe v)). destruct neg; cbn [signed_by]; [apply near_opp|reflexivity]. }
    pose proof (near_pos qp qe v Pv) as PN. rewrite R in B.
    assert (RA : Rabs (signed_by neg (near qp qe v)) = near qp qe v) by (destruct neg; cbn [signed_by]; rewrite ?Rabs_Ropp; apply Rabs_pos_eq; lra).
    rewrite RA in B. revert B. case Rlt_bool_spec; intros HL B.
    + left. destruct B as (B1 & B2 & B3). split; [exact B2|]. split; [exact B1|]. rewrite B3. destruct neg; cbn [signed_by]; [rewrite Rcompare_Lt by lra|rewrite Rcompare_Gt by lra]; reflexivity.
    + right. split; [exact HL|]. assert (S : Rlt_bool (signed_by neg v) 0 = neg) by (destruct neg; cbn; [apply Rlt_bool_true|apply Rlt_bool_false]; lra). rewrite S in B.
      destruct (binary_normalize _ _ _ _ _ _ _ _); destruct neg; cbn in B; unfold binary_overflow in B; cbn in B; congruence.
Qed.
Lemma value_nonneg b ds : 0 <= b -> Forall (fun d => 0 <= d) ds -> 0 <= value_of b ds.
Proof.
  intros Hb H. unfold value_of. assert (K : forall v, 0 <= v -> 0 <= fold_left (fun v d => b * v + d) ds v); [|apply K; lia].
  induction H as [|d ds Hd H IH]; intros v Hv; cbn [fold_left]; [assumption|]. apply IH. pose proof (Z.mul_nonneg_nonneg b v). lia.
Qed.
Lemma hexit_nonneg u ds : hex_digits u ds -> Forall (fun d => 0 <= d) ds.
Proof. intros H. induction H as [|a d u ds Ha H IH]; constructor; auto. cbn in Ha. intuition; match goal with H : (_, _) = (_, _) |- _ => injection H as <- <-; lia end. Qed.
Lemma hex_nonneg m N k : hex_mantissa m N k -> 0 <= N.
Proof. intros [u ds _ H|u v ds fs _ H1 H2]; apply (value_nonneg 16); try lia; [now apply hexit_nonneg in H|]. apply Forall_app. split; eapply hexit_nonneg; eauto. Qed.
Lemma man_nonneg m D k : mantissa m D k -> 0 <= D.
Proof. intros [ds _ H|ds fs _ H]; apply (value_nonneg 10); try lia; (eapply Forall_impl; [|exact H]); cbn; lia. Qed.
