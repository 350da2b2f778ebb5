(** Tokens, and texts of several numbers. *)
From Coq Require Import Ascii String Reals Lra.
From Flocq Require Import Core BinarySingleNaN.
From Verif Require Import Base.Outcome Base.ZList Model.IntModel Model.Index Model.Array1D Model.Array2D Model.Scalars Model.ArrayIO Model.FloatIO Model.QuadIO.
From Verif Require Import Spec.ArraySpec Spec.MatrixSpec Spec.Shape2Spec Spec.IOSpec Spec.ReadSpec Spec.FloatSpec Spec.FloatIOSpec Spec.QuadSpec Proofs.IOProofs Proofs.IOText Proofs.FloatIOProofs Proofs.FloatIOText Proofs.ReadProofs Proofs.QuadProofs.
From Coq Require Import ZifyBool ZifyNat.

(** ** Words *)
Definition letters : list ascii := ["i"; "n"; "f"; "t"; "y"; "a"]%char.
Lemma letter_case b a : In b letters -> (Ascii.eqb (lower a) b = true <-> a = b \/ In (b, a) cases).
Proof.
  intros Hb. split.
  - repeat (destruct Hb as [<-|Hb]; [all_ascii a; vm_compute; intros HH; try discriminate HH; tauto|]). destruct Hb.
  - intros [->|H]; [repeat (destruct Hb as [<-|Hb]; [reflexivity|]); destruct Hb|]. clear Hb. repeat (destruct H as [[= <- <-]|H]; [reflexivity|]). destruct H.
Qed.
Lemma word_ok w : Forall (fun b => In b letters) w -> forall s r, spelt w s -> word w (s ++ r) = Some r.
Proof.
  intros H. induction H as [|b w Hb H IH]; intros s r HS; inversion HS; subst; [reflexivity|]. cbn [app word].
  replace (Ascii.eqb (lower y) b) with true by (symmetry; now apply letter_case). now apply IH.
Qed.
Lemma word_inv w : Forall (fun b => In b letters) w -> forall s r, word w s = Some r -> exists u, s = u ++ r /\ spelt w u.
Proof.
  intros H. induction H as [|b w Hb H IH]; intros s r; cbn [word]; [intros [= ->]; exists []; split; [reflexivity|constructor]|].
  destruct s as [|a s]; [discriminate|]. destruct (Ascii.eqb (lower a) b) eqn:E; [|discriminate]. intros HW. destruct (IH s r HW) as (u & -> & HS). exists (a :: u). split; [reflexivity|].
  constructor; [now apply letter_case|assumption].
Qed.
Lemma word_zero s r : word ["0"; "x"]%char s = Some r -> exists x, s = "0"%char :: x :: r /\ In x ["x"; "X"]%char.
Proof.
  destruct s as [|a s]; [discriminate|]. cbn [word]. destruct (Ascii.eqb (lower a) "0") eqn:E; [|discriminate]. destruct s as [|x s]; [discriminate|].
  destruct (Ascii.eqb (lower x) "x") eqn:E2; [|discriminate]. intros [= ->]. exists x. split; [|now apply lower_x]. f_equal. revert E. all_ascii a; vm_compute; intros HH; try discriminate HH; reflexivity.
Qed.
Lemma letters_all : Forall (fun b => In b letters) ["i"; "n"; "f"; "i"; "n"; "i"; "t"; "y"]%char /\ Forall (fun b => In b letters) ["i"; "n"; "f"]%char /\ Forall (fun b => In b letters) ["n"; "a"; "n"]%char.
Proof. repeat split; repeat (apply Forall_cons; [cbn; tauto|]); apply Forall_nil. Qed.
Definition inf8 : text := ["i"; "n"; "f"; "i"; "n"; "i"; "t"; "y"]%char.
Definition inf3 : text := ["i"; "n"; "f"]%char.
Definition nan3 : text := ["n"; "a"; "n"]%char.
Lemma spelt_length w s : spelt w s -> length s = length w.
Proof. intros H. induction H; cbn; congruence. Qed.
Lemma word_short w : forall s r, word w s = Some r -> (length w <= length s)%nat.
Proof. induction w as [|b w IH]; intros [|a s] r; cbn; try lia; try discriminate. destruct (Ascii.eqb _ _); [|discriminate]. intros H. apply IH in H. lia. Qed.
(** A word with another first letter. *)
Lemma word_first w s b a u v : w = b :: u -> s = a :: v -> Ascii.eqb (lower a) b = false -> word w s = None.
Proof. intros -> -> H. cbn [word]. now rewrite H. Qed.
Lemma alnum_chars a : is_alnum a = true <-> In a name_chars.
Proof.
  split.
  - all_ascii a; vm_compute; intros H; try discriminate H; tauto.
  - intros H. vm_compute in H. repeat (destruct H as [<-|H]; [reflexivity|]). destruct H.
Qed.
Lemma paren_ok u : Forall (fun a => In a name_chars) u -> to_paren (u ++ [")"%char]) = Some [].
Proof.
  intros H. induction H as [|a u Ha H IH]; [reflexivity|]. cbn [app to_paren]. destruct (Ascii.eqb_spec a ")") as [->|]; [exfalso; vm_compute in Ha; intuition discriminate|].
  now rewrite (proj2 (alnum_chars a) Ha).
Qed.
Lemma paren_inv s : to_paren s = Some [] -> exists u, s = u ++ [")"%char] /\ Forall (fun a => In a name_chars) u.
Proof.
  induction s as [|a s IH]; cbn [to_paren]; [discriminate|]. destruct (Ascii.eqb_spec a ")") as [->|]; [intros [= ->]; exists []; now split|].
  destruct (is_alnum a) eqn:E; [|discriminate]. intros H. destruct (IH H) as (u & -> & HF). exists (a :: u). split; [reflexivity|]. constructor; [now apply alnum_chars|assumption].
Qed.

(** ** A number without sign *)
Inductive unsigned_of (neg : bool) : text -> quad -> Prop :=
| u_dec m w D k X x : mantissa m D k -> exponent w X -> x = dec_quad neg D (X - k) -> unsigned_of neg (m ++ w) x
| u_hex a m w N k X x : In a ["x"; "X"]%char -> hex_mantissa m N k -> hex_exponent w X -> x = hex_quad neg N (X - 4 * k) -> unsigned_of neg ("0"%char :: a :: m ++ w) x
| u_special s x : special s neg x -> unsigned_of neg s x.
Lemma unsigned_sound neg s x : strto_unsigned neg s = Some (x, []) -> unsigned_of neg s x.
Proof.
  destruct letters_all as (L8 & L3 & LN). unfold strto_unsigned.
  destruct (word ["i"; "n"; "f"; "i"; "n"; "i"; "t"; "y"]%char s) as [r|] eqn:E8.
  { intros [= <- ->]. apply (word_inv _ L8) in E8 as (u & -> & H). rewrite app_nil_r. apply u_special. eapply sp_inf; [right; left; reflexivity|exact H]. }
  destruct (word ["i"; "n"; "f"]%char s) as [r|] eqn:E3.
  { intros [= <- ->]. apply (word_inv _ L3) in E3 as (u & -> & H). rewrite app_nil_r. apply u_special. eapply sp_inf; [left; reflexivity|exact H]. }
  destruct (word ["n"; "a"; "n"]%char s) as [r|] eqn:EN.
  { intros [= <- Er]. apply (word_inv _ LN) in EN as (u & -> & H). apply u_special. unfold nan_rest in Er. destruct r as [|a r]; [rewrite app_nil_r; now constructor|].
    destruct (Ascii.eqb_spec a "(") as [->|]; [|discriminate]. destruct (to_paren r) as [r'|] eqn:EP; [|discriminate]. subst r'. apply paren_inv in EP as (v & -> & HF). now constructor. }
  assert (KD : match num_part digit_of 10 "e" s with Some (n, k, x, r) => Some (dec_quad neg n (x - k), r) | None => None end = Some (x, []) -> unsigned_of neg s x).
  { destruct (num_part digit_of 10 "e" s) as [[[[n k] X] r]|] eqn:ED; [|discriminate]. intros [= <- ->]. apply dec_part_inv in ED as (m & w & -> & HM & HX). now apply u_dec with n k X. }
  destruct (word ["0"; "x"]%char s) as [r0|] eqn:E0; [|exact KD]. destruct (num_part hex_of 16 "p" r0) as [[[[n k] X] r]|] eqn:EH; [|exact KD].
  intros [= <- ->]. apply word_zero in E0 as (a & -> & Ha). apply hex_part_inv in EH as (m & w & -> & HM & HX). now apply u_hex with n k X.
Qed.
Lemma num_first dg b mark a s : dg a = None -> a <> "."%char -> num_part dg b mark (a :: s) = None.
Proof. intros H1 H2. unfold num_part. cbn [span]. rewrite H1. now destruct (Ascii.eqb_spec a "."). Qed.
Lemma unsigned_complete neg s x : unsigned_of neg s x -> strto_unsigned neg s = Some (x, []).
Proof.
  destruct letters_all as (L8 & L3 & LN). intros H. unfold strto_unsigned. destruct H as [m w D k X x HM HX ->|a m w N k X x Ha HM HX ->|s x H].
  - pose proof (dec_part_ok m w D k X HM HX) as E. rewrite E. set (s := m ++ w) in *. clearbody s.
    assert (exists a u, s = a :: u /\ (digit_of a <> None \/ a = "."%char)) as (a & u & -> & Ha).
    { destruct s as [|a u]; [discriminate|]. exists a, u. split; [reflexivity|]. destruct (digit_of a) eqn:Ed; [left; discriminate|]. right. destruct (Ascii.eqb_spec a "."); [assumption|]. rewrite num_first in E by assumption. discriminate. }
    assert (HL : Ascii.eqb (lower a) "i" = false /\ Ascii.eqb (lower a) "n" = false) by (clear - Ha; revert Ha; all_ascii a; vm_compute; intros [HH|HH]; try (now destruct HH); try discriminate HH; split; reflexivity).
    destruct HL as [H1 H2]. rewrite !(word_first _ (a :: u) _ a _ u eq_refl eq_refl) by assumption.
    destruct (word ["0"; "x"]%char (a :: u)) as [r|] eqn:E0; [|reflexivity]. exfalso. apply word_zero in E0 as (y & E1 & Hy). injection E1 as -> ->. revert E. unfold num_part. cbn in Hy. destruct Hy as [<-|[<-|[]]]; cbn; intros E; discriminate E.
  - cbn [word]. change (Ascii.eqb (lower "0") "i") with false. change (Ascii.eqb (lower "0") "n") with false. change (Ascii.eqb (lower "0") "0") with true. cbv iota. replace (Ascii.eqb (lower a) "x") with true by (symmetry; now apply lower_x). rewrite (hex_part_ok m w N k X HM HX). reflexivity.
  - destruct H as [s neg w Hw HS|s neg HS|s neg u HS HF].
    + cbn in Hw. destruct Hw as [<-|[<-|[]]].
      * destruct (word ["i"; "n"; "f"; "i"; "n"; "i"; "t"; "y"]%char s) as [r|] eqn:E8; [exfalso; apply word_short in E8; apply spelt_length in HS; cbn in E8, HS; lia|]. pose proof (word_ok _ L3 s [] HS) as E. rewrite app_nil_r in E. now rewrite E.
      * pose proof (word_ok _ L8 s [] HS) as E. rewrite app_nil_r in E. now rewrite E.
    + pose proof (word_ok _ LN s [] HS) as E. rewrite app_nil_r in E. inversion HS as [|b a w' s' Ha HS']; subst. assert (HI : Ascii.eqb (lower a) "i" = false) by (destruct Ha as [->|Ha]; [reflexivity|repeat (destruct Ha as [Ha|Ha]; [try discriminate Ha; injection Ha as <-; reflexivity|]); destruct Ha]).
      rewrite !(word_first _ (a :: s') "i"%char a _ s' eq_refl eq_refl) by assumption. now rewrite E.
    + pose proof (word_ok _ LN s ("("%char :: u ++ [")"%char]) HS) as E. inversion HS as [|b a w' s' Ha HS']; subst. assert (HI : Ascii.eqb (lower a) "i" = false) by (destruct Ha as [->|Ha]; [reflexivity|repeat (destruct Ha as [Ha|Ha]; [try discriminate Ha; injection Ha as <-; reflexivity|]); destruct Ha]).
      cbn [app] in *. rewrite !(word_first _ (a :: s' ++ "("%char :: u ++ [")"%char]) "i"%char a _ _ eq_refl eq_refl) by assumption. rewrite E. cbn [nan_rest]. change (Ascii.eqb "(" "(") with true. cbv iota. now rewrite paren_ok.
Qed.

(** ** Tokens *)
Lemma sign_first a neg s : sign_of a <> None -> strto_unsigned neg (a :: s) = None.
Proof. unfold sign_of. destruct (Ascii.eqb_spec a "-") as [->|]; [reflexivity|]. destruct (Ascii.eqb_spec a "+") as [->|]; [reflexivity|congruence]. Qed.
Lemma numeral_unsigned s x : numeral_of s x <-> exists sg neg u, s = sg ++ u /\ sign sg neg /\ unsigned_of neg u x.
Proof.
  split.
  - intros [t neg D E y (sg & m & w & k & X & -> & HS & HM & HX & ->) HR|t neg N E y (sg & a & m & w & k & X & -> & Ha & HS & HM & HX & ->) HR|sg t neg y HS HP].
    + exists sg, neg, (m ++ w). split; [reflexivity|]. split; [assumption|]. eapply u_dec; eauto. pose proof (man_nonneg _ _ _ HM) as HN. apply rounds_unique with neg (IZR D * ten_to (X - k))%R; auto; [|now apply dec_quad_rounds].
      rewrite ten_to_bpow. apply Rmult_le_pos; [now apply IZR_le|apply bpow_ge_0].
    + exists sg, neg, ("0"%char :: a :: m ++ w). split; [reflexivity|]. split; [assumption|]. eapply u_hex; eauto. pose proof (hex_nonneg _ _ _ HM) as HN. apply rounds_unique with neg (IZR N * bpow radix2 (X - 4 * k))%R; auto; [|now apply hex_quad_rounds].
      apply Rmult_le_pos; [now apply IZR_le|apply bpow_ge_0].
    + exists sg, neg, t. split; [reflexivity|]. split; [assumption|]. now apply u_special.
  - intros (sg & neg & u & -> & HS & [m w D k X y HM HX ->|a m w N k X y Ha HM HX ->|t y HP]).
    + apply nm_dec with neg D (X - k); [now exists sg, m, w, k, X|]. apply dec_quad_rounds. now apply man_nonneg in HM.
    + apply nm_hex with neg N (X - 4 * k); [now exists sg, a, m, w, k, X|]. apply hex_quad_rounds. now apply hex_nonneg in HM.
    + now apply nm_special with neg.
Qed.
Lemma strto_iff s x : s <> [] -> (strtoflt128 s = (x, []) <-> numeral_of s x).
Proof.
  intros HN. rewrite numeral_unsigned. unfold strtoflt128. destruct s as [|a s]; [congruence|]. split.
  - destruct (sign_of a) as [neg|] eqn:Ea.
    + destruct (strto_unsigned neg s) as [[y r]|] eqn:E; [|discriminate]. intros [= -> ->]. exists [a], neg, s. split; [reflexivity|]. split; [now apply sign_of_char|]. now apply unsigned_sound.
    + destruct (strto_unsigned false (a :: s)) as [[y r]|] eqn:E; [|discriminate]. intros [= -> ->]. exists [], false, (a :: s). split; [reflexivity|]. split; [left; auto|]. now apply unsigned_sound.
  - intros (sg & neg & u & E & HS & HU). apply unsigned_complete in HU. destruct HS as [[-> ->]|[[-> ->]|[-> ->]]]; cbn [app] in E.
    + subst u. destruct (sign_of a) as [n|] eqn:Ea; [rewrite sign_first in HU by congruence; discriminate|]. now rewrite HU.
    + injection E as -> ->. change (sign_of "+") with (Some false). cbv iota. now rewrite HU.
    + injection E as -> ->. change (sign_of "-") with (Some true). cbv iota. now rewrite HU.
Qed.
Lemma c_str_id s : ~ In nul s -> c_str s = s.
Proof. induction s as [|a s IH]; intros H; [reflexivity|]. cbn [c_str]. destruct (Ascii.eqb_spec a nul) as [->|]; [exfalso; apply H; now left|]. f_equal. apply IH. intros Hi. apply H. now right. Qed.
Lemma token_iff s x : s <> [] -> ~ In nul s -> (quad_token s = (x, true) <-> numeral_of s x).
Proof.
  intros HN H0. rewrite <- strto_iff by assumption. unfold quad_token. rewrite c_str_id by assumption. destruct (strtoflt128 s) as [y [|a r]]; cbn [fst snd]; split; intros [= ->]; reflexivity.
Qed.
Lemma dig_char a d : digit_of a = Some d -> ~ In a spaces /\ a <> nul.
Proof. all_ascii a; vm_compute; intros H; try discriminate H; (split; [intuition discriminate|discriminate]). Qed.
Lemma hex_char a d : In (a, d) hexits -> ~ In a spaces /\ a <> nul.
Proof. intros H. apply hexit in H. revert H. all_ascii a; vm_compute; intros H; try discriminate H; (split; [intuition discriminate|discriminate]). Qed.
Lemma numeral_chars s x : numeral_of s x -> s <> [] /\ Forall (fun a => ~ In a spaces /\ a <> nul) s.
Proof.
  assert (OK : forall a, is_ws a = false -> Ascii.eqb a nul = false -> ~ In a spaces /\ a <> nul).
  { intros a H1 H2. split; [intros Hi; apply ws_spaces in Hi; congruence|intros ->; discriminate]. }
  assert (D : forall ds, Forall (fun d => 0 <= d < 10) ds -> Forall (fun a => ~ In a spaces /\ a <> nul) (map numeral ds)).
  { intros ds H. apply dig_dec in H. unfold dig in H. induction H; constructor; eauto using dig_char. }
  assert (HD : forall u ds, hex_digits u ds -> Forall (fun a => ~ In a spaces /\ a <> nul) u).
  { intros u ds H. induction H; constructor; eauto using hex_char. }
  assert (SG : forall sg neg, sign sg neg -> Forall (fun a => ~ In a spaces /\ a <> nul) sg).
  { intros sg neg [[-> _]|[[-> _]|[-> _]]]; repeat constructor; apply OK; reflexivity. }
  assert (IN : forall w X, integer w X -> Forall (fun a => ~ In a spaces /\ a <> nul) w).
  { intros w X [(ds & _ & Hd & -> & _)|[(u & -> & (ds & _ & Hd & -> & _))|(u & -> & (ds & _ & Hd & -> & _))]]; repeat (apply D; assumption); (constructor; [apply OK; reflexivity|now apply D]). }
  assert (SP : forall w u, Forall (fun b => In b letters) w -> spelt w u -> Forall (fun a => ~ In a spaces /\ a <> nul) u).
  { intros w u HL HS. induction HS as [|b a w u Ha HS IH]; [constructor|]. inversion HL; subst. constructor; auto. clear - Ha H1 OK. apply letter_case in Ha; [|assumption]. cbn in H1. apply OK; [destruct (is_ws a) eqn:E|destruct (Ascii.eqb a nul) eqn:E]; try reflexivity; exfalso; revert Ha E;
    repeat (destruct H1 as [<-|H1]; [all_ascii a; vm_compute; intros ? ?; discriminate|]); destruct H1. }
  destruct letters_all as (L8 & L3 & LN).
  intros [t neg DD E y (sg & m & w & k & X & -> & HS & HM & HX & ->) _|t neg N E y (sg & a & m & w & k & X & -> & Ha & HS & HM & HX & ->) _|sg t neg y HS HP].
  - split.
    + intros E. apply app_eq_nil in E as [_ E]. apply app_eq_nil in E as [E _]. destruct HM as [ds HN _|ds fs HN _]; [destruct ds; [congruence|discriminate]|destruct (map numeral ds); discriminate].
    + apply Forall_app. split; [eauto|]. apply Forall_app. split.
      * destruct HM as [ds _ Hd|ds fs _ Hd]; [auto|]. apply Forall_app in Hd as [H1 H2]. apply Forall_app. split; [auto|]. constructor; [apply OK; reflexivity|auto].
      * destruct HX as [|a s1 X Ha HI]; constructor; [|eauto]. cbn in Ha. destruct Ha as [<-|[<-|[]]]; apply OK; reflexivity.
  - split; [now destruct sg|]. apply Forall_app. split; [eauto|]. constructor; [apply OK; reflexivity|]. constructor; [cbn in Ha; destruct Ha as [<-|[<-|[]]]; apply OK; reflexivity|]. apply Forall_app. split.
    + destruct HM as [u ds _ Hd|u v ds fs _ H1 H2]; [eauto|]. apply Forall_app. split; [eauto|]. constructor; [apply OK; reflexivity|eauto].
    + destruct HX as [|b s1 X Hb HI]; constructor; [|eauto]. cbn in Hb. destruct Hb as [<-|[<-|[]]]; apply OK; reflexivity.
  - assert (K : t <> [] /\ Forall (fun a => ~ In a spaces /\ a <> nul) t).
    { clear HS. destruct HP as [s1 neg w Hw HSs|s1 neg HSs|s1 neg u HSs HF].
      - split; [apply spelt_length in HSs; intros ->; cbn in Hw; destruct Hw as [<-|[<-|[]]]; discriminate|]. cbn in Hw. destruct Hw as [<-|[<-|[]]]; eauto.
      - split; [apply spelt_length in HSs; intros ->; discriminate|eauto].
      - split; [now destruct s1|]. apply Forall_app. split; [eauto|]. constructor; [apply OK; reflexivity|]. apply Forall_app. split; [|constructor; [apply OK; reflexivity|constructor]].
        eapply Forall_impl; [|exact HF]. cbn beta. intros a Ha. apply alnum_chars in Ha. clear - Ha OK. apply OK; revert Ha; all_ascii a; vm_compute; intros HH; try discriminate HH; reflexivity. }
    destruct K as [K1 K2]. split; [|apply Forall_app; split; eauto]. intros E. apply app_eq_nil in E. tauto.
Qed.

(** ** Texts *)
Definition ends (r : text) : Prop := match r with [] => True | a :: _ => In a spaces end.
Lemma tokens_gap g u : gap g -> tokens [] (g ++ u) = tokens [] u.
Proof. intros H. induction H as [|a g Ha H IH]; [reflexivity|]. cbn [app tokens]. now rewrite (proj2 (ws_spaces a) Ha). Qed.
Lemma tokens_one s : forall cur r, Forall (fun a => ~ In a spaces) s -> ends r -> cur <> [] \/ s <> [] -> tokens cur (s ++ r) = (rev cur ++ s) :: tokens [] r.
Proof.
  induction s as [|a s IH]; intros cur r HS Hr Hne.
  - cbn [app]. rewrite app_nil_r. destruct cur as [|b cur]; [destruct Hne as [H|H]; congruence|]. destruct r as [|a r]; cbn [tokens]; [reflexivity|]. cbn [ends] in Hr. now rewrite (proj2 (ws_spaces a) Hr).
  - inversion HS; subst. cbn [app tokens]. destruct (is_ws a) eqn:E; [exfalso; apply ws_spaces in E; contradiction|]. rewrite IH by (auto; left; discriminate). cbn [rev]. now rewrite <- app_assoc.
Qed.
Lemma token_step g s r : gap g -> s <> [] -> Forall (fun a => ~ In a spaces) s -> ends r -> tokens [] (g ++ s ++ r) = s :: tokens [] r.
Proof. intros Hg HN HS Hr. rewrite tokens_gap by assumption. rewrite (tokens_one s [] r) by auto. reflexivity. Qed.
(** Every text is white space, or white space, a token and the rest. *)
Lemma text_cases s : gap s \/ exists g t r, s = g ++ t ++ r /\ gap g /\ t <> [] /\ Forall (fun a => ~ In a spaces) t /\ ends r.
Proof.
  induction s as [|a s IH]; [left; constructor|]. destruct (is_ws a) eqn:E.
  - apply ws_spaces in E. destruct IH as [H|(g & t & r & -> & Hg & HN & HT & Hr)]; [left; now constructor|]. right. exists (a :: g), t, r. repeat split; auto. now constructor.
  - right. assert (Ha : ~ In a spaces) by (intros H; apply ws_spaces in H; congruence). destruct IH as [H|(g & t & r & -> & Hg & HN & HT & Hr)].
    + exists [], [a], s. split; [reflexivity|]. split; [constructor|]. split; [discriminate|]. split; [repeat constructor; assumption|]. destruct s; [exact I|now inversion H].
    + destruct g as [|b g].
      * exists [], (a :: t), r. split; [reflexivity|]. split; [constructor|]. split; [discriminate|]. split; [now constructor|assumption].
      * exists [], [a], ((b :: g) ++ t ++ r). split; [reflexivity|]. split; [constructor|]. split; [discriminate|]. split; [repeat constructor; assumption|]. cbn. now inversion Hg.
Qed.
Lemma check_true c : check_always c true = Ok tt.
Proof. reflexivity. Qed.
Lemma check_loud c : loud c = true -> check_always c false = Fail (report c).
Proof. unfold check_always, loud, report. destruct (exc c); [reflexivity|]. destruct (ndbg c); [discriminate|reflexivity]. Qed.
Lemma nul_forall s : Forall (fun a => ~ In a spaces /\ a <> nul) s -> ~ In nul s /\ Forall (fun a => ~ In a spaces) s.
Proof. intros H. split; [intros Hi; rewrite Forall_forall in H; now apply (H nul)|]. eapply Forall_impl; [|exact H]. cbn beta. tauto. Qed.
Lemma qwords_tokens c s xs : qwords s xs -> qextract c s = (xs, true).
Proof.
  unfold qextract. intros H. induction H as [g Hg|g s x r xs Hg HS H IH Hr].
  - rewrite <- (app_nil_r g), tokens_gap by assumption. reflexivity.
  - pose proof (numeral_chars s x HS) as [HN HC]. destruct (nul_forall s HC) as [H0 HT]. rewrite token_step by assumption. cbn [quads_of]. rewrite (proj2 (token_iff s x HN H0) HS). cbn [fst snd]. rewrite check_true. now rewrite IH.
Qed.
(** Everything else is refused. *)
Lemma not_words c s : loud c = true -> ~ In nul s -> (forall xs, ~ qwords s xs) -> exists xs, qextract c s = (xs, false) /\ (length xs <= length s)%nat.
Proof.
  intros HL. unfold qextract. remember (length s) as n eqn:En. assert (Hn : (length s <= n)%nat) by lia. clear En. revert s Hn. induction n as [n IH] using lt_wf_ind. intros s Hn H0 HQ.
  destruct (text_cases s) as [HG|(g & t & r & -> & Hg & HN & HT & Hr)]; [exfalso; apply (HQ []); now constructor|].
  rewrite token_step by assumption. cbn [quads_of]. assert (Ht0 : ~ In nul t) by (intros Hi; apply H0; apply in_or_app; right; apply in_or_app; now left). assert (Hr0 : ~ In nul r) by (intros Hi; apply H0; apply in_or_app; right; apply in_or_app; now right).
  destruct (quad_token t) as [x b] eqn:Eq. cbn [fst snd]. destruct b.
  - apply token_iff in Eq; auto. rewrite check_true. assert (HR : forall xs, ~ qwords r xs) by (intros xs HW; apply (HQ (x :: xs)); now constructor).
    rewrite !app_length in Hn. destruct t as [|a t]; [congruence|]. cbn [length] in Hn. destruct (IH (length r) ltac:(lia) r ltac:(lia) Hr0 HR) as (xs & E & Hx). rewrite E. exists (x :: xs). split; [reflexivity|]. cbn [length]. lia.
  - rewrite check_loud by assumption. exists []. split; [reflexivity|cbn; lia].
Qed.
Lemma words_unique s xs ys : qwords s xs -> qwords s ys -> xs = ys.
Proof. intros H1 H2. apply (qwords_tokens (mkcfg true true true 8)) in H1. apply (qwords_tokens (mkcfg true true true 8)) in H2. congruence. Qed.
Lemma numeral_unique s x y : numeral_of s x -> numeral_of s y -> x = y.
Proof. intros H1 H2. destruct (numeral_chars s x H1) as [HN HC]. destruct (nul_forall s HC) as [H0 _]. apply token_iff in H1; auto. apply token_iff in H2; auto. congruence. Qed.

Theorem quad_read c g s x r : gap g -> numeral_of s x -> ends r -> read_quad c (g ++ s ++ r) = Ok x.
Proof.
  intros Hg HS Hr. destruct (numeral_chars s x HS) as [HN HC]. destruct (nul_forall s HC) as [H0 HT]. unfold read_quad. rewrite token_step by assumption. rewrite (proj2 (token_iff s x HN H0) HS). reflexivity.
Qed.
Theorem quad_bad c g t r : loud c = true -> gap g -> malformed t -> ends r -> read_quad c (g ++ t ++ r) = Fail (report c).
Proof.
  intros HL Hg (HN & HC & HM) Hr. destruct (nul_forall t HC) as [H0 HT]. unfold read_quad. rewrite token_step by assumption. destruct (quad_token t) as [x []] eqn:E; [apply token_iff in E; [exfalso; now apply (HM x)|assumption..]|]. cbn [fst snd]. now rewrite check_loud.
Qed.
Theorem quad_end c g : gap g -> read_quad c g = Ok (B754_zero false).
Proof. intros Hg. unfold read_quad. rewrite <- (app_nil_r g), tokens_gap by assumption. reflexivity. Qed.
Theorem quad_silent c g t r : loud c = false -> gap g -> malformed t -> ends r -> exists x, read_quad c (g ++ t ++ r) = Ok x.
Proof.
  intros HL Hg (HN & HC & HM) Hr. destruct (nul_forall t HC) as [H0 HT]. unfold read_quad. rewrite token_step by assumption. exists (fst (quad_token t)). unfold check_always. unfold loud in HL. destruct (exc c); [discriminate|]. destruct (ndbg c); [|discriminate]. destruct (snd (quad_token t)); reflexivity.
Qed.
Theorem quads_read c s xs A : 8 <= amax c < two62 -> 2 * zlen xs <= amax c -> qwords s xs -> exists A', read1_qtext c s A = MOk A' /\ rep A' xs.
Proof. intros Hc Hm W. unfold read1_qtext. rewrite (qwords_tokens c s xs W). cbn [fst snd]. now apply read1_ok. Qed.
Theorem quads_bad c s A : 8 <= amax c < two62 -> 2 * zlen s <= amax c -> loud c = true -> ~ In nul s -> (forall xs, ~ qwords s xs) -> read1_qtext c s A = MFail (report c) A.
Proof.
  intros Hc Hm HL H0 HQ. destruct (not_words c s HL H0 HQ) as (xs & E & Hx). unfold read1_qtext. rewrite E. cbn [fst snd]. apply read1_bad; auto. unfold zlen in *. lia.
Qed.

(** ** Lines of numbers *)
Lemma qline_words c s xs : qwords s xs -> xs <> [] -> qline_of c s = mkline false xs true.
Proof.
  intros W Hz. unfold qline_of. rewrite (qwords_tokens c s xs W). cbn [fst snd]. f_equal. destruct s; [|reflexivity]. exfalso. apply Hz. apply (words_unique [] xs [] W). apply qwords_nil. constructor.
Qed.
Theorem quads2_read c Ls M n A : cfg_ok c -> 4 <= amax c -> M <> [] -> rect n M -> 0 < n -> 2 * zlen M * n <= amax c ->
  Forall2 qwords Ls M -> Forall one_line Ls -> exists A', read2_qtext c (unlines Ls) A = MOk A' /\ holds A' (zlen M) n (mget M).
Proof.
  intros Hc HA HM HR Pn Hmem H HL. unfold read2_qtext. rewrite <- (app_nil_r (unlines Ls)). rewrite getlines_all by (auto; intros []). rewrite app_nil_r.
  assert (map (qline_of c) Ls = map (fun r => mkline false r true) M) as ->.
  { clear - H HR Pn. induction H as [|s zs Ls M Hs H IH]; [reflexivity|]. inversion HR; subst. cbn [map]. rewrite IH by assumption.
    rewrite (qline_words c s zs Hs); [reflexivity|]. intros ->. change (zlen (@nil quad)) with 0 in Pn. lia. }
  assert (RL : forall M : list (list quad), rows (map (fun r => mkline false r true) M) = M).
  { clear. induction M as [|r M IH]; [reflexivity|]. cbn [map]. rewrite rows_cons. cbn [lempty ltoks]. now rewrite IH. }
  destruct M as [|r M]; [congruence|]. inversion HR; subst. cbn [map]. rewrite zlen_cons in *.
  destruct (read2_ok (B754_zero false : quad) c [] (mkline false r true) (map (fun r => mkline false r true) M) A) as (A' & E & Hh); cbn [ltoks leof]; rewrite ?RL; auto.
  - intros ->. change (zlen (@nil quad)) with 0 in Pn. lia.
  - match goal with H : Forall _ M |- _ => clear - H; unfold rows_or_empty; induction H; cbn [map]; constructor; auto; right; now repeat split end.
  - cbn [app ltoks] in E, Hh. rewrite RL in Hh. eauto.
Qed.
Lemma qline_means c s : quad_line c s (qline_of c s).
Proof.
  split; [|split].
  - unfold qline_of. cbn. destruct s; split; congruence.
  - intros xs W. unfold qline_of. rewrite (qwords_tokens c s xs W). now split.
  - intros HL H0 HQ. destruct (not_words c s HL H0 HQ) as (xs & E & _). unfold qline_of. now rewrite E.
Qed.
Theorem quads2_lines c s A : exists Ls L, lines_of s Ls /\ Forall2 (quad_line c) Ls L /\ read2_qtext c s A = read2 (B754_zero false) c L A.
Proof.
  exists (getlines [] s), (map (qline_of c) (getlines [] s)). split; [apply (getlines_lines s []); intros []|]. split; [|reflexivity].
  induction (getlines [] s) as [|w L IH]; constructor; [apply qline_means|exact IH].
Qed.
