(** Well-typed expressions of Strict values. *)
From Coq Require Import ZArith Reals Bool List Lia Lra Eqdep_dec.
From Flocq Require Import Core BinarySingleNaN.
From Verif Require Import Base.Outcome Base.ZList Model.IntModel Model.StableOps Model.FloatModel Model.Random Model.Scalars.
From Verif Require Import Spec.IntSpec Spec.ScalarSem Spec.FloatSpec Spec.Configs Spec.ScalarSpec Proofs.IntProofs Proofs.LiteralProofs Proofs.ConvProofs.
Import ListNotations.
Local Open Scope Z_scope.

(** ** Bitwise operators stay in range *)
Lemma fits_shift t z : fits (signed t) (bits t) z <->
  if signed t then Z.shiftr z (bits t - 1) = 0 \/ Z.shiftr z (bits t - 1) = -1 else Z.shiftr z (bits t) = 0.
Proof.
  assert (forall k, 0 <= k -> Z.shiftr z k = z / 2 ^ k) as E by (intros; now apply Z.shiftr_div_pow2).
  destruct t; cbn [signed bits]; rewrite E by lia; cbv [fits];
    match goal with |- context [z / 2 ^ ?k] => pose proof (Z.div_mod z (2 ^ k)); pose proof (Z.mod_pos_bound z (2 ^ k)); change (2 ^ k) with (ltac:(let v := eval compute in (2 ^ k) in exact v)) in * end; cbn [Z.sub Z.add Z.pos_sub Z.opp Z.pow Z.pow_pos Pos.iter] in *; cbn in *; lia.
Qed.
Lemma bit_fits t x y : fits (signed t) (bits t) x -> fits (signed t) (bits t) y ->
  fits (signed t) (bits t) (Z.land x y) /\ fits (signed t) (bits t) (Z.lor x y) /\ fits (signed t) (bits t) (Z.lxor x y).
Proof.
  rewrite !fits_shift. rewrite !Z.shiftr_land, !Z.shiftr_lor, !Z.shiftr_lxor. destruct (signed t).
  - intros [-> | ->] [-> | ->]; cbn; auto.
  - intros -> ->; cbn; auto.
Qed.
Lemma shr_fits t x y : fits (signed t) (bits t) x -> 0 <= y -> fits (signed t) (bits t) (x / 2 ^ y).
Proof.
  intros H Hy. assert (0 < 2 ^ y) by (apply Z.pow_pos_nonneg; lia). pose proof (Z.div_mod x (2 ^ y)). pose proof (Z.mod_pos_bound x (2 ^ y)).
  assert (forall m, 0 < m -> - m <= x < m -> - m <= x / 2 ^ y < m) as B.
  { intros m Hm Hx. split; [apply Z.div_le_lower_bound|apply Z.div_lt_upper_bound]; nia. }
  unfold fits in *. destruct (signed t).
  - apply B; [destruct t; reflexivity|exact H].
  - split; [apply Z.div_pos; lia|]. apply (B (2 ^ bits t)); [destruct t; reflexivity|lia].
Qed.
Lemma arith_fits t z r : arith t z = Ok r -> fits (signed t) (bits t) r.
Proof.
  unfold arith. destruct (signed t) eqn:S.
  - destruct (inr t z) eqn:E; [|discriminate]. intros Q. assert (r = z) as -> by congruence. rewrite <- S. now apply inr_fits.
  - intros Q. assert (r = z mod tmod t) as -> by congruence. unfold fits. rewrite tmod_pow. apply Z.mod_pos_bound. destruct t; reflexivity.
Qed.

(** ** Results of operators *)
(** An outcome of an expression of type b: a value of the type, a failure of a check that is switched on, or undefined behaviour. *)
Definition good (c : cfg) (b : bty) (o : outcome value) : Prop :=
  match o with Ok v => tyof v = b /\ valid v | Fail f => f = report c /\ checked c = true | UB => True end.
Lemma good_num c t (o : outcome Z) : (forall z, o = Ok z -> fits (signed t) (bits t) z) -> (forall f, o = Fail f -> f = report c /\ checked c = true) ->
  good c (TI t) (z <- o ;; Ok (VI t z)).
Proof. intros H F. destruct o as [z|f|]; cbn; [split; [reflexivity|now apply H]|now apply F|exact I]. Qed.
Lemma arith_nofail t z f : arith t z <> Fail f.
Proof. unfold arith. destruct (signed t); [destruct (inr t z)|]; discriminate. Qed.
Lemma iop_good c o t x y b : fits (signed t) (bits t) x -> fits (signed t) (bits t) y -> op_result o (TI t) = Some b ->
  exists r, iop c o t x y = Some r /\ good c b r.
Proof.
  intros Hx Hy HO.
  assert (CK : forall d f, check_debug c (Ok d) = Fail f -> f = report c /\ checked c = true).
  { intros d f E. destruct (check_debug_cases c d) as [(E' & _)|(E' & _ & K)]; rewrite E' in E; [discriminate|]. split; [congruence|exact K]. }
  assert (AR : forall z, good c (TI t) (r <- arith t z ;; Ok (VI t r))).
  { intros z. apply good_num; [apply arith_fits|]. intros f E. exfalso. exact (arith_nofail _ _ _ E). }
  assert (DV : good c (TI t) (r <- idiv c t x y ;; Ok (VI t r)) /\ good c (TI t) (r <- imod c t x y ;; Ok (VI t r))).
  { split; apply good_num.
    - intros z. unfold idiv. destruct (check_debug c _); cbn [bind]; try discriminate. destruct (y =? 0); [discriminate|]. destruct (inr t (Z.quot x y)) eqn:E; [|discriminate]. intros Q. assert (z = Z.quot x y) as -> by congruence. now apply inr_fits.
    - intros f. unfold idiv. destruct (check_debug c _) eqn:E; cbn [bind]; try (destruct (y =? 0); [discriminate|]; destruct (inr t _); discriminate); try discriminate. intros Q. assert (f0 = f) as -> by congruence. now apply CK in E.
    - intros z. unfold imod. destruct (check_debug c _); cbn [bind]; try discriminate. destruct (y =? 0) eqn:Y; [discriminate|]. destruct (inr t (Z.quot x y)) eqn:E; [|discriminate]. intros Q. assert (z = Z.rem x y) as -> by congruence.
      assert (T : ~ trap t x y) by (intros T; apply trap_quot in T; congruence). destruct (idiv_imod_ok c t x y Hx Hy) as (q & r & _ & M & _ & _ & _ & _ & R); [lia|exact T|].
      unfold imod in M. rewrite Y in M. cbn [negb] in M. rewrite check_debug_true in M. cbn [bind] in M. rewrite E in M. assert (r = Z.rem x y) as <- by congruence. exact R.
    - intros f. unfold imod. destruct (check_debug c _) eqn:E; cbn [bind]; try (destruct (y =? 0); [discriminate|]; destruct (inr t _); discriminate); try discriminate. intros Q. assert (f0 = f) as -> by congruence. now apply CK in E. }
  assert (CK2 : forall f, (if signed t then check_debug c (Ok (-1 <? x)) ;;; check_debug c (Ok (-1 <? y)) else Ok tt) = Fail f -> f = report c /\ checked c = true).
  { intros f. destruct (signed t); [|discriminate]. destruct (check_debug c (Ok (-1 <? x))) eqn:E; cbn [bind]; [apply CK|intros Q; assert (f0 = f) as -> by congruence; now apply CK in E|discriminate]. }
  assert (SH : good c (TI t) (r <- ishl c t x y ;; Ok (VI t r)) /\ good c (TI t) (r <- ishr c t x y ;; Ok (VI t r))).
  { unfold ishl, ishr. set (ck := if signed t then _ else _) in *. split; apply good_num.
    - intros z. destruct ck; cbn [bind]; try discriminate. destruct (_ || _); [discriminate|]. intros Q. assert (z = wrap t (x * 2 ^ y)) as -> by congruence. apply wrap_fits.
    - intros f. destruct ck eqn:E; cbn [bind]; [destruct (_ || _); discriminate| |discriminate]. intros Q. assert (f0 = f) as -> by congruence. now apply CK2.
    - intros z. destruct ck; cbn [bind]; try discriminate. destruct ((y <? 0) || (bits t <=? y)) eqn:E; [discriminate|]. intros Q. assert (z = x / 2 ^ y) as -> by congruence. apply shr_fits; [exact Hx|lia].
    - intros f. destruct ck eqn:E; cbn [bind]; [destruct (_ || _); discriminate| |discriminate]. intros Q. assert (f0 = f) as -> by congruence. now apply CK2. }
  destruct (bit_fits t x y Hx Hy) as (B1 & B2 & B3).
  destruct o; cbn [op_result] in HO; try discriminate; assert (E := HO); injection E as <-; cbn [iop]; eexists; (split; [reflexivity|]);
    try apply AR; try apply DV; try apply SH; try (cbn; now split).
Qed.
Lemma fop_good c o f (x y : flt f) b : op_result o (TF f) = Some b -> exists r, fop o f x y = Some r /\ good c b r.
Proof.
  intros HO. destruct o; cbn [op_result] in HO; try discriminate; assert (E := HO); injection E as <-; cbn [fop]; eexists; (split; [reflexivity|]); now split.
Qed.
Lemma bool_good c o x y b : op_result o TB = Some b -> exists r, bool_op o x y = Some r /\ good c b r.
Proof.
  intros HO. destruct o; cbn [op_result] in HO; try discriminate; assert (E := HO); injection E as <-; cbn [bool_op]; eexists; (split; [reflexivity|]); now split.
Qed.
Lemma apply2_good c o v w b : tyof v = tyof w -> valid v -> valid w -> op_result o (tyof v) = Some b -> exists r, apply2 c o v w = Some r /\ good c b r.
Proof.
  intros HT HV HW HO. destruct v as [x|t x|f x], w as [y|u y|g y]; try discriminate HT; cbn [apply2 tyof] in *.
  - now apply bool_good.
  - assert (u = t) as -> by congruence. rewrite ity_eqb_refl. now apply iop_good.
  - assert (g = f) as -> by congruence. destruct (fmt_eq f f) as [E|N]; [|congruence]. now apply fop_good.
Qed.
Lemma apply1_good c o v b : valid v -> un_result o (tyof v) = Some b -> exists r, apply1 o v = Some r /\ good c b r.
Proof.
  intros HV HO. destruct o, v as [x|t x|f x]; cbn [un_result tyof] in HO; try discriminate.
  - assert (E := HO); injection E as <-. eexists; split; [reflexivity|]. now split.
  - assert (E := HO); injection E as <-. eexists; split; [reflexivity|]. now split.
  - cbn [apply1]. destruct (signed t); [|discriminate]. assert (E := HO); injection E as <-. eexists; split; [reflexivity|].
    apply good_num; [intros z; apply arith_fits|]. intros f E. exfalso. exact (arith_nofail _ _ _ E).
  - assert (E := HO); injection E as <-. eexists; split; [reflexivity|]. now split.
  - assert (E := HO); injection E as <-. eexists; split; [reflexivity|]. split; [reflexivity|]. apply wrap_fits.
  - assert (E := HO); injection E as <-. eexists; split; [reflexivity|]. now split.
Qed.

(** ** Soundness *)
Lemma bty_eqb_eq a b : bty_eqb a b = true <-> a = b.
Proof.
  destruct a as [|t|f], b as [|u|g]; cbn; try (split; [discriminate|congruence]); try tauto.
  - split; [intros E; apply ity_eqb_eq in E; congruence|intros E; assert (t = u) as -> by congruence; apply ity_eqb_refl].
  - destruct (fmt_eq f g); split; intros; congruence || discriminate.
Qed.
Lemma vty_eqb_eq a b : vty_eqb a b = true -> a = b.
Proof. destruct a as [a|a], b as [b|b]; cbn; try discriminate; intros E; apply bty_eqb_eq in E; congruence. Qed.
Lemma cast_good c b v : valid v -> good c b (cast b v).
Proof. intros H. destruct (cast_cases b v H) as [(w & -> & T & V)| ->]; cbn; auto. Qed.
Definition goods (c : cfg) (b : bty) (x : option (outcome value)) : Prop := exists o, x = Some o /\ good c b o.
Lemma bindo_good c b b' x k : goods c b x -> (forall v, tyof v = b -> valid v -> goods c b' (k v)) -> goods c b' (bindo x k).
Proof.
  intros (o & -> & H) K. destruct o as [v|f|]; cbn [bindo].
  - apply K; apply H.
  - eexists. split; [reflexivity|exact H].
  - eexists. split; [reflexivity|exact I].
Qed.
Lemma goods_ok c b v : tyof v = b -> valid v -> goods c b (Some (Ok v)).
Proof. intros. eexists. split; [reflexivity|]. now split. Qed.
Lemma goods_cast c b v : valid v -> goods c b (Some (cast b v)).
Proof. intros H. eexists. split; [reflexivity|]. now apply cast_good. Qed.
Theorem soundness c G r e : matches G r -> consts_valid e -> forall t, typ G e = Some t -> goods c (base t) (eval c G r e).
Proof.
  intros M. induction e as [n|v|b e IH|e IH|e IH|b e IH|b e IH|b e IH|f e IH|o e IH|o e1 IH1 e2 IH2|e IH e1 IH1 e2 IH2]; intros HC t HT; cbn [typ consts_valid] in HT, HC; cbn [eval].
  - unfold matches in M. clear HC. revert n HT. induction M as [|a v G r (T & V) M IH]; intros [|n] HT; try discriminate.
    + cbn in *. assert (a = t) as -> by congruence. now apply goods_ok.
    + now apply IH.
  - assert (t = Raw (tyof v)) as -> by congruence. now apply goods_ok.
  - destruct (typ G e) as [t'|]; [|discriminate]. destruct (bty_eqb (base t') b) eqn:E; [|discriminate]. assert (t = Str b) as -> by congruence. apply bty_eqb_eq in E.
    apply (bindo_good c (base t')); [now apply IH|]. intros v T V. assert (bty_eqb (tyof v) b = true) as -> by (apply bty_eqb_eq; congruence). apply goods_ok; [cbn [base]; congruence|exact V].
  - destruct (typ G e) as [t'|]; [|discriminate]. assert (t = Str (base t')) as -> by congruence. cbn [base]. now apply IH.
  - destruct (typ G e) as [[b|b]|]; try discriminate. assert (t = Raw b) as -> by congruence. exact (IH HC _ eq_refl).
  - destruct (typ G e) as [[b'|b']|]; try discriminate. destruct (bty_eqb b' b) eqn:E; [|discriminate]. assert (t = Raw b) as -> by congruence. apply bty_eqb_eq in E. subst b'.
    apply (bindo_good c b); [exact (IH HC _ eq_refl)|]. intros v T V. assert (bty_eqb (tyof v) b = true) as -> by now apply bty_eqb_eq. now apply goods_ok.
  - destruct (typ G e) as [t'|]; [|discriminate]. assert (t = Str b) as -> by congruence. apply (bindo_good c (base t')); [now apply IH|]. intros v T V. now apply goods_cast.
  - destruct (typ G e) as [t'|]; [|discriminate]. assert (t = Raw b) as -> by congruence. apply (bindo_good c (base t')); [now apply IH|]. intros v T V. now apply goods_cast.
  - destruct (typ G e) as [t'|]; [|discriminate]. destruct (is_int (base t')) eqn:E; [|discriminate]. assert (t = Str (TF f)) as -> by congruence. apply (bindo_good c (base t')); [now apply IH|]. intros v T V. now apply goods_cast.
  - destruct (typ G e) as [[b|b]|]; try discriminate. destruct (un_result o b) as [b'|] eqn:E; [|discriminate]. assert (t = Str b') as -> by (cbn in HT; congruence).
    apply (bindo_good c b); [exact (IH HC _ eq_refl)|]. intros v T V. apply apply1_good; [exact V|]. now rewrite T.
  - destruct HC as (HC1 & HC2).
    assert (BB : forall b1 b2, goods c b1 (eval c G r e1) -> goods c b2 (eval c G r e2) -> builtin_logic G e1 e2 = true -> (o = OLand \/ o = OLor) -> t = Raw TB ->
      goods c (base t) (bindo (eval c G r e1) (fun v => if builtin_logic G e1 e2 then bindo (Some (cast TB v)) (fun b => match o, b with OLand, VB false | OLor, VB true => Some (Ok b) | OLand, _ | OLor, _ => bindo (eval c G r e2) (fun w => Some (cast TB w)) | _, _ => None end) else bindo (eval c G r e2) (fun w => apply2 c o v w)))).
    { intros b1 b2 G1 G2 -> HO ->. apply (bindo_good c b1 _ _ _ G1). intros v T V. apply (bindo_good c TB _ _ _ (goods_cast c TB v V)). intros w TW VW.
      destruct w as [x|u z|g x]; try discriminate TW. destruct HO as [-> | ->], x.
      - apply (bindo_good c b2 _ _ _ G2). intros w' _ V'. now apply goods_cast.
      - now apply goods_ok.
      - now apply goods_ok.
      - apply (bindo_good c b2 _ _ _ G2). intros w' _ V'. now apply goods_cast. }
    destruct (typ G e1) as [[a|a]|] eqn:T1; try discriminate; (destruct (typ G e2) as [[b|b]|] eqn:T2; try discriminate).
    + destruct b; try discriminate. apply (BB a TB); [exact (IH1 HC1 _ eq_refl)|exact (IH2 HC2 _ eq_refl)|unfold builtin_logic; now rewrite T1|destruct o; try discriminate; auto|destruct o; try discriminate; congruence].
    + destruct a; try discriminate. apply (BB TB b); [exact (IH1 HC1 _ eq_refl)|exact (IH2 HC2 _ eq_refl)|unfold builtin_logic; now rewrite T1, T2|destruct o; try discriminate; auto|destruct o; try discriminate; congruence].
    + assert (H : (if bty_eqb a b then option_map Str (op_result o a) else None) = Some t) by (destruct a; exact HT). clear HT BB. destruct (bty_eqb a b) eqn:E; [|discriminate]. apply bty_eqb_eq in E. subst b.
      destruct (op_result o a) as [b'|] eqn:EO; [|discriminate]. assert (t = Str b') as -> by (cbn in H; congruence).
      assert (builtin_logic G e1 e2 = false) as -> by (unfold builtin_logic; now rewrite T1, T2).
      apply (bindo_good c a); [exact (IH1 HC1 _ eq_refl)|]. intros v T V. apply (bindo_good c a); [exact (IH2 HC2 _ eq_refl)|]. intros w T' W. apply apply2_good; auto; [congruence|]. now rewrite T.
    + destruct a; discriminate.
  - destruct HC as (HC & HC1 & HC2). destruct (typ G e) as [t0|]; [|discriminate]. destruct (typ G e1) as [a|]; [|discriminate]. destruct (typ G e2) as [b|]; [|discriminate].
    destruct (vty_eqb t0 (Str TB) || vty_eqb t0 (Raw TB)) eqn:E0; [|discriminate]. destruct (vty_eqb a b) eqn:E1; [|discriminate]. assert (a = t) as -> by congruence. apply vty_eqb_eq in E1. subst b.
    apply (bindo_good c TB).
    + specialize (IH HC _ eq_refl). apply orb_prop in E0. destruct E0 as [E0|E0]; apply vty_eqb_eq in E0; subst t0; exact IH.
    + intros v T V. destruct v as [[|]| |]; try discriminate T; [now apply IH1|now apply IH2].
Qed.

(** ** Configurations *)
Lemma iop_config c c' o t x y v : (checked c = true \/ checked c' = false) -> iop c o t x y = Some (Ok v) -> iop c' o t x y = Some (Ok v).
Proof.
  intros HC. assert (CK : forall d, check_debug c (Ok d) = Ok tt -> check_debug c' (Ok d) = Ok tt).
  { intros d E. destruct (check_debug_cases c' d) as [(E' & _)|(_ & -> & K)]; [exact E'|]. destruct HC as [HC|HC]; [|congruence]. rewrite check_debug_false in E by exact HC. discriminate. }
  destruct o; cbn [iop]; auto; intros H; rewrite <- H.
  - unfold idiv in *. destruct (y =? 0) eqn:Y.
    + destruct (check_debug c (Ok (negb true))); cbn [bind] in H; discriminate.
    + cbn [negb]. now rewrite !check_debug_true.
  - unfold imod in *. destruct (y =? 0) eqn:Y.
    + destruct (check_debug c (Ok (negb true))); cbn [bind] in H; discriminate.
    + cbn [negb]. now rewrite !check_debug_true.
  - unfold ishl in *. destruct (signed t); [|reflexivity]. destruct (check_debug c (Ok (-1 <? x))) as [[]| |] eqn:E1; cbn [bind] in H; try discriminate. destruct (check_debug c (Ok (-1 <? y))) as [[]| |] eqn:E2; cbn [bind] in H; try discriminate.
    rewrite (CK _ E1), (CK _ E2). reflexivity.
  - unfold ishr in *. destruct (signed t); [|reflexivity]. destruct (check_debug c (Ok (-1 <? x))) as [[]| |] eqn:E1; cbn [bind] in H; try discriminate. destruct (check_debug c (Ok (-1 <? y))) as [[]| |] eqn:E2; cbn [bind] in H; try discriminate.
    rewrite (CK _ E1), (CK _ E2). reflexivity.
Qed.
Lemma apply2_config c c' o v w u : (checked c = true \/ checked c' = false) -> apply2 c o v w = Some (Ok u) -> apply2 c' o v w = Some (Ok u).
Proof.
  intros HC. destruct v as [x|t x|f x], w as [y|t' y|g y]; cbn [apply2]; auto. destruct (ity_eqb t t'); [|auto]. now apply iop_config.
Qed.
Lemma bindo_ok x k (u : value) : bindo x k = Some (Ok u) -> exists v : value, x = Some (Ok v) /\ k v = Some (Ok u).
Proof. destruct x as [[v|f|]|]; cbn; try discriminate. eauto. Qed.
Theorem config_ok c c' G r e v : (checked c = true \/ checked c' = false) -> eval c G r e = Some (Ok v) -> eval c' G r e = Some (Ok v).
Proof.
  intros HC. revert v. induction e as [n|v|b e IH|e IH|e IH|b e IH|b e IH|b e IH|f e IH|o e IH|o e1 IH1 e2 IH2|e IH e1 IH1 e2 IH2]; intros u; cbn [eval]; auto;
    try (intros H; apply bindo_ok in H as (w & E & K); rewrite (IH _ E); exact K).
  - intros H. apply bindo_ok in H as (w & E & K). rewrite (IH1 _ E). cbn [bindo]. destruct (builtin_logic G e1 e2).
    + apply bindo_ok in K as (b & E' & K). assert (cast TB w = Ok b) as -> by congruence. cbn [bindo]. destruct o; try discriminate; destruct b as [[|]| |]; try exact K; apply bindo_ok in K as (w' & E'' & K); rewrite (IH2 _ E''); exact K.
    + apply bindo_ok in K as (w' & E'' & K). rewrite (IH2 _ E''). cbn [bindo]. now apply (apply2_config c c').
  - intros H. apply bindo_ok in H as (w & E & K). rewrite (IH _ E). cbn [bindo]. destruct w as [[|]| |]; try discriminate; [now apply IH1|now apply IH2].
Qed.

(** ** The program on built-in types *)
(** The same value; a bool may be an int 0 or 1. *)
Definition sim (v w : value) : Prop := w = v \/ exists x, v = VB x /\ w = VI I32 (Z.b2z x).
Lemma cast_self v : valid v -> cast (tyof v) v = Ok v.
Proof.
  destruct v as [x|t z|f x]; intros H; cbn [tyof].
  - reflexivity.
  - now apply cast_int_fits.
  - destruct (is_finite x) eqn:F.
    + assert (N : near (fprec f) (femax f) (B2R x) = B2R x) by (apply near_exact; exact (generic_format_B2R (fprec f) (femax f) x)).
      destruct (float_to_float f f x F) as (y & E & F' & R & S & _); [rewrite N; apply B2R_bound; lia|]. rewrite E. do 2 f_equal. apply B2R_Bsign_inj; auto. now rewrite R.
    + destruct x; try discriminate F; reflexivity.
Qed.
Lemma cast_sim b v w : sim v w -> cast b w = cast b v.
Proof.
  intros [-> |(x & -> & ->)]; [reflexivity|]. destruct b as [|t|f]; cbn [cast]; [now destruct x| |reflexivity]. do 2 f_equal. apply icast_id. destruct x, t; cbv [fits signed bits Z.b2z]; lia.
Qed.
Lemma sim_real v w : sim v w -> tyof v <> TB -> w = v.
Proof. intros [-> |(x & -> & _)] H; [reflexivity|]. now destruct H. Qed.
Lemma common_self b : b <> TB -> common b b = b.
Proof. destruct b as [|t|f]; intros H; [congruence|now destruct t|now destruct f]. Qed.
Lemma promote_self b : b <> TB -> promote b = b. Proof. now destruct b. Qed.
Lemma apply2_types c o v w r : apply2 c o v w = Some r -> tyof v = tyof w.
Proof.
  destruct v as [x|t x|f x], w as [y|u y|g y]; cbn [apply2 tyof]; try discriminate; auto.
  - destruct (ity_eqb t u) eqn:E; [|discriminate]. apply ity_eqb_eq in E. congruence.
  - destruct (fmt_eq g f) as [E|]; [congruence|discriminate].
Qed.
Lemma cpp_same o v w : tyof v <> TB -> tyof v = tyof w -> valid v -> valid w -> cpp_bin o v w = same_type o v w.
Proof.
  intros HB HT HV HW. assert (CV := cast_self v HV). assert (CW := cast_self w HW). rewrite <- HT in CW.
  unfold cpp_bin. cbv zeta. rewrite <- HT, common_self, !promote_self, CV by exact HB.
  destruct o; cbn [bind]; rewrite CW; cbn [bind]; try rewrite CW; reflexivity.
Qed.
Definition logic (o : bop) : bool := match o with OLand | OLor => true | _ => false end.
Lemma bin_sim o v w v1 w1 r : logic o = false -> valid v -> valid w -> sim v v1 -> sim w w1 -> apply2 c_off o v w = Some r ->
  match r with Ok u => exists u1, cpp_bin o v1 w1 = Ok u1 /\ sim u u1 | UB => cpp_bin o v1 w1 = UB | Fail _ => cpp_bin o v1 w1 = r end.
Proof.
  intros HL HV HW SV SW HA. pose proof (apply2_types _ _ _ _ _ HA) as HT.
  assert (D : tyof v = TB \/ tyof v <> TB) by (destruct v; [now left|now right|now right]). destruct D as [D|D].
  - destruct v as [x| |]; try discriminate D. destruct w as [y| |]; try discriminate HT. cbn [apply2] in HA.
    destruct SV as [-> |(x' & E & ->)], SW as [-> |(y' & E' & ->)]; try (assert (x' = x) as -> by congruence); try (assert (y' = y) as -> by congruence);
      destruct o; try discriminate HL; try discriminate HA; cbn [bool_op] in HA; assert (Q := HA); injection Q as <-; destruct x, y; eexists; (split; [reflexivity|]);
      first [left; reflexivity|right; eexists; split; reflexivity].
  - apply sim_real in SV; [|exact D]. apply sim_real in SW; [|congruence]. subst v1 w1. rewrite (cpp_same o v w D HT HV HW). unfold same_type. rewrite HA.
    destruct r as [u|f|]; auto. exists u. split; [reflexivity|now left].
Qed.
Lemma un_sim o v v1 r : valid v -> sim v v1 -> apply1 o v = Some r ->
  match r with Ok u => exists u1, cpp_un o v1 = Ok u1 /\ sim u u1 | UB => cpp_un o v1 = UB | Fail _ => cpp_un o v1 = r end.
Proof.
  intros HV SV HA. assert (D : tyof v = TB \/ tyof v <> TB) by (destruct v; [now left|now right|now right]). destruct D as [D|D].
  - destruct v as [x| |]; try discriminate D. destruct o; try discriminate HA. cbn [apply1] in HA. assert (r = Ok (VB (negb x))) as -> by congruence.
    cbn [cpp_un]. rewrite (cast_sim TB _ _ SV). cbn. eexists. split; [reflexivity|now left].
  - apply sim_real in SV; [|exact D]. subst v1. assert (CV := cast_self v HV).
    assert (E : o <> UNot) by (intros ->; destruct v; try discriminate HA; now apply D).
    assert (cpp_un o v = r) as ->; [|destruct r as [u|f|]; auto; exists u; split; [reflexivity|now left]].
    unfold cpp_un. destruct o; try congruence; rewrite promote_self, CV by exact D; cbn [bind]; now rewrite HA.
Qed.
Definition agrees (e : exp) (o p : outcome value) : Prop :=
  match o with Ok v => exists w, p = Ok w /\ sim v w | UB => no_logic e -> p = UB | Fail _ => False end.
Lemma agrees_ok e v : agrees e (Ok v) (Ok v). Proof. exists v. split; [reflexivity|now left]. Qed.
Lemma eval_valid c G r e t v : matches G r -> consts_valid e -> typ G e = Some t -> eval c G r e = Some (Ok v) -> valid v /\ tyof v = base t.
Proof. intros M HC HT E. destruct (soundness c G r e M HC t HT) as (o & E' & K). rewrite E in E'. assert (o = Ok v) as -> by congruence. split; apply K. Qed.
Lemma bindo_cases x k (o : outcome value) : bindo x k = Some o -> (exists v : value, x = Some (Ok v) /\ k v = Some o) \/ (exists f, x = Some (Fail f) /\ o = Fail f) \/ (x = Some UB /\ o = UB).
Proof. destruct x as [[v|f|]|]; cbn; intros H; try discriminate; [left; eauto|right; left; exists f|right; right]; split; congruence. Qed.
Lemma cast_agrees e b v w o : sim v w -> cast b v = o -> agrees e o (cast b w).
Proof.
  intros S <-. rewrite (cast_sim b v w S). destruct (cast b v) as [u|f|] eqn:E; [apply agrees_ok|exact (cast_never_fails _ _ _ E)|now intros _].
Qed.
Theorem erasure G r e t : matches G r -> consts_valid e -> typ G e = Some t -> forall o, eval c_off G r e = Some o -> agrees e o (cpp r (erase e)).
Proof.
  intros M. revert t. induction e as [n|v|b e IH|e IH|e IH|b e IH|b e IH|b e IH|f e IH|o e IH|o e1 IH1 e2 IH2|e IH e1 IH1 e2 IH2]; intros t HC HT p HE; cbn [eval] in HE; cbn [erase cpp]; cbn [typ] in HT; cbn [consts_valid] in HC.
  - destruct (nth_error r n); [|discriminate]. assert (p = Ok v) as -> by congruence. apply agrees_ok.
  - assert (p = Ok v) as -> by congruence. apply agrees_ok.
  - destruct (typ G e) as [t'|] eqn:T; [|discriminate]. apply bindo_cases in HE as [(v & E & K)|[(f & E & ->)|(E & ->)]].
    + destruct (bty_eqb (tyof v) b); [|discriminate]. assert (p = Ok v) as -> by congruence. exact (IH _ HC eq_refl _ E).
    + exact (IH _ HC eq_refl _ E).
    + exact (IH _ HC eq_refl _ E).
  - destruct (typ G e) as [t'|] eqn:T; [|discriminate]. exact (IH _ HC eq_refl _ HE).
  - destruct (typ G e) as [t'|] eqn:T; [|discriminate]. exact (IH _ HC eq_refl _ HE).
  - destruct (typ G e) as [t'|] eqn:T; [|discriminate]. apply bindo_cases in HE as [(v & E & K)|[(f & E & ->)|(E & ->)]].
    + destruct (bty_eqb (tyof v) b); [|discriminate]. assert (p = Ok v) as -> by congruence. exact (IH _ HC eq_refl _ E).
    + exact (IH _ HC eq_refl _ E).
    + exact (IH _ HC eq_refl _ E).
  - destruct (typ G e) as [t'|] eqn:T; [|discriminate]. apply bindo_cases in HE as [(v & E & K)|[(f & E & ->)|(E & ->)]]; specialize (IH _ HC eq_refl _ E); cbn [agrees] in IH.
    + destruct IH as (w & -> & S). cbn [bind]. apply (cast_agrees _ b v w); [exact S|congruence].
    + destruct IH.
    + intros N. now rewrite (IH N).
  - destruct (typ G e) as [t'|] eqn:T; [|discriminate]. apply bindo_cases in HE as [(v & E & K)|[(f & E & ->)|(E & ->)]]; specialize (IH _ HC eq_refl _ E); cbn [agrees] in IH.
    + destruct IH as (w & -> & S). cbn [bind]. apply (cast_agrees _ b v w); [exact S|congruence].
    + destruct IH.
    + intros N. now rewrite (IH N).
  - destruct (typ G e) as [t'|] eqn:T; [|discriminate]. apply bindo_cases in HE as [(v & E & K)|[(g & E & ->)|(E & ->)]]; specialize (IH _ HC eq_refl _ E); cbn [agrees] in IH.
    + destruct IH as (w & -> & S). cbn [bind]. apply (cast_agrees _ (TF f) v w); [exact S|congruence].
    + destruct IH.
    + intros N. now rewrite (IH N).
  - destruct (typ G e) as [t'|] eqn:T; [|discriminate]. apply bindo_cases in HE as [(v & E & K)|[(g & E & ->)|(E & ->)]]; pose proof (IH _ HC eq_refl _ E) as A; cbn [agrees] in A.
    + destruct A as (w & -> & S). cbn [bind]. destruct (eval_valid _ _ _ _ _ _ M HC T E) as (V & _). pose proof (un_sim o v w p V S K) as U.
      destruct p as [u|g|]; cbn [agrees]; [exact U| |now intros _]. destruct (apply1_good c_off o v) with (b := match un_result o (tyof v) with Some b => b | None => TB end) as (q & Q & B); [exact V| |].
      * destruct t' as [b|b]; [discriminate|]. destruct (eval_valid _ _ _ _ _ _ M HC T E) as (_ & TV). cbn [base] in TV. rewrite TV. destruct (un_result o b); [reflexivity|discriminate].
      * rewrite K in Q. assert (q = Fail g) as -> by congruence. destruct B as (_ & B). discriminate B.
    + destruct A.
    + intros N. now rewrite (A N).
  - destruct HC as (HC1 & HC2).
    destruct (typ G e1) as [t1|] eqn:T1; [|discriminate]. destruct (typ G e2) as [t2|] eqn:T2; [|destruct t1 as [|[]]; discriminate].
    apply bindo_cases in HE as [(v & E & K)|[(g & E & ->)|(E & ->)]]; pose proof (IH1 _ HC1 eq_refl _ E) as A; cbn [agrees] in A.
    2: destruct A.
    2: { intros (L1 & L2 & N1 & N2). rewrite (A N1). destruct o; congruence || reflexivity. }
    destruct A as (v1 & A & S). destruct (eval_valid _ _ _ _ _ _ M HC1 T1 E) as (V & TV). destruct (builtin_logic G e1 e2).
    + destruct (cast TB v) as [b|g|] eqn:CB; cbn [bindo] in K; [|exfalso; exact (cast_never_fails _ _ _ CB)|destruct v; discriminate].
      assert (CV : cast TB v1 = Ok b) by (now rewrite (cast_sim TB v v1 S)).
      assert (R2 : bindo (eval c_off G r e2) (fun w => Some (cast TB w)) = Some p -> (o = OLand \/ o = OLor) -> agrees (XBin o e1 e2) p (w <- cpp r (erase e2) ;; cast TB w)).
      { intros K2 HO. apply bindo_cases in K2 as [(w & E2 & K2)|[(g & E2 & ->)|(E2 & ->)]]; pose proof (IH2 _ HC2 eq_refl _ E2) as A2; cbn [agrees] in A2.
        - destruct A2 as (w1 & -> & S2). cbn [bind]. apply (cast_agrees _ TB w w1); [exact S2|congruence].
        - destruct A2.
        - intros (L1 & L2 & _). now destruct HO. }
      assert (tyof b = TB) as TBB by (destruct (cast_cases TB v V) as [(b' & CB' & TB' & _)|CB']; rewrite CB in CB'; [congruence|discriminate]).
      destruct b as [x| |]; try discriminate TBB.
      destruct o; try discriminate K; rewrite A; cbn [bind]; rewrite CV; cbn [bind]; destruct x; try (apply R2; auto).
      * assert (p = Ok (VB false)) as -> by congruence. apply agrees_ok.
      * assert (p = Ok (VB true)) as -> by congruence. apply agrees_ok.
    + apply bindo_cases in K as [(w & E2 & K)|[(g & E2 & ->)|(E2 & ->)]]; pose proof (IH2 _ HC2 eq_refl _ E2) as A2; cbn [agrees] in A2.
      2: destruct A2.
      2: { intros (L1 & L2 & N1 & N2). rewrite A. cbn [bind]. rewrite (A2 N2). destruct o; congruence || reflexivity. }
      destruct A2 as (w1 & A2 & S2). destruct (eval_valid _ _ _ _ _ _ M HC2 T2 E2) as (W & TW).
      destruct (logic o) eqn:HL.
      * assert (HO : o = OLand \/ o = OLor) by (destruct o; try discriminate; auto). clear HL.
        assert (exists x y, v = VB x /\ w = VB y) as (x & y & -> & ->).
        { destruct v as [x|u x|f x], w as [y|u' y|g y]; cbn [apply2] in K; try discriminate K; [eauto| |].
          - destruct (ity_eqb u u'), HO as [-> | ->]; discriminate.
          - destruct (fmt_eq g f), HO as [-> | ->]; discriminate. }
        pose proof (cast_sim TB _ _ S) as C1. pose proof (cast_sim TB _ _ S2) as C2. change (cast TB (VB x)) with (Ok (VB x)) in C1. change (cast TB (VB y)) with (Ok (VB y)) in C2.
        destruct HO as [-> | ->]; cbn [apply2 bool_op] in K; rewrite A; cbn [bind]; rewrite C1; cbn [bind]; rewrite A2; cbn [bind]; rewrite C2; destruct x; cbn [andb orb] in K; match type of K with Some ?q = Some p => assert (p = q) as -> by congruence end; apply agrees_ok.
      * pose proof (bin_sim o v w v1 w1 p HL V W S S2 K) as B.
        assert (BE : cpp_bin o v1 w1 = (v' <- cpp r (erase e1) ;; w' <- cpp r (erase e2) ;; cpp_bin o v' w')) by now rewrite A, A2.
        assert (match p with Ok u => exists u1, cpp_bin o v1 w1 = Ok u1 /\ sim u u1 | UB => cpp_bin o v1 w1 = UB | Fail _ => False end) as B'.
        { destruct p as [u|g|]; auto. assert (exists b, op_result o (tyof v) = Some b) as (b & OB).
          { destruct v as [x|u x|f x], w as [y|u' y|f' y]; cbn [apply2 tyof] in *; try discriminate K; destruct o; try discriminate; try (eexists; reflexivity); try (destruct (fmt_eq f' f); discriminate). }
          destruct (apply2_good c_off o v w b (apply2_types _ _ _ _ _ K) V W OB) as (q & Q & GQ). rewrite K in Q. assert (q = Fail g) as -> by congruence. destruct GQ as (_ & GQ). discriminate GQ. }
        rewrite BE in B'. destruct o; try discriminate HL; (destruct p as [u|g|]; cbn [agrees]; [exact B'|destruct B'|now intros _]).
  - destruct HC as (HC & HC1 & HC2). destruct (typ G e) as [t0|] eqn:T0; [|discriminate]. destruct (typ G e1) as [a|] eqn:T1; [|discriminate]. destruct (typ G e2) as [b|] eqn:T2; [|discriminate].
    apply bindo_cases in HE as [(v & E & K)|[(g & E & ->)|(E & ->)]]; pose proof (IH _ HC eq_refl _ E) as A; cbn [agrees] in A.
    + destruct A as (w & -> & S). cbn [bind]. rewrite (cast_sim TB v w S). destruct v as [[|]| |]; try discriminate K; cbn [cast bind].
      * pose proof (IH1 _ HC1 eq_refl _ K) as A1. destruct p as [u|g|]; cbn [agrees] in *; [exact A1|exact A1|]. intros (_ & N & _). exact (A1 N).
      * pose proof (IH2 _ HC2 eq_refl _ K) as A1. destruct p as [u|g|]; cbn [agrees] in *; [exact A1|exact A1|]. intros (_ & _ & N). exact (A1 N).
    + destruct A.
    + intros (N & _). now rewrite (A N).
Qed.

Theorem erasure_ok c G r e t v : matches G r -> consts_valid e -> typ G e = Some t -> eval c G r e = Some (Ok v) ->
  exists w, cpp r (erase e) = Ok w /\ cast (base t) w = Ok v /\ (base t <> TB -> w = v).
Proof.
  intros M HC HT E. assert (E' : eval c_off G r e = Some (Ok v)) by (apply (config_ok c c_off); auto).
  destruct (erasure G r e t M HC HT _ E') as (w & A & S). destruct (eval_valid _ _ _ _ _ _ M HC HT E) as (V & T). exists w. split; [exact A|].
  rewrite <- T. split; [rewrite (cast_sim _ _ _ S); now apply cast_self|]. intros D. now apply sim_real.
Qed.
Lemma eval_unchecked c c' G r e t o : checked c = false -> checked c' = false -> matches G r -> consts_valid e -> typ G e = Some t -> eval c G r e = Some o -> eval c' G r e = Some o.
Proof.
  intros K K' M HC HT E. destruct (soundness c G r e M HC t HT) as (q & E1 & G1). rewrite E in E1. assert (q = o) as -> by congruence.
  destruct (soundness c' G r e M HC t HT) as (q' & E2 & G2). destruct o as [v|f|].
  - now apply (config_ok c c'); auto.
  - destruct G1 as (_ & G1). congruence.
  - destruct q' as [v|f|]; [|destruct G2 as (_ & G2); congruence|exact E2]. apply (config_ok c' c) in E2; [congruence|auto].
Qed.
Theorem erasure_same c G r e t : checked c = false -> matches G r -> consts_valid e -> typ G e = Some t -> no_logic e ->
  (eval c G r e = Some UB <-> cpp r (erase e) = UB).
Proof.
  intros K M HC HT N. destruct (soundness c G r e M HC t HT) as (o & E & GO). pose proof (eval_unchecked c c_off G r e t o K eq_refl M HC HT E) as E'.
  pose proof (erasure G r e t M HC HT o E') as A. rewrite E. destruct o as [v|f|]; cbn [agrees] in A.
  - destruct A as (w & -> & _). split; discriminate.
  - destruct A.
  - rewrite (A N). tauto.
Qed.
(** ** Comparisons *)
Theorem comparing c o v w : comparison o -> tyof v = tyof w -> finite v -> finite w ->
  exists b, apply2 c o v w = Some (Ok (VB b)) /\ (b = true <-> compares o (real v) (real w)).
Proof.
  intros HO HT FV FW. destruct v as [x|t x|f x], w as [y|u y|g y]; try discriminate HT; cbn [apply2 real].
  - cbn [comparison In] in HO. unfold comparison in HO. cbn [In] in HO. destruct HO as [<-|[<-|[<-|[<-|[<-|[<-|[]]]]]]]; cbn [bool_op]; eexists; (split; [reflexivity|]); destruct x, y; cbn; split; intros; try reflexivity; try discriminate; try lra.
  - assert (u = t) as -> by (cbn in HT; congruence). rewrite ity_eqb_refl. unfold comparison in HO. cbn [In] in HO.
    destruct HO as [<-|[<-|[<-|[<-|[<-|[<-|[]]]]]]]; cbn [iop compares]; eexists; (split; [reflexivity|]).
    + rewrite Z.eqb_eq. split; [now intros ->|apply eq_IZR].
    + rewrite negb_true_iff, Z.eqb_neq. split; intros H H'; apply H; [now apply eq_IZR|now rewrite H'].
    + rewrite Z.ltb_lt. split; [apply IZR_lt|apply lt_IZR].
    + rewrite Z.leb_le. split; [apply IZR_le|apply le_IZR].
    + rewrite Z.ltb_lt. split; [apply IZR_lt|apply lt_IZR].
    + rewrite Z.leb_le. split; [intros H; apply Rle_ge; now apply IZR_le|intros H; apply le_IZR; now apply Rge_le].
  - assert (g = f) as -> by (cbn in HT; congruence). destruct (fmt_eq f f) as [E|N]; [|congruence]. rewrite (UIP_dec fmt_eq E eq_refl). cbn [eq_rect]. clear E. cbn [finite] in *.
    unfold comparison in HO. cbn [In] in HO.
    destruct HO as [<-|[<-|[<-|[<-|[<-|[<-|[]]]]]]]; cbn [fop compares fnum neqb nlt nle]; eexists; (split; [reflexivity|]);
      rewrite ?Beqb_correct, ?Bltb_correct, ?Bleb_correct by assumption.
    + case Req_bool_spec; intuition congruence.
    + case Req_bool_spec; cbn; intuition congruence.
    + case Rlt_bool_spec; split; intros; try lra; try discriminate; reflexivity.
    + case Rle_bool_spec; split; intros; try lra; try discriminate; reflexivity.
    + case Rlt_bool_spec; split; intros; try lra; try discriminate; reflexivity.
    + case Rle_bool_spec; split; intros; try lra; try discriminate; reflexivity.
Qed.
(** ** Bitwise operators *)
Lemma lnot_val t x : fits (signed t) (bits t) x -> inot t x = if signed t then - x - 1 else 2 ^ bits t - 1 - x.
Proof.
  intros H. unfold inot. destruct t; cbn [signed bits] in *.
  - rewrite wrap_id; unfold Z.lnot in *; cbv [fits signed bits] in *; lia.
  - rewrite wrap_id; unfold Z.lnot in *; cbv [fits signed bits] in *; lia.
  - destruct (wrap_cong U32 (Z.lnot x)) as (k & E). pose proof (wrap_fits U32 (Z.lnot x)) as F. rewrite E in *. unfold Z.lnot in *. cbv [fits signed bits] in *. lia.
  - destruct (wrap_cong U64 (Z.lnot x)) as (k & E). pose proof (wrap_fits U64 (Z.lnot x)) as F. rewrite E in *. unfold Z.lnot in *. cbv [fits signed bits] in *. lia.
Qed.
Lemma lnot_bits t x i : 0 <= i < bits t -> Z.testbit (inot t x) i = negb (Z.testbit x i).
Proof.
  intros H. unfold inot. destruct (wrap_cong t (Z.lnot x)) as (k & ->). rewrite <- Z.lnot_spec by lia.
  rewrite <- (Z.mod_pow2_bits_low (Z.lnot x + k * 2 ^ bits t) (bits t) i) by lia. rewrite Z_mod_plus_full. now rewrite Z.mod_pow2_bits_low by lia.
Qed.
Theorem bitwise c t x y : fits (signed t) (bits t) x -> fits (signed t) (bits t) y ->
  exists a o e n, apply2 c OAnd (VI t x) (VI t y) = Some (Ok (VI t a)) /\ apply2 c OOr (VI t x) (VI t y) = Some (Ok (VI t o)) /\
    apply2 c OXor (VI t x) (VI t y) = Some (Ok (VI t e)) /\ apply1 UCompl (VI t x) = Some (Ok (VI t n)) /\
    fits (signed t) (bits t) a /\ fits (signed t) (bits t) o /\ fits (signed t) (bits t) e /\ fits (signed t) (bits t) n /\
    (forall i, 0 <= i < bits t -> let X := Z.testbit x i in let Y := Z.testbit y i in
       Z.testbit a i = X && Y /\ Z.testbit o i = X || Y /\ Z.testbit e i = xorb X Y /\ Z.testbit n i = negb X) /\
    n = (if signed t then - x - 1 else 2 ^ bits t - 1 - x).
Proof.
  intros Hx Hy. destruct (bit_fits t x y Hx Hy) as (B1 & B2 & B3). exists (Z.land x y), (Z.lor x y), (Z.lxor x y), (inot t x). cbn [apply2]. rewrite ity_eqb_refl.
  do 4 (split; [reflexivity|]). do 3 (split; [assumption|]). split; [apply wrap_fits|]. split; [|now apply lnot_val].
  intros i Hi. rewrite Z.land_spec, Z.lor_spec, Z.lxor_spec, lnot_bits by exact Hi. auto.
Qed.

(** ** Arithmetic *)
Theorem int_arith c o t x y : In o [OAdd; OSub; OMul] ->
  (fits (signed t) (bits t) (zmath o x y) -> apply2 c o (VI t x) (VI t y) = Some (Ok (VI t (zmath o x y)))) /\
  (~ fits (signed t) (bits t) (zmath o x y) -> signed t = true -> apply2 c o (VI t x) (VI t y) = Some UB) /\
  (signed t = false -> apply2 c o (VI t x) (VI t y) = Some (Ok (VI t (zmath o x y mod 2 ^ bits t)))).
Proof.
  intros HO. assert (apply2 c o (VI t x) (VI t y) = Some (r <- arith t (zmath o x y) ;; Ok (VI t r))) as ->.
  { cbn [apply2]. rewrite ity_eqb_refl. cbn [In] in HO. destruct HO as [<-|[<-|[<-|[]]]]; reflexivity. }
  split; [|split].
  - intros F. unfold arith. destruct (signed t) eqn:S.
    + rewrite <- S in F. apply inr_fits in F. now rewrite F.
    + cbn [bind]. do 3 f_equal. rewrite tmod_pow. apply Z.mod_small. unfold fits in F. exact F.
  - intros F S. now rewrite arith_signed_ub.
  - intros S. now rewrite arith_unsigned.
Qed.
Theorem int_division c t x y : valid (VI t x) -> valid (VI t y) -> y <> 0 -> ~ (signed t = true /\ x = - 2 ^ (bits t - 1) /\ y = -1) ->
  exists q r, apply2 c ODiv (VI t x) (VI t y) = Some (Ok (VI t q)) /\ apply2 c OMod (VI t x) (VI t y) = Some (Ok (VI t r)) /\
    x = q * y + r /\ Z.abs r < Z.abs y /\ 0 <= r * x.
Proof.
  intros HX HY H0 HT. destruct (idiv_imod_ok c t x y HX HY H0 HT) as (q & r & E1 & E2 & E & R1 & R2 & _). exists q, r. cbn [apply2]. rewrite ity_eqb_refl. cbn [iop]. rewrite E1, E2. auto.
Qed.
Theorem int_division_zero c t x : apply2 c ODiv (VI t x) (VI t 0) = Some (if checked c then Fail (report c) else UB) /\ apply2 c OMod (VI t x) (VI t 0) = Some (if checked c then Fail (report c) else UB).
Proof.
  cbn [apply2]. rewrite ity_eqb_refl. cbn [iop]. destruct (checked c) eqn:K.
  - destruct (idiv_zero c t x K) as (-> & ->). auto.
  - destruct (idiv_zero_unchecked c t x K) as (-> & ->). auto.
Qed.
Theorem int_shift c t x y : valid (VI t x) -> 0 <= x -> 0 <= y < bits t ->
  apply2 c OShr (VI t x) (VI t y) = Some (Ok (VI t (x / 2 ^ y))) /\
  exists r k, apply2 c OShl (VI t x) (VI t y) = Some (Ok (VI t r)) /\ fits (signed t) (bits t) r /\ r = x * 2 ^ y + k * 2 ^ bits t.
Proof.
  intros HX H0 HY. cbn [apply2]. rewrite ity_eqb_refl. cbn [iop]. rewrite ishr_ok by assumption. split; [reflexivity|].
  destruct (ishl_ok c t x y HX H0 HY) as (r & k & -> & F & E). exists r, k. auto.
Qed.
Theorem float_arith c o f (x y : flt f) : In o [OAdd; OSub; OMul; ODiv] -> is_finite x = true -> is_finite y = true -> (o = ODiv -> B2R y <> 0%R) ->
  (Rabs (near (fprec f) (femax f) (rmath o (B2R x) (B2R y))) < bpow radix2 (femax f))%R ->
  exists z, apply2 c o (VF f x) (VF f y) = Some (Ok (VF f z)) /\ is_finite z = true /\ B2R z = near (fprec f) (femax f) (rmath o (B2R x) (B2R y)).
Proof.
  intros HO FX FY HD HB. cbn [apply2]. destruct (fmt_eq f f) as [E|N]; [|congruence]. rewrite (UIP_dec fmt_eq E eq_refl). cbn [eq_rect]. clear E.
  cbn [In] in HO. destruct HO as [<-|[<-|[<-|[<-|[]]]]]; cbn [fop fnum nadd nsub nmul ndiv rmath] in *; eexists; (split; [reflexivity|]).
  - pose proof (Bplus_correct (fprec f) (femax f) _ _ mode_NE x y FX FY) as B. rewrite Rlt_bool_true in B by exact HB. split; apply B.
  - pose proof (Bminus_correct (fprec f) (femax f) _ _ mode_NE x y FX FY) as B. rewrite Rlt_bool_true in B by exact HB. split; apply B.
  - pose proof (Bmult_correct (fprec f) (femax f) _ _ mode_NE x y) as B. rewrite Rlt_bool_true in B by exact HB. destruct B as (B1 & B2 & _). rewrite FX, FY in B2. now split.
  - pose proof (Bdiv_correct (fprec f) (femax f) _ _ mode_NE x y (HD eq_refl)) as B. rewrite Rlt_bool_true in B by exact HB. destruct B as (B1 & B2 & _). rewrite FX in B2. now split.
Qed.
Theorem negation t z f (x : flt f) : signed t = true ->
  (fits (signed t) (bits t) (- z) -> apply1 UMinus (VI t z) = Some (Ok (VI t (- z)))) /\
  (~ fits (signed t) (bits t) (- z) -> apply1 UMinus (VI t z) = Some UB) /\
  exists y, apply1 UMinus (VF f x) = Some (Ok (VF f y)) /\ B2R y = (- B2R x)%R /\ is_finite y = is_finite x.
Proof.
  intros HS. cbn [apply1]. rewrite HS. unfold ineg. rewrite <- HS. split; [|split].
  - intros F. now rewrite arith_signed_ok.
  - intros F. now rewrite arith_signed_ub.
  - eexists. split; [reflexivity|]. cbn [fnum nneg]. split; [apply B2R_Bopp|apply is_finite_Bopp].
Qed.
Theorem bool_ops c x y : apply2 c OXor (VB x) (VB y) = Some (Ok (VB (xorb x y))) /\ apply2 c OLand (VB x) (VB y) = Some (Ok (VB (x && y))) /\
  apply2 c OLor (VB x) (VB y) = Some (Ok (VB (x || y))) /\ apply1 UNot (VB x) = Some (Ok (VB (negb x))).
Proof. repeat split. Qed.
(** ** What does not compile *)
Lemma neq_eqb a b : a <> b -> bty_eqb a b = false.
Proof. intros H. destruct (bty_eqb a b) eqn:E; [|reflexivity]. apply bty_eqb_eq in E. contradiction. Qed.
Theorem mixed_rejected G o e1 e2 a b : typ G e1 = Some (Str a) -> typ G e2 = Some (Str b) -> a <> b -> typ G (XBin o e1 e2) = None.
Proof. intros H1 H2 N. cbn [typ]. rewrite H1, H2, (neq_eqb a b N). now destruct a. Qed.
Theorem raw_rejected G o e1 e2 a b : typ G e1 = Some (Str a) -> typ G e2 = Some (Raw b) -> (a <> TB \/ (o <> OLand /\ o <> OLor)) ->
  typ G (XBin o e1 e2) = None /\ typ G (XBin o e2 e1) = None.
Proof. intros H1 H2 N. cbn [typ]. rewrite H1, H2. destruct a as [|t|f]; [|split; reflexivity|split; reflexivity]. destruct N as [N|(N1 & N2)]; [congruence|]. destruct o; auto; congruence. Qed.
Theorem conversion_rejected G e t b : typ G e = Some t -> base t <> b -> typ G (XMake b e) = None /\ typ G (XExact b e) = None.
Proof. intros H N. cbn [typ]. rewrite H, (neq_eqb _ _ N). split; [reflexivity|]. destruct t as [a|a]; [reflexivity|]. cbn [base] in N. now rewrite (neq_eqb _ _ N). Qed.
Theorem condition_rejected G e e1 e2 b : typ G e = Some (Str b) -> b <> TB -> typ G (XIf e e1 e2) = None.
Proof.
  intros H N. cbn [typ]. rewrite H. destruct (typ G e1) as [a|]; [|reflexivity]. destruct (typ G e2) as [a'|]; [|reflexivity]. cbn [vty_eqb]. now rewrite (neq_eqb _ _ N).
Qed.
Theorem operator_rejected G e1 e2 b : typ G e1 = Some (Str b) -> typ G e2 = Some (Str b) ->
  (b = TB -> forall o, In o [OAdd; OSub; OMul; ODiv; OMod; OShl; OShr; OAnd; OOr] -> typ G (XBin o e1 e2) = None) /\
  (is_int b = false -> forall o, In o [OMod; OShl; OShr; OAnd; OOr] -> typ G (XBin o e1 e2) = None) /\
  (b <> TB -> forall o, In o [OLand; OLor] -> typ G (XBin o e1 e2) = None) /\
  (forall t, b = TI t -> signed t = false -> typ G (XUn UMinus e1) = None).
Proof.
  intros H1 H2. cbn [typ]. rewrite H1, H2. assert (bty_eqb b b = true) as E by now apply bty_eqb_eq.
  split; [|split; [|split]].
  - intros -> o HO. cbn [In] in HO. repeat (destruct HO as [<-|HO]; [reflexivity|]). destruct HO.
  - intros HI o HO. rewrite E. cbn [In] in HO. destruct b as [|t|f]; try discriminate HI; repeat (destruct HO as [<-|HO]; [reflexivity|]); destruct HO.
  - intros N o HO. rewrite E. cbn [In] in HO. destruct b as [|t|f]; [congruence| |]; repeat (destruct HO as [<-|HO]; [reflexivity|]); destruct HO.
  - intros t -> S. cbn [un_result]. now rewrite S.
Qed.
