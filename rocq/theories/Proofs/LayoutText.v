(** Printed layouts: the text part. *)
From Coq Require Import Ascii.
From Flocq Require Import Core BinarySingleNaN.
From Verif Require Import Base.Outcome Base.ZList Model.IntModel Model.ScalarOps Model.Scalars Model.ArrayIO Model.FloatIO Model.Layout.
From Verif Require Import Spec.IOSpec Spec.LayoutSpec Proofs.IOText.

Lemma zlen_repeat {A} (x : A) k : zlen (repeat x k) = Z.of_nat k.
Proof. unfold zlen. now rewrite repeat_length. Qed.

(** ** Decimal text without leading zeros *)
Lemma fold_number ds : forall v, fold_left (fun v d => 10 * v + d) ds v = v * 10 ^ zlen ds + number ds.
Proof.
  induction ds as [|d ds IH]; intros v; [cbn; lia|]. unfold number. cbn [fold_left]. rewrite !IH, zlen_cons. pose proof (zlen_nonneg ds). rewrite Z.pow_add_r by lia. lia.
Qed.
Lemma number_bound ds : Forall (fun d => 0 <= d < 10) ds -> 0 <= number ds < 10 ^ zlen ds.
Proof.
  induction ds as [|d ds IH]; intros H; [cbn; lia|]. inversion H; subst. unfold number. cbn [fold_left]. rewrite fold_number, zlen_cons. pose proof (zlen_nonneg ds). rewrite Z.pow_add_r by lia. specialize (IH H3). nia.
Qed.
Lemma numeral_zero d : 0 <= d < 10 -> numeral d = "0"%char -> d = 0.
Proof.
  intros H E. assert (C : d = 0 \/ d = 1 \/ d = 2 \/ d = 3 \/ d = 4 \/ d = 5 \/ d = 6 \/ d = 7 \/ d = 8 \/ d = 9) by lia.
  destruct C as [->|[->|[->|[->|[->|[->|[->|[->|[->| ->]]]]]]]]]; [reflexivity|discriminate E..].
Qed.
Lemma plain_length s n : plain s n -> has_digits n (zlen s).
Proof.
  intros ((ds & Hne & Hd & -> & ->) & Hz). unfold has_digits. rewrite zlen_map. destruct ds as [|d ds]; [congruence|]. inversion Hd; subst. rewrite zlen_cons. pose proof (zlen_nonneg ds).
  split; [lia|]. unfold number. cbn [fold_left]. rewrite fold_number. pose proof (number_bound ds H2) as B. replace (1 + zlen ds - 1) with (zlen ds) by lia.
  assert (Hp : 0 < 10 ^ zlen ds) by (apply Z.pow_pos_nonneg; lia). rewrite Z.pow_add_r by lia. change (10 ^ 1) with 10.
  destruct Hz as [Hz|Hz]; cbn [map] in Hz.
  - injection Hz as Hz1 Hz2. apply numeral_zero in Hz1; [|lia]. subst d. destruct ds; [|discriminate]. reflexivity.
  - assert (1 <= d) by (destruct (Z.eq_dec d 0) as [->|]; [now contradiction Hz|lia]).
    replace ((10 * 0 + d) * 10 ^ zlen ds + number ds =? 0) with false by nia. nia.
Qed.
Lemma has_digits_unique n d d' : 0 <= n -> has_digits n d -> has_digits n d' -> d = d'.
Proof.
  unfold has_digits. intros Hn (H1 & H2) (H3 & H4). destruct (Z.eqb_spec n 0); [lia|].
  destruct (Z.lt_trichotomy d d') as [L|[L|L]]; [|exact L|].
  - pose proof (Z.pow_le_mono_r 10 d (d' - 1) ltac:(lia) ltac:(lia)). lia.
  - pose proof (Z.pow_le_mono_r 10 d' (d - 1) ltac:(lia) ltac:(lia)). lia.
Qed.
Lemma has_digits_mono n m d e : 0 <= n <= m -> has_digits n d -> has_digits m e -> d <= e.
Proof.
  unfold has_digits. intros Hn (H1 & H2) (H3 & H4). destruct (Z.eqb_spec n 0); [lia|]. destruct (Z.eqb_spec m 0); [lia|].
  destruct (Z.le_gt_cases d e); [assumption|]. pose proof (Z.pow_le_mono_r 10 e (d - 1) ltac:(lia) ltac:(lia)). lia.
Qed.
Lemma decimal_plain k : forall n, 0 <= n < 2 ^ Z.of_nat k -> (0 < k)%nat -> plain (decimal k n) n.
Proof.
  intros n Hn Hk. split; [now apply decimal_digits|]. revert n Hn Hk. induction k as [|k IH]; intros n Hn Hk; [lia|]. cbn [decimal]. destruct (Z.ltb_spec n 10).
  - rewrite (proj2 (digit_numeral n ltac:(lia))). destruct (Z.eq_dec n 0) as [->|]; [now left|]. right. intros E. apply numeral_zero in E; lia.
  - assert (Hk' : (0 < k)%nat) by (destruct k; [cbn in Hn; lia|lia]).
    replace (Z.of_nat (S k)) with (Z.succ (Z.of_nat k)) in Hn by lia. rewrite Z.pow_succ_r in Hn by lia.
    assert (B : 0 <= n / 10 < 2 ^ Z.of_nat k) by (split; [apply Z.div_pos; lia|apply Z.div_lt_upper_bound; lia]).
    assert (1 <= n / 10) by (apply Z.div_le_lower_bound; lia).
    specialize (IH (n / 10) B Hk'). right. destruct IH as [E|E].
    + exfalso. pose proof (decimal_digits k (n / 10) B Hk') as Q. rewrite E in Q. assert (P0 : plain ["0"%char] (n / 10)) by (split; [exact Q|now left]).
      destruct Q as (ds & _ & Q2 & Q3 & Q4). destruct ds as [|d [|d' ds]]; try discriminate. inversion Q2; subst. cbn in Q3. injection Q3 as Q3. symmetry in Q3. apply numeral_zero in Q3; [|assumption]. subst d. cbn in Q4. lia.
    + now destruct (decimal k (n / 10)).
Qed.
Lemma udec_plain n : 0 <= n -> plain (udec n) n.
Proof.
  intros H. unfold udec. apply decimal_plain; [|lia]. split; [lia|]. destruct (Z.eq_dec n 0) as [->|]; [cbn; lia|].
  pose proof (Z.log2_spec n ltac:(lia)) as [_ B]. pose proof (Z.log2_nonneg n). replace (Z.of_nat (S (Z.to_nat (Z.log2 n)))) with (Z.succ (Z.log2 n)) by lia. exact B.
Qed.
Lemma udec_length n : 0 <= n -> has_digits n (zlen (udec n)).
Proof. intros H. now apply plain_length, udec_plain. Qed.
Lemma show_length t x : in_type t x -> has_digits (Z.abs x) (zlen (show t x) - if signed t then 1 else 0).
Proof.
  intros H. unfold show. destruct (signed t) eqn:E.
  - rewrite zlen_cons. replace (1 + zlen (udec (Z.abs x)) - 1) with (zlen (udec (Z.abs x))) by lia. apply udec_length. lia.
  - rewrite Z.sub_0_r. destruct H. assert (0 <= x) by (destruct t; try discriminate; cbn in *; lia). replace (Z.abs x) with x by lia. now apply udec_length.
Qed.
Lemma pad_field w t : field (Z.max (Z.of_nat w) (zlen t)) t (pad w t).
Proof. exists (w - length t)%nat. split; [reflexivity|]. unfold pad. rewrite zlen_app, zlen_repeat. unfold zlen. lia. Qed.
Lemma fields_mono (P Q : Z -> text -> text -> Prop) : (forall j t s, P j t s -> Q j t s) -> forall j ts s, fields P j ts s -> fields Q j ts s.
Proof. intros H j ts s F. induction F; constructor; auto. Qed.

(** ** Loops *)
Section W.
Context {A : Type}.
Implicit Types l : list A.
Fixpoint wrote (g : Z -> A -> text) (i : Z) l : text := match l with [] => [] | x :: l' => g i x ++ wrote g (i + 1) l' end.
Lemma written_ok f g l : forall i, (forall j x, znth l j = Some x -> f (i + j) x = Ok (g (i + j) x)) -> written f i l = Ok (wrote g i l).
Proof.
  induction l as [|x l IH]; intros i H; [reflexivity|]. cbn [written wrote]. rewrite <- (Z.add_0_r i) at 1. rewrite (H 0 x eq_refl), Z.add_0_r. cbn [bind].
  rewrite (IH (i + 1)); [reflexivity|]. intros j y Hy. replace (i + 1 + j) with (i + (1 + j)) by lia. apply H. pose proof (znth_lt _ _ _ Hy). rewrite znth_cons_pos by lia. replace (1 + j - 1) with j by lia. exact Hy.
Qed.
Lemma written_bad f (o : outcome text) l : (match o with Ok _ => False | _ => True end) -> forall i, (forall j x, znth l j = Some x -> f (i + j) x = o) -> l <> [] -> written f i l = o.
Proof.
  intros Ho i H Hl. destruct l as [|x l]; [congruence|]. cbn [written]. rewrite <- (Z.add_0_r i) at 1. rewrite (H 0 x eq_refl). destruct o; [contradiction|reflexivity..].
Qed.
Lemma wrote_fields (shown : A -> text) (cell : Z -> text -> text -> Prop) (g : Z -> A -> text) n l : l <> [] -> forall j0, n = j0 + zlen l ->
  (forall j x, znth l j = Some x -> cell (j0 + j) (shown x) (g (j0 + j) x)) ->
  fields cell j0 (map shown l) (wrote (fun j x => g j x ++ if j =? n - 1 then [] else [sp; sp]) j0 l).
Proof.
  intros Hl. destruct l as [|x l]; [congruence|]. clear Hl. revert x. induction l as [|y l IH]; intros x j0 En H.
  - cbn [map wrote]. cbn in En. rewrite Pos2Z.inj_1 in En || idtac. replace (j0 =? n - 1) with true by lia. rewrite !app_nil_r. constructor. specialize (H 0 x eq_refl). now rewrite !Z.add_0_r in H.
  - cbn [map wrote]. rewrite !zlen_cons in En. pose proof (zlen_nonneg l). replace (j0 =? n - 1) with false by lia. rewrite <- app_assoc. apply fields_more.
    + specialize (H 0 x eq_refl). now rewrite !Z.add_0_r in H.
    + apply (IH y (j0 + 1)); [rewrite zlen_cons; lia|]. intros j z Hz. replace (j0 + 1 + j) with (j0 + (1 + j)) by lia. apply H. pose proof (znth_lt _ _ _ Hz). rewrite znth_cons_pos by lia. replace (1 + j - 1) with j by lia. exact Hz.
Qed.
Lemma wrote_lines (g : Z -> A -> text) l : forall i, wrote (fun i x => g i x ++ [nl]) i l = unlines (map (fun ix => g (fst ix) (snd ix)) (combine (zseq i (length l)) l)).
Proof. induction l as [|x l IH]; intros i; [reflexivity|]. cbn [wrote length zseq combine map fst snd]. unfold unlines. cbn [map concat]. now rewrite IH. Qed.
Lemma zlen_indexed (g : Z -> A -> text) l i : zlen (map (fun ix => g (fst ix) (snd ix)) (combine (zseq i (length l)) l)) = zlen l.
Proof. rewrite zlen_map. unfold zlen. rewrite combine_length, zseq_length. lia. Qed.
Lemma znth_indexed (g : Z -> A -> text) l : forall i j x, znth l j = Some x -> znth (map (fun ix => g (fst ix) (snd ix)) (combine (zseq i (length l)) l)) j = Some (g (i + j) x).
Proof.
  induction l as [|y l IH]; intros i j x H; [now rewrite znth_nil in H|]. pose proof (znth_lt _ _ _ H) as B. cbn [length zseq combine map fst snd]. destruct (Z.eq_dec j 0) as [->|].
  - rewrite znth_cons_0 in *. injection H as ->. now rewrite Z.add_0_r.
  - rewrite znth_cons_pos in H by lia. rewrite znth_cons_pos by lia. rewrite (IH (i + 1) (j - 1) x H). do 2 f_equal. lia.
Qed.
End W.
Lemma wrote_ext {A} (g h : Z -> A -> text) l : forall i, (forall j x, znth l j = Some x -> g (i + j) x = h (i + j) x) -> wrote g i l = wrote h i l.
Proof.
  induction l as [|x l IH]; intros i H; [reflexivity|]. cbn [wrote]. rewrite (IH (i + 1)).
  - f_equal. specialize (H 0 x eq_refl). now rewrite Z.add_0_r in H.
  - intros j y Hy. replace (i + 1 + j) with (i + (1 + j)) by lia. apply H. pose proof (znth_lt _ _ _ Hy). rewrite znth_cons_pos by lia. replace (1 + j - 1) with j by lia. exact Hy.
Qed.
Lemma znth_Forall {A} (P : A -> Prop) (l : list A) i x : Forall P l -> znth l i = Some x -> P x.
Proof. intros H Hx. rewrite Forall_forall in H. apply H. now apply znth_in in Hx. Qed.

Lemma titled_heading name s : titled name s (heading name ++ s).
Proof.
  unfold titled, heading. destruct name as [|a name]; [reflexivity|]. unfold unlines. cbn [map concat]. rewrite app_nil_r, <- !app_assoc. reflexivity.
Qed.
(** The blanks after the labels of n rows. *)
Definition label_blanks lg (n D : Z) : Prop :=
  forall i, 0 <= i < n -> exists k, smart_spaces lg n i = Ok (repeat sp k) /\ (1 <= k)%nat /\ zlen (udec i) + Z.of_nat k = D.

Section T.
Context (lg : flt F64 -> flt F64) {V : Type} (shown : V -> text).
Lemma Forall2_indexed {A B} (P : A -> B -> Prop) (la : list A) : forall (lb : list B), zlen la = zlen lb ->
  (forall i a b, znth la i = Some a -> znth lb i = Some b -> P a b) -> Forall2 P la lb.
Proof.
  induction la as [|a la IH]; intros [|b lb] E H; rewrite ?zlen_cons in E.
  - constructor.
  - change (zlen (@nil A)) with 0 in E. pose proof (zlen_nonneg lb). lia.
  - change (zlen (@nil B)) with 0 in E. pose proof (zlen_nonneg la). lia.
  - constructor; [now apply (H 0)|]. apply IH; [lia|]. intros i x y Hx Hy. pose proof (znth_lt _ _ _ Hx). apply (H (i + 1)); rewrite znth_cons_pos by lia; now replace (i + 1 - 1) with i by lia.
Qed.
Theorem two_plain wo name cols M W : 0 < cols -> Forall (fun r => zlen r = cols) M ->
  Forall (Forall (fun x => Z.max (match wo with Some k => Z.max 0 k | None => 0 end) (zlen (shown x)) = W)) M ->
  exists s s', print_two lg shown (Ok wo) false name cols M = Ok s' /\ titled name s s' /\ table W (map (map shown) M) s.
Proof.
  intros Hc HR HW. set (w := match wo with Some k => Z.to_nat k | None => O end). set (g := fun (j : Z) (x : V) => pad w (shown x)).
  set (h := fun (i : Z) (r : list V) => wrote (fun j x => g j x ++ if j =? cols - 1 then [] else [sp; sp]) 0 r).
  exists (wrote (fun i r => h i r ++ [nl]) 0 M). eexists. split; [|split; [apply titled_heading|]].
  - unfold print_two. rewrite (written_ok _ (fun i r => h i r ++ [nl])); [reflexivity|]. intros i r _.
    rewrite (written_ok _ (fun j x => g j x ++ if j =? cols - 1 then [] else [sp; sp])); [reflexivity|]. intros j x _. cbn [bind app]. reflexivity.
  - rewrite wrote_lines. eexists. split; [reflexivity|]. apply Forall2_indexed; [now rewrite zlen_indexed, zlen_map|].
    intros i ts l Ht Hl. rewrite znth_map in Ht. destruct (znth M i) as [r|] eqn:Er; [|discriminate]. injection Ht as <-.
    rewrite (znth_indexed h M 0 i r Er) in Hl. injection Hl as <-. unfold h. pose proof (znth_Forall _ _ _ _ HR Er) as Hr. cbn in Hr.
    apply wrote_fields; [intros ->; cbn in Hr; lia|lia|]. intros j x Hx. unfold g. pose proof (znth_Forall _ _ _ _ (znth_Forall _ _ _ _ HW Er) Hx) as Hx'. cbn in Hx'.
    pose proof (pad_field w (shown x)) as P. replace (Z.max (Z.of_nat w) (zlen (shown x))) with W in P; [exact P|]. unfold w. destruct wo; lia.
Qed.
Theorem two_labelled wo name cols M W D : 0 < cols -> Forall (fun r => zlen r = cols) M -> M <> [] ->
  Forall (Forall (fun x => Z.max (match wo with Some k => Z.max 0 k | None => 0 end) (zlen (shown x)) = W)) M -> label_blanks lg (zlen M) D ->
  exists s s', print_two lg shown (Ok wo) true name cols M = Ok s' /\ titled name s s' /\ labelled_table W (fun j => 6 + zlen (udec j) + D + W) (map (map shown) M) s.
Proof.
  intros Hc HR HN HW HD. set (w := match wo with Some k => Z.to_nat k | None => O end).
  set (blanks := fun i => repeat sp (Z.to_nat (D - zlen (udec i)))).
  set (g := fun (i j : Z) (x : V) => ("["%char :: udec i ++ [","; " "]%char ++ udec j ++ ["]"; " "; "="]%char ++ blanks i) ++ pad w (shown x)).
  set (h := fun (i : Z) (r : list V) => wrote (fun j x => g i j x ++ if j =? cols - 1 then [] else [sp; sp]) 0 r).
  exists (wrote (fun i r => h i r ++ [nl]) 0 M). eexists. split; [|split; [apply titled_heading|]].
  - unfold print_two. rewrite (written_ok _ (fun i r => h i r ++ [nl])).
    + replace (zlen (concat M) =? 0) with false; [reflexivity|]. destruct M as [|r M]; [congruence|]. inversion HR; subst. cbn [concat]. rewrite zlen_app. pose proof (zlen_nonneg (concat M)). lia.
    + intros i r Hr. pose proof (znth_lt _ _ _ Hr) as Bi. destruct (HD i Bi) as (k & Ek & Hk & HkD).
      rewrite (written_ok _ (fun j x => g i j x ++ if j =? cols - 1 then [] else [sp; sp])); [reflexivity|]. intros j x _. replace (0 + i) with i by lia. rewrite Ek. cbn [bind]. unfold g, blanks.
      replace (Z.to_nat (D - zlen (udec i))) with k by lia. f_equal. rewrite <- !app_assoc. reflexivity.
  - rewrite wrote_lines. eexists. split; [reflexivity|]. split; [now rewrite zlen_indexed, zlen_map|]. intros i ts l Ht Hl. rewrite znth_map in Ht. destruct (znth M i) as [r|] eqn:Er; [|discriminate]. injection Ht as <-.
    rewrite (znth_indexed h M 0 i r Er) in Hl. injection Hl as <-. unfold h. pose proof (znth_Forall _ _ _ _ HR Er) as Hr. cbn in Hr. pose proof (znth_lt _ _ _ Er) as Bi. destruct (HD i Bi) as (k & Ek & Hk & HkD).
    apply (wrote_fields shown); [intros ->; cbn in Hr; lia|lia|]. intros j x Hx. replace (0 + i) with i by lia. replace (0 + j) with j by lia. pose proof (znth_lt _ _ _ Hx) as Bj.
    exists (udec i), (udec j), k, (pad w (shown x)). split; [|split; [|split; [|split; [exact Hk|split]]]].
    + unfold g, blanks. replace (Z.to_nat (D - zlen (udec i))) with k by lia. do 4 (cbn [app]; rewrite <- ?app_assoc). reflexivity.
    + apply udec_plain. lia.
    + apply udec_plain. lia.
    + pose proof (znth_Forall _ _ _ _ (znth_Forall _ _ _ _ HW Er) Hx) as Hx'. cbn in Hx'. pose proof (pad_field w (shown x)) as P. replace (Z.max (Z.of_nat w) (zlen (shown x))) with W in P; [exact P|]. unfold w. destruct wo; lia.
    + pose proof (znth_Forall _ _ _ _ (znth_Forall _ _ _ _ HW Er) Hx) as Hx'. cbn in Hx'. unfold g, blanks, pad. rewrite !zlen_app, !zlen_cons, !zlen_app, !zlen_cons, !zlen_repeat. change (zlen (@nil ascii)) with 0. unfold w in *. unfold zlen in *. destruct wo; lia.
Qed.
(** Labelled columns in one dimension. *)
Theorem one_labelled name l D : l <> [] -> label_blanks lg (zlen l) D ->
  exists s s', print_one lg shown false true name l = Ok s' /\ titled name s s' /\ labelled_column (4 + D) (map shown l) s.
Proof.
  intros HN HD. set (blanks := fun i => repeat sp (Z.to_nat (D - zlen (udec i)))).
  set (g := fun (i : Z) (x : V) => ("["%char :: udec i ++ ["]"; " "; "="]%char ++ blanks i) ++ shown x).
  exists (wrote (fun i x => g i x ++ [nl]) 0 l). eexists. split; [|split; [apply titled_heading|]].
  - unfold print_one. rewrite (written_ok _ (fun i x => g i x ++ [nl])).
    + replace (zlen l =? 0) with false by (destruct l; [congruence|rewrite zlen_cons; pose proof (zlen_nonneg l); lia]). cbn [bind]. unfold brackets. cbn [andb]. cbn [app]. now rewrite app_nil_r.
    + intros i x Hx. pose proof (znth_lt _ _ _ Hx) as Bi. destruct (HD i Bi) as (k & Ek & Hk & HkD). replace (0 + i) with i by lia. rewrite Ek. cbn [bind]. unfold g, blanks. replace (Z.to_nat (D - zlen (udec i))) with k by lia.
      do 4 (cbn [app]; rewrite <- ?app_assoc). reflexivity.
  - rewrite wrote_lines. eexists. split; [reflexivity|]. split; [now rewrite zlen_indexed, zlen_map|]. intros i t s Ht Hs. rewrite znth_map in Ht. destruct (znth l i) as [x|] eqn:Ex; [|discriminate]. injection Ht as <-.
    rewrite (znth_indexed g l 0 i x Ex) in Hs. injection Hs as <-. pose proof (znth_lt _ _ _ Ex) as Bi. destruct (HD i Bi) as (k & Ek & Hk & HkD). replace (0 + i) with i by lia.
    exists (udec i), k. split; [|split; [apply udec_plain; lia|split; [exact Hk|]]].
    + unfold g, blanks. now replace (Z.to_nat (D - zlen (udec i))) with k by lia.
    + unfold g, blanks. rewrite !zlen_app, !zlen_cons, !zlen_app, !zlen_cons, !zlen_repeat. change (zlen (@nil ascii)) with 0. lia.
Qed.
End T.
