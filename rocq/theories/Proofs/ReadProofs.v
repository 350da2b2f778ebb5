(** Reading an arbitrary text. *)
From Coq Require Import Ascii Reals Lra.
From Flocq Require Import Core BinarySingleNaN.
From Verif Require Import Base.Outcome Base.ZList Model.IntModel Model.Index Model.Array1D Model.Array2D Model.ArrayIO Model.FloatIO.
From Verif Require Import Spec.ArraySpec Spec.IOSpec Spec.FloatSpec Spec.FloatIOSpec Spec.ReadSpec Proofs.IOProofs Proofs.IOText Proofs.FloatIOProofs Proofs.FloatIOText.
From Coq Require Import ZifyBool ZifyNat.
Local Open Scope Z_scope.

(** ** Automata that cut a text into tokens *)
Section G.
Context {St V : Type} (start : ascii -> option St) (next : St -> ascii -> option St) (conv : St -> option V).
Fixpoint gx (o : option St) (s : text) : list V * bool :=
  match s with
  | [] => match o with None => ([], true) | Some st => match conv st with Some v => ([v], true) | None => ([], true) end end
  | a :: s' =>
    match o with
    | None => if is_ws a then gx None s' else match start a with Some st => gx (Some st) s' | None => ([], false) end
    | Some st => match next st a with
                 | Some st' => gx (Some st') s'
                 | None => match conv st with
                           | Some v => let r := if is_ws a then gx None s' else match start a with Some st => gx (Some st) s' | None => ([], false) end in (v :: fst r, snd r)
                           | None => ([], false)
                           end
                 end
    end
  end.
Fixpoint go (st : St) (s : text) : option St := match s with [] => Some st | a :: s' => match next st a with Some st' => go st' s' | None => None end end.
Definition after (s : text) (st : St) : Prop := match s with [] => False | a :: s' => exists st0, start a = Some st0 /\ go st0 s' = Some st end.
Lemma go_app s1 : forall st s2, go st (s1 ++ s2) = match go st s1 with Some st' => go st' s2 | None => None end.
Proof. induction s1 as [|a s1 IH]; intros st s2; [reflexivity|]. cbn. destruct (next st a); [apply IH|reflexivity]. Qed.
Lemma after_fun s st1 st2 : after s st1 -> after s st2 -> st1 = st2.
Proof. destruct s; [contradiction|]. intros (a1 & E1 & G1) (a2 & E2 & G2). congruence. Qed.
Lemma after_snoc s st a st' : after s st -> next st a = Some st' -> after (s ++ [a]) st'.
Proof. destruct s as [|b s]; [contradiction|]. intros (st0 & E & G) H. cbn. exists st0. split; [exact E|]. rewrite go_app, G. cbn. now rewrite H. Qed.
Lemma after_app s st t : after s st -> forall st', go st t = Some st' -> after (s ++ t) st'.
Proof. destruct s as [|b s]; [contradiction|]. intros (st0 & E & G) st' H. cbn. exists st0. split; [exact E|]. now rewrite go_app, G. Qed.
Lemma after_prefix s t st : s <> [] -> after (s ++ t) st -> exists st', after s st'.
Proof.
  destruct s as [|a s]; [congruence|]. intros _ (st0 & E & G). rewrite go_app in G. destruct (go st0 s) as [st'|] eqn:E2; [|discriminate]. exists st', st0. now split.
Qed.

Context (number_text : text -> Prop) (value : text -> V -> Prop).
Context (H2 : forall t st, after t st -> viable number_text t) (H3 : forall t, number_text t -> exists st, after t st)
  (H4 : forall t st v, after t st -> (conv st = Some v <-> value t v)) (H5 : forall t v, value t v -> number_text t) (H6 : exists t, number_text t)
  (H7 : forall a, In a spaces -> start a = None).
Lemma viable_after t : t <> [] -> viable number_text t -> exists st, after t st.
Proof using H3. intros Hn (w & H). destruct (H3 _ H) as (st & A). now apply (after_prefix t w st). Qed.
Lemma stop_here t st a : after t st -> next st a = None -> ~ viable number_text (t ++ [a]).
Proof using H3.
  intros A N H. destruct (viable_after (t ++ [a])) as (st' & A'); [now destruct t|exact H|]. destruct t as [|b t]; [contradiction|].
  destruct A as (s0 & E & G), A' as (s0' & E' & G'). rewrite E in E'. injection E' as <-. rewrite go_app, G in G'. cbn in G'. now rewrite N in G'.
Qed.
Lemma gx_token s : forall st, exists t u st', s = t ++ u /\ go st t = Some st' /\ (match u with [] => True | a :: _ => next st' a = None end) /\
  gx (Some st) s = match conv st' with Some v => (v :: fst (gx None u), snd (gx None u)) | None => ([], match u with [] => true | _ => false end) end.
Proof using.
  induction s as [|a s IH]; intros st.
  - exists [], [], st. do 3 (split; [auto; reflexivity|]). cbn. destruct (conv st); reflexivity.
  - destruct (next st a) as [st1|] eqn:N.
    + destruct (IH st1) as (t & u & st' & -> & G & U & E). exists (a :: t), u, st'. split; [reflexivity|]. split; [cbn; now rewrite N|]. split; [exact U|]. cbn [gx app]. now rewrite N.
    + exists [], (a :: s), st. split; [reflexivity|]. split; [reflexivity|]. split; [exact N|]. cbn [gx]. rewrite N. destruct (conv st); reflexivity.
Qed.
Lemma gx_gap g u : gap g -> gx None (g ++ u) = gx None u.
Proof using. intros H. induction H as [|a g Ha H IH]; [reflexivity|]. cbn. now rewrite (proj1 (space_facts a Ha)). Qed.
Lemma split_gap s : exists g s', s = g ++ s' /\ gap g /\ match s' with [] => True | a :: _ => ~ In a spaces end.
Proof using.
  induction s as [|a s (g & s' & -> & G & F)]; [exists [], []; repeat split; constructor|].
  destruct (is_ws a) eqn:W.
  - exists (a :: g), s'. split; [reflexivity|]. split; [|exact F]. constructor; [now apply ws_spaces|exact G].
  - exists [], (a :: g ++ s'). split; [reflexivity|]. split; [constructor|]. intros H. apply space_facts in H as [H _]. congruence.
Qed.
Lemma gx_reads n : forall s, (length s <= n)%nat -> reads number_text value s (fst (gx None s)) (snd (gx None s)).
Proof using H2 H3 H4 H5 H6 H7.
  induction n as [|n IH]; intros s Hl.
  - destruct s; [|cbn in Hl; lia]. apply reads_end. constructor.
  - destruct (split_gap s) as (g & s' & -> & G & F). rewrite gx_gap by exact G. destruct s' as [|a s']; [rewrite app_nil_r; now apply reads_end|].
    assert (W : is_ws a = false) by (destruct (is_ws a) eqn:W; [apply ws_spaces in W; contradiction|reflexivity]). cbn [gx]. rewrite W.
    destruct (start a) as [st|] eqn:S0.
    + destruct (gx_token s' st) as (t & u & st' & -> & Gt & U & ->).
      assert (A : after (a :: t) st') by (exists st; now split).
      assert (L : longest number_text (a :: t) u).
      { split; [now apply (H2 _ st')|]. destruct u as [|b u]; [exact I|]. now apply (stop_here _ st'). }
      destruct (conv st') as [v|] eqn:C.
      * apply (reads_value number_text value g (a :: t) u v); auto; [now apply (H4 _ st')|]. apply IH. rewrite !app_length in Hl. cbn in Hl. rewrite app_length in Hl. lia.
      * apply (reads_stop number_text value g (a :: t) u); auto. intros v Hv. apply (H4 _ st' v A) in Hv. congruence.
    + apply (reads_stop number_text value g [] (a :: s')); auto.
      * split; [exact H6|]. intros Hv. destruct (viable_after [a]) as (st & st0 & E & _); [discriminate|exact Hv|]. congruence.
      * intros v Hv. destruct (H3 _ (H5 _ _ Hv)) as (st & []).
Qed.
Lemma longest_unique t1 : forall t2 u1 u2 p, t1 ++ u1 = t2 ++ u2 -> longest number_text (p ++ t1) u1 -> longest number_text (p ++ t2) u2 -> t1 = t2.
Proof using.
  assert (PR : forall a b, viable number_text (a ++ b) -> viable number_text a) by (intros a b (w & H); exists (b ++ w); now rewrite app_assoc).
  induction t1 as [|a t1 IH]; intros t2 u1 u2 p E (V1 & L1) (V2 & L2).
  - destruct t2 as [|b t2]; [reflexivity|]. cbn in E. subst u1. exfalso. apply L1. rewrite app_nil_r. apply (PR _ t2). now rewrite <- app_assoc.
  - destruct t2 as [|b t2].
    + cbn in E. subst u2. exfalso. apply L2. rewrite app_nil_r. apply (PR _ t1). now rewrite <- app_assoc.
    + injection E as <- E. f_equal. apply (IH t2 u1 u2 (p ++ [a])); [exact E|split..]; rewrite <- app_assoc; auto.
Qed.
Lemma gap_unique g1 : forall g2 s1 s2, gap g1 -> gap g2 -> (match s1 with [] => False | a :: _ => ~ In a spaces end) -> (match s2 with [] => False | a :: _ => ~ In a spaces end) ->
  g1 ++ s1 = g2 ++ s2 -> g1 = g2 /\ s1 = s2.
Proof using.
  induction g1 as [|a g1 IH]; intros [|b g2] s1 s2 G1 G2 N1 N2 E; cbn in E.
  - now split.
  - subst s1. inversion G2; contradiction.
  - subst s2. inversion G1; contradiction.
  - injection E as <- E. inversion G1; inversion G2; subst. destruct (IH g2 s1 s2); auto. now subst.
Qed.
Lemma gap_only g1 g2 s : gap g1 -> g1 = g2 ++ s -> (match s with [] => False | a :: _ => ~ In a spaces end) -> False.
Proof using. intros H -> N. apply Forall_app in H as [_ H]. destruct s; [contradiction|]. inversion H; contradiction. Qed.
Lemma value_starts t v u : value t v -> match t ++ u with [] => False | a :: _ => ~ In a spaces end.
Proof using H3 H5 H7. intros H. destruct (H3 _ (H5 _ _ H)) as (st & A). destruct t as [|a t]; [contradiction|]. destruct A as (s0 & E & _). cbn. intros Hs. rewrite (H7 a Hs) in E. discriminate. Qed.
Lemma reads_fun s vs e : reads number_text value s vs e -> forall vs' e', reads number_text value s vs' e' -> vs = vs' /\ e = e'.
Proof using H3 H4 H5 H7.
  assert (VF : forall t v v', value t v -> value t v' -> v = v').
  { intros t v v' A B. destruct (H3 _ (H5 _ _ A)) as (st & Hs). apply (H4 _ st _ Hs) in A, B. congruence. }
  induction 1 as [g Hg|g t u v vs e Hg HL Hv HR IH|g t u Hg HL Hv Hn]; intros vs' e' R; inversion R as [g' Hg'|g' t' u' v' vs1 e1 Hg' HL' Hv' HR'|g' t' u' Hg' HL' Hv' Hn']; subst.
  - now split.
  - exfalso. eapply gap_only; [exact Hg|first [reflexivity|symmetry; eassumption]|]. eapply value_starts; eassumption.
  - exfalso. eapply gap_only; [exact Hg|first [reflexivity|symmetry; eassumption]|assumption].
  - exfalso. eapply gap_only; [exact Hg'|reflexivity|]. eapply value_starts; eassumption.
  - destruct (gap_unique g' g (t' ++ u') (t ++ u)) as [-> E]; auto; [eapply value_starts; eassumption..|].
    assert (t' = t) by (apply (longest_unique t' t u' u []); assumption). subst t'. apply app_inv_head in E. subst u'.
    destruct (IH _ _ HR') as [-> ->]. now rewrite (VF t v v').
  - destruct (gap_unique g' g (t' ++ u') (t ++ u)) as [-> E]; auto; [eapply value_starts; eassumption|].
    assert (t' = t) by (apply (longest_unique t' t u' u []); assumption). subst t'. exfalso. exact (Hv' v Hv).
  - exfalso. eapply gap_only; [exact Hg'|reflexivity|assumption].
  - destruct (gap_unique g' g (t' ++ u') (t ++ u)) as [-> E]; auto; [eapply value_starts; eassumption|].
    assert (t' = t) by (apply (longest_unique t' t u' u []); assumption). subst t'. exfalso. exact (Hv v' Hv').
  - destruct (gap_unique g' g (t' ++ u') (t ++ u)) as [-> E]; auto.
    assert (t' = t) by (apply (longest_unique t' t u' u []); assumption). subst t'. apply app_inv_head in E. subst u'. now split.
Qed.
Theorem gx_exact s vs e : gx None s = (vs, e) <-> reads number_text value s vs e.
Proof using H2 H3 H4 H5 H6 H7.
  pose proof (gx_reads (length s) s (le_n _)) as R. split.
  - intros E. rewrite E in R. exact R.
  - intros R'. destruct (reads_fun _ _ _ R _ _ R') as [E1 E2]. destruct (gx None s). cbn in *. congruence.
Qed.
End G.

(** ** Characters *)
Lemma digit_char a d : digit_of a = Some d -> a = numeral d /\ 0 <= d < 10.
Proof. all_ascii a; vm_compute; intros H; try discriminate; injection H as <-; split; try reflexivity; split; congruence. Qed.
Lemma digit_no_ws a d : digit_of a = Some d -> is_ws a = false.
Proof. intros H. destruct (is_ws a) eqn:W; [|reflexivity]. apply ws_spaces, space_facts in W as [_ W]. congruence. Qed.
Lemma number_snoc ds d : number (ds ++ [d]) = 10 * number ds + d.
Proof. unfold number. now rewrite fold_left_app. Qed.
Lemma map_snoc {A B} (f : A -> B) l x : map f (l ++ [x]) = map f l ++ [f x].
Proof. now rewrite map_app. Qed.

(** ** Integers and booleans *)
Definition istart (a : ascii) : option scan :=
  match digit_of a with Some d => Some (Digits false d) | None => if Ascii.eqb a "-" then Some (Sign true) else if Ascii.eqb a "+" then Some (Sign false) else None end.
Definition inext (st : scan) (a : ascii) : option scan :=
  match st, digit_of a with Sign neg, Some d => Some (Digits neg d) | Digits neg n, Some d => Some (Digits neg (10 * n + d)) | _, _ => None end.
Definition iinv (t : text) (st : scan) : Prop :=
  match st with
  | Skip => False
  | Sign neg => sign t neg /\ t <> []
  | Digits neg n => exists sg ds, t = sg ++ map numeral ds /\ sign sg neg /\ ds <> [] /\ Forall (fun d => 0 <= d < 10) ds /\ n = number ds
  end.
Lemma istart_inv a st : istart a = Some st -> iinv [a] st.
Proof.
  unfold istart. destruct (digit_of a) as [d|] eqn:E.
  - intros H. injection H as <-. destruct (digit_char a d E) as [-> B]. exists [], [d]. repeat split; [left; auto|discriminate|auto].
  - destruct (Ascii.eqb_spec a "-") as [->|]; [intros H; injection H as <-; split; [right; right; auto|discriminate]|].
    destruct (Ascii.eqb_spec a "+") as [->|]; [intros H; injection H as <-; split; [right; left; auto|discriminate]|discriminate].
Qed.
Lemma inext_inv t st a st' : iinv t st -> inext st a = Some st' -> iinv (t ++ [a]) st'.
Proof.
  intros H N. unfold inext in N. destruct st as [|neg|neg n]; [contradiction|..]; destruct (digit_of a) as [d|] eqn:E; try discriminate; injection N as <-; destruct (digit_char a d E) as [-> B].
  - exists t, [d]. repeat split; [apply H|discriminate|auto].
  - destruct H as (sg & ds & -> & Hs & Hn & Hd & ->). exists sg, (ds ++ [d]). rewrite map_snoc, number_snoc, <- app_assoc. repeat split; auto; [now destruct ds|]. apply Forall_app. auto.
Qed.
Lemma igo_inv s : forall t st st', iinv t st -> go inext st s = Some st' -> iinv (t ++ s) st'.
Proof.
  induction s as [|a s IH]; intros t st st' H G; cbn in G; [injection G as <-; now rewrite app_nil_r|]. destruct (inext st a) as [st1|] eqn:N; [|discriminate].
  replace (t ++ a :: s) with ((t ++ [a]) ++ s) by (now rewrite <- app_assoc). apply (IH _ st1); [now apply (inext_inv t st)|exact G].
Qed.
Lemma iafter_inv t st : after istart inext t st -> iinv t st.
Proof. destruct t as [|a t]; [contradiction|]. intros (s0 & E & G). apply (igo_inv t [a] s0 st); [now apply istart_inv|exact G]. Qed.
Lemma signed_integer sg neg ds : sign sg neg -> ds <> [] -> Forall (fun d => 0 <= d < 10) ds -> integer (sg ++ map numeral ds) (if neg then - number ds else number ds).
Proof.
  intros Hs Hn Hd. destruct Hs as [[-> ->]|[[-> ->]|[-> ->]]]; unfold integer, digits; cbn [app]; [left|right; left|right; right]; eauto 8.
  exists (map numeral ds). split; [reflexivity|]. exists ds. rewrite Z.opp_involutive. auto.
Qed.
Lemma ihead t st : after istart inext t st -> viable integer_text t.
Proof.
  intros H. apply iafter_inv in H. destruct st as [|neg|neg n]; [contradiction|..].
  - destruct H as [H _]. exists (map numeral [0]). eexists. apply (signed_integer t neg [0]); [exact H|discriminate|repeat constructor; lia].
  - destruct H as (sg & ds & -> & Hs & Hn & Hd & _). exists []. rewrite app_nil_r. eexists. now apply (signed_integer sg neg).
Qed.
Lemma igo_digits ds : Forall (fun d => 0 <= d < 10) ds -> forall neg n, go inext (Digits neg n) (map numeral ds) = Some (Digits neg (fold_left (fun v d => 10 * v + d) ds n)).
Proof. induction 1 as [|d ds Hd H IH]; intros neg n; [reflexivity|]. cbn [map go inext fold_left]. rewrite (proj1 (digit_numeral d Hd)). apply IH. Qed.
Lemma iscan s z : integer s z -> exists neg n, after istart inext s (Digits neg n) /\ z = (if neg then - n else n) /\ 0 <= n.
Proof.
  assert (D : forall u n, digits u n -> (forall neg, go inext (Sign neg) u = Some (Digits neg n)) /\ after istart inext u (Digits false n) /\ 0 <= n).
  { intros u n (ds & Hn & Hd & -> & ->). split; [|split; [|now apply number_nonneg]]; destruct ds as [|d ds]; try congruence; inversion Hd; subst.
    - intros neg. cbn [map go inext]. rewrite (proj1 (digit_numeral d ltac:(assumption))). rewrite igo_digits by assumption. unfold number. cbn [fold_left]. do 3 f_equal. 
    - exists (Digits false d). split; [unfold istart; now rewrite (proj1 (digit_numeral d ltac:(assumption)))|]. rewrite igo_digits by assumption. reflexivity. }
  intros [H|[(u & -> & H)|(u & -> & H)]]; destruct (D _ _ H) as (D1 & D2 & D3).
  - exists false, z. auto.
  - exists false, z. split; [|auto]. exists (Sign false). split; [reflexivity|apply D1].
  - exists true, (- z). split; [|lia]. exists (Sign true). split; [reflexivity|apply D1].
Qed.
Section I.
Context {V : Type} (to : bool -> Z -> option V).
Definition iconv (st : scan) : option V := match st with Digits neg n => to neg n | _ => None end.
Context (value : text -> V -> Prop) (HV : forall s z (neg : bool) n v, integer s z -> z = (if neg then - n else n) -> 0 <= n -> (to neg n = Some v <-> value s v))
  (HT : forall s v, value s v -> integer_text s).
Theorem integers_exact s vs e : gx istart inext iconv None s = (vs, e) <-> reads integer_text value s vs e.
Proof.
  apply gx_exact.
  - apply ihead.
  - intros t (z & H). destruct (iscan t z H) as (neg & n & A & _). eauto.
  - intros t st v A. pose proof (iafter_inv t st A) as I. destruct st as [|neg|neg n]; [contradiction|..]; cbn [iconv].
    + split; [discriminate|]. intros Hv. destruct (HT _ _ Hv) as (z & Hz). destruct (iscan t z Hz) as (neg' & n & A' & _). exfalso.
      assert (Sign neg = Digits neg' n) by (eapply after_fun; eassumption). discriminate.
    + destruct I as (sg & ds & -> & Hs & Hn & Hd & ->). apply (HV _ (if neg then - number ds else number ds)); [now apply signed_integer|reflexivity|now apply number_nonneg].
  - apply HT.
  - exists (map numeral [0]), 0. left. exists [0]. repeat split; [discriminate|repeat constructor; lia].
  - intros a H. unfold istart. destruct (space_facts a H) as [_ ->]. cbn in H. intuition (subst; reflexivity).
Qed.
End I.
Lemma extract_gx t s : forall st, extract t st s = gx istart inext (iconv (to_int t)) (match st with Skip => None | _ => Some st end) s.
Proof.
  induction s as [|a s IH]; intros st; cbn [extract gx].
  - destruct st; reflexivity.
  - unfold istart, inext. destruct st as [|neg|neg n]; destruct (digit_of a) as [d|] eqn:E; rewrite ?IH, ?(digit_no_ws a d E); try reflexivity.
    + destruct (is_ws a); [reflexivity|]. destruct (Ascii.eqb a "-"); [reflexivity|]. destruct (Ascii.eqb a "+"); reflexivity.
    + cbn [iconv]. destruct (to_int t neg n); [|reflexivity]. destruct (is_ws a); [reflexivity|]. destruct (Ascii.eqb a "-"); [reflexivity|]. destruct (Ascii.eqb a "+"); reflexivity.
Qed.
Lemma bextract_gx s : forall st, bextract st s = gx istart inext (iconv to_bool) (match st with Skip => None | _ => Some st end) s.
Proof.
  induction s as [|a s IH]; intros st; cbn [bextract gx].
  - destruct st; reflexivity.
  - unfold istart, inext. destruct st as [|neg|neg n]; destruct (digit_of a) as [d|] eqn:E; rewrite ?IH, ?(digit_no_ws a d E); try reflexivity.
    + destruct (is_ws a); [reflexivity|]. destruct (Ascii.eqb a "-"); [reflexivity|]. destruct (Ascii.eqb a "+"); reflexivity.
    + cbn [iconv]. destruct (to_bool neg n); [|reflexivity]. destruct (is_ws a); [reflexivity|]. destruct (Ascii.eqb a "-"); [reflexivity|]. destruct (Ascii.eqb a "+"); reflexivity.
Qed.
Lemma integer_fun s z z' : integer s z -> integer s z' -> z = z'.
Proof.
  intros H H'. destruct (iscan s z H) as (neg & n & A & -> & _), (iscan s z' H') as (neg' & n' & A' & -> & _).
  assert (E : Digits neg n = Digits neg' n') by (eapply after_fun; eassumption). now injection E as -> ->.
Qed.
Lemma wrap_unsigned t z : signed t = false -> wrap t z = z mod 2 ^ bits t.
Proof.
  intros H. unfold wrap. pose proof (Z.mod_pos_bound z (2 ^ bits t)) as B. destruct t; try discriminate; cbn [tmax tmod bits signed] in *;
    unfold tmod in *; cbn [bits] in *; (destruct (_ <=? _) eqn:E; [reflexivity|]); exfalso; lia.
Qed.
Theorem extract_exact t s vs e : extract t Skip s = (vs, e) <-> reads integer_text (integer_value t) s vs e.
Proof.
  rewrite extract_gx. apply integers_exact.
  - intros w z neg n v Hi Hz Hn. unfold to_int, integer_value. rewrite <- Hz. split.
    + intros H. exists z. split; [exact Hi|]. destruct (signed t) eqn:S.
      * destruct ((tmin t <=? z) && (z <=? tmax t)) eqn:B; [|discriminate]. injection H as <-. unfold in_type. lia.
      * destruct (n <=? tmax t) eqn:B; [|discriminate]. injection H as <-. split; [destruct neg; lia|]. now apply wrap_unsigned.
    + intros (z' & Hi' & H). rewrite (integer_fun w z' z Hi' Hi) in *. clear z' Hi'. destruct (signed t) eqn:S.
      * destruct H as [[B1 B2] ->]. now replace ((tmin t <=? z) && (z <=? tmax t)) with true by lia.
      * destruct H as [B ->]. replace (n <=? tmax t) with true by (destruct neg; lia). now rewrite wrap_unsigned.
  - intros w v (z & H & _). now exists z.
Qed.
Theorem bextract_exact s vs e : bextract Skip s = (vs, e) <-> reads integer_text bool_value s vs e.
Proof.
  rewrite bextract_gx. apply integers_exact.
  - intros w z neg n v Hi Hz Hn. unfold to_bool, bool_value. split.
    + intros H. destruct (Z.eqb_spec n 0) as [->|]; [injection H as <-; replace 0 with z by (destruct neg; lia); exact Hi|].
      destruct ((n =? 1) && negb neg) eqn:B; [|discriminate]. injection H as <-. replace 1 with z by (destruct neg; lia). exact Hi.
    + intros H. pose proof (integer_fun w _ z H Hi) as E. destruct v, neg; subst z; 
      destruct (Z.eqb_spec n 0); try (exfalso; lia); try reflexivity. replace (n =? 1) with true by lia. reflexivity.
  - intros w v H. eexists. exact H.
Qed.

(** ** Floating-point numbers *)
Section F.
Context (prec emax : Z) {Hp : Prec_gt_0 prec} {He : Prec_lt_emax prec emax}.
Notation flt := (binary_float prec emax).
Notation fextract := (fextract prec emax).
Notation fconv := (fconv prec emax).
Definition fstart (a : ascii) : option fscan := if is_ws a then None else fbegin a.
Lemma fextract_gx s : forall st, fextract st s = gx fstart fnext fconv (match st with FSkip => None | _ => Some st end) s.
Proof.
  induction s as [|a s IH]; intros st; cbn [FloatIO.fextract gx].
  - destruct st; reflexivity.
  - assert (B : forall st0, fbegin a = Some st0 -> (is_ws a = true /\ st0 = FSkip) \/ (is_ws a = false /\ st0 <> FSkip)).
    { unfold fbegin. intros st0. destruct (is_ws a); [intros H; injection H as <-; auto|]. destruct (digit_of a), (sign_of a); try (intros H; injection H as <-; right; split; [reflexivity|discriminate]).
      destruct (Ascii.eqb a "."); [|discriminate]. intros H; injection H as <-; right; split; [reflexivity|discriminate]. }
    assert (K : match fbegin a with Some st' => fextract st' s | None => ([], false) end =
      (if is_ws a then gx fstart fnext fconv None s else match fstart a with Some st0 => gx fstart fnext fconv (Some st0) s | None => ([], false) end)).
    { unfold fstart. destruct (fbegin a) as [st0|] eqn:E.
      - rewrite IH. destruct (B st0 eq_refl) as [[-> ->]|[-> N]]; [reflexivity|]. destruct st0; [congruence|reflexivity..].
      - destruct (is_ws a) eqn:W; [|reflexivity]. unfold fbegin in E. rewrite W in E. discriminate. }
    destruct st as [|neg any D k dot|neg D k|neg D k es|neg D k es X]; [exact K|..];
      (destruct (fnext _ a) as [st1|] eqn:N;
       [rewrite IH; destruct st1; try reflexivity; exfalso; cbn [fnext] in N; destruct (digit_of a); try discriminate; destruct (sign_of a); try discriminate;
        destruct (Ascii.eqb a "." && negb dot); try discriminate; destruct (is_e a && any); discriminate|]);
      destruct (fconv _); try reflexivity; rewrite <- K; destruct (fbegin a); reflexivity.
Qed.

(** What has been read in a state. *)
Definition part (u : text) (any : bool) (D k : Z) (dot : bool) : Prop :=
  exists ds fs, Forall (fun d => 0 <= d < 10) (ds ++ fs) /\ any = nonempty (ds ++ fs) /\ D = number (ds ++ fs) /\ k = zlen fs /\
    u = map numeral ds ++ (if dot then "."%char :: map numeral fs else []) /\ (dot = false -> fs = []).
Definition finv (t : text) (st : fscan) : Prop :=
  match st with
  | FSkip => False
  | FNum neg any D k dot => exists sg u, t = sg ++ u /\ sign sg neg /\ part u any D k dot
  | FE neg D k => exists sg u a, t = sg ++ u ++ [a] /\ sign sg neg /\ mantissa u D k /\ In a ["e"; "E"]%char
  | FES neg D k es => exists sg u a es', t = sg ++ u ++ a :: es' /\ sign sg neg /\ mantissa u D k /\ In a ["e"; "E"]%char /\ sign es' es /\ es' <> []
  | FX neg D k es X => exists sg u a es' ds, t = sg ++ u ++ a :: es' ++ map numeral ds /\ sign sg neg /\ mantissa u D k /\ In a ["e"; "E"]%char /\ sign es' es /\
      ds <> [] /\ Forall (fun d => 0 <= d < 10) ds /\ X = number ds
  end.
Lemma sign_char_of a neg : sign_of a = Some neg -> sign [a] neg.
Proof.
  unfold sign_of. destruct (Ascii.eqb_spec a "-") as [->|]; [intros H; injection H as <-; right; right; auto|].
  destruct (Ascii.eqb_spec a "+") as [->|]; [intros H; injection H as <-; right; left; auto|discriminate].
Qed.
Lemma is_e_char a : is_e a = true -> In a ["e"; "E"]%char.
Proof. unfold is_e. destruct (Ascii.eqb_spec a "e") as [->|]; [left; auto|]. destruct (Ascii.eqb_spec a "E") as [->|]; [right; left; auto|discriminate]. Qed.
Lemma part_mantissa u D k dot : part u true D k dot -> mantissa u D k.
Proof.
  intros (ds & fs & Hd & Ha & -> & -> & -> & Hf). destruct dot.
  - apply man_frac; [|exact Hd]. intros E. rewrite E in Ha. discriminate.
  - rewrite (Hf eq_refl) in *. rewrite !app_nil_r in *. apply man_int; [|exact Hd]. intros E. rewrite E in Ha. discriminate.
Qed.
Lemma part_digit u any D k dot d : 0 <= d < 10 -> part u any D k dot -> part (u ++ [numeral d]) true (10 * D + d) (if dot then k + 1 else k) dot.
Proof.
  intros B (ds & fs & Hd & Ha & -> & -> & -> & Hf). destruct dot.
  - exists ds, (fs ++ [d]). rewrite app_assoc. split; [apply Forall_app; auto|]. split; [now destruct (ds ++ fs)|]. rewrite number_snoc, zlen_app, map_snoc. split; [reflexivity|].
    split; [reflexivity|]. split; [now rewrite <- app_assoc|discriminate].
  - rewrite (Hf eq_refl) in *. rewrite !app_nil_r in *. exists (ds ++ [d]), []. rewrite !app_nil_r. split; [apply Forall_app; auto|]. split; [now destruct ds|].
    rewrite number_snoc, map_snoc. repeat split; auto.
Qed.
Lemma fstart_inv a st : fstart a = Some st -> finv [a] st.
Proof.
  unfold fstart, fbegin. destruct (is_ws a); [discriminate|]. destruct (digit_of a) as [d|] eqn:E.
  - intros H. injection H as <-. destruct (digit_char a d E) as [-> B]. exists [], [numeral d]. split; [reflexivity|]. split; [left; auto|]. exists [d], []. repeat split; auto. now repeat constructor.
  - destruct (sign_of a) as [neg|] eqn:Es.
    + intros H. injection H as <-. exists [a], []. split; [reflexivity|]. split; [now apply sign_char_of|]. exists [], []. repeat split; auto; constructor.
    + destruct (Ascii.eqb_spec a ".") as [->|]; [|discriminate]. intros H. injection H as <-. exists [], ["."%char]. split; [reflexivity|]. split; [left; auto|].
      exists [], []. repeat split; auto; constructor.
Qed.
Lemma fnext_inv t st a st' : finv t st -> fnext st a = Some st' -> finv (t ++ [a]) st'.
Proof.
  intros H N. destruct st as [|neg any D k dot|neg D k|neg D k es|neg D k es X]; cbn [fnext] in N; [discriminate|..].
  - destruct H as (sg & u & -> & Hs & P). destruct (digit_of a) as [d|] eqn:E.
    + injection N as <-. destruct (digit_char a d E) as [-> B]. exists sg, (u ++ [numeral d]). split; [now rewrite app_assoc|]. split; [exact Hs|]. now apply (part_digit u any).
    + destruct (Ascii.eqb a "." && negb dot) eqn:Ed.
      * injection N as <-. apply andb_prop in Ed as [Ed Hd]. apply Ascii.eqb_eq in Ed. subst a. destruct dot; [discriminate|].
        exists sg, (u ++ ["."%char]). split; [now rewrite app_assoc|]. split; [exact Hs|]. destruct P as (ds & fs & H1 & H2 & H3 & H4 & H5 & H6).
        exists ds, fs. repeat split; auto. rewrite H5, (H6 eq_refl), app_nil_r. reflexivity.
      * destruct (is_e a && any) eqn:Ee; [|discriminate]. apply andb_prop in Ee as [Ee ->]. injection N as <-.
        exists sg, u, a. split; [now rewrite app_assoc|]. split; [exact Hs|]. split; [now apply (part_mantissa u D k dot)|now apply is_e_char].
  - destruct H as (sg & u & b & -> & Hs & M & Hb). destruct (digit_of a) as [d|] eqn:E.
    + injection N as <-. destruct (digit_char a d E) as [-> B]. exists sg, u, b, [], [d]. rewrite <- !app_assoc. repeat split; auto; [left; auto|discriminate].
    + destruct (sign_of a) as [es|] eqn:Es; [|discriminate]. injection N as <-. exists sg, u, b, [a]. rewrite <- !app_assoc. repeat split; auto; [now apply sign_char_of|discriminate].
  - destruct H as (sg & u & b & es' & -> & Hs & M & Hb & Hes & Hn). destruct (digit_of a) as [d|] eqn:E; [|discriminate]. injection N as <-. destruct (digit_char a d E) as [-> B].
    exists sg, u, b, es', [d]. rewrite <- !app_assoc. repeat split; auto. discriminate.
  - destruct H as (sg & u & b & es' & ds & -> & Hs & M & Hb & Hes & Hn & Hd & ->). destruct (digit_of a) as [d|] eqn:E; [|discriminate]. injection N as <-. destruct (digit_char a d E) as [-> B].
    exists sg, u, b, es', (ds ++ [d]). rewrite map_snoc, number_snoc. repeat split; auto; [rewrite <- !app_assoc; cbn [app]; now rewrite <- !app_assoc|now destruct ds|]. apply Forall_app. auto.
Qed.
Lemma fgo_inv s : forall t st st', finv t st -> go fnext st s = Some st' -> finv (t ++ s) st'.
Proof.
  induction s as [|a s IH]; intros t st st' H G; cbn in G; [injection G as <-; now rewrite app_nil_r|]. destruct (fnext st a) as [st1|] eqn:N; [|discriminate].
  replace (t ++ a :: s) with ((t ++ [a]) ++ s) by (now rewrite <- app_assoc). apply (IH _ st1); [now apply (fnext_inv t st)|exact G].
Qed.
Lemma fafter_inv t st : after fstart fnext t st -> finv t st.
Proof. destruct t as [|a t]; [contradiction|]. intros (s0 & E & G). apply (fgo_inv t [a] s0 st); [now apply fstart_inv|exact G]. Qed.
Lemma fhead t st : after fstart fnext t st -> viable real_text t.
Proof.
  intros H. apply fafter_inv in H. assert (Z0 : Forall (fun d => 0 <= d < 10) [0]) by (repeat constructor; lia). destruct st as [|neg any D k dot|neg D k|neg D k es|neg D k es X]; [contradiction|..].
  - destruct H as (sg & u & -> & Hs & P). exists [numeral 0]. apply (part_digit u any D k dot 0 ltac:(lia)), part_mantissa in P. rewrite <- app_assoc.
    do 3 eexists. exists sg, (u ++ [numeral 0]), []. do 2 eexists. rewrite app_nil_r. repeat split; [exact Hs|exact P|constructor].
  - destruct H as (sg & u & a & -> & Hs & M & Ha). exists (map numeral [0]). do 3 eexists. exists sg, u, (a :: map numeral [0]), k, 0. rewrite <- !app_assoc. repeat split; [exact Hs|exact M|].
    apply exp_some; [exact Ha|]. left. exists [0]. repeat split; [discriminate|exact Z0].
  - destruct H as (sg & u & a & es' & -> & Hs & M & Ha & Hes & _). exists (map numeral [0]). do 3 eexists. exists sg, u, (a :: es' ++ map numeral [0]), k. eexists. rewrite <- !app_assoc. repeat split; [exact Hs|exact M|].
    apply exp_some; [exact Ha|]. apply (signed_integer es' es [0] Hes); [discriminate|exact Z0].
  - destruct H as (sg & u & a & es' & ds & -> & Hs & M & Ha & Hes & Hn & Hd & _). exists []. rewrite app_nil_r. do 3 eexists. exists sg, u, (a :: es' ++ map numeral ds), k. eexists. repeat split; [exact Hs|exact M|].
    apply exp_some; [exact Ha|]. now apply (signed_integer es' es ds Hes).
Qed.
(** A state that has a value. *)
Lemma fconv_text t st v : after fstart fnext t st -> fconv st = Some v -> exists neg D E, decimal_text t neg D E /\ dec_float prec emax neg D E = Some v.
Proof.
  intros A C. apply fafter_inv in A. destruct st as [|neg any D k dot|neg D k|neg D k es|neg D k es X]; cbn [FloatIO.fconv] in C; try discriminate.
  - destruct any; [|discriminate]. destruct A as (sg & u & -> & Hs & P). exists neg, D, (- k). split; [|exact C]. exists sg, u, [], k, 0. rewrite app_nil_r. repeat split; auto; [now apply (part_mantissa u D k dot)|constructor].
  - destruct A as (sg & u & a & es' & ds & -> & Hs & M & Ha & Hes & Hn & Hd & ->). do 3 eexists. split; [|exact C].
    exists sg, u, (a :: es' ++ map numeral ds), k, (if es then - number ds else number ds). repeat split; auto. apply exp_some; [exact Ha|]. now apply signed_integer.
Qed.
Lemma fgo_digits ds : Forall (fun d => 0 <= d < 10) ds -> forall neg any D k dot, go fnext (FNum neg any D k dot) (map numeral ds) =
  Some (FNum neg (any || nonempty ds) (fold_left (fun v d => 10 * v + d) ds D) (if dot then k + zlen ds else k) dot).
Proof.
  induction 1 as [|d ds Hd H IH]; intros neg any D k dot.
  - cbn [map go nonempty fold_left]. rewrite orb_false_r. change (zlen (@nil Z)) with 0. rewrite Z.add_0_r. now destruct dot.
  - cbn [map go fnext fold_left]. rewrite (proj1 (digit_numeral d Hd)), IH. rewrite orb_true_r, zlen_cons. cbn [orb nonempty]. do 2 f_equal. destruct dot; lia.
Qed.
Lemma xgo_digits ds : Forall (fun d => 0 <= d < 10) ds -> forall neg D k es X, go fnext (FX neg D k es X) (map numeral ds) = Some (FX neg D k es (fold_left (fun v d => 10 * v + d) ds X)).
Proof. induction 1 as [|d ds Hd H IH]; intros neg D k es X; [reflexivity|]. cbn [map go fnext fold_left]. rewrite (proj1 (digit_numeral d Hd)). apply IH. Qed.
Lemma xgo_start s n : digits s n -> forall neg D k es, go fnext (FES neg D k es) s = Some (FX neg D k es n) /\ go fnext (FE neg D k) s = Some (FX neg D k false n).
Proof.
  intros (ds & Hne & Hd & -> & ->) neg D k es. destruct ds as [|d ds]; [congruence|]. inversion Hd; subst. cbn [map go fnext]. rewrite (proj1 (digit_numeral d ltac:(assumption))).
  rewrite !xgo_digits by assumption. split; reflexivity.
Qed.
Lemma mgo s D k : mantissa s D k -> exists dot, (forall neg, go fnext (FNum neg false 0 0 false) s = Some (FNum neg true D k dot)) /\ after fstart fnext s (FNum false true D k dot).
Proof.
  intros [ds Hne Hd|ds fs Hne Hd].
  - exists false. split.
    + intros neg. rewrite fgo_digits by exact Hd. destruct ds; [congruence|reflexivity].
    + destruct ds as [|d ds]; [congruence|]. inversion Hd; subst. exists (FNum false true d 0 false). pose proof (proj1 (digit_numeral d ltac:(assumption))) as E.
      split; [unfold fstart, fbegin; now rewrite (digit_no_ws _ _ E), E|]. rewrite fgo_digits by assumption. reflexivity.
  - pose proof (proj1 (Forall_app _ _ _) Hd) as [Hd1 Hd2]. assert (NE : nonempty ds || nonempty fs = true) by (destruct ds, fs; cbn in *; congruence).
    exists true. split.
    + intros neg. rewrite go_app, fgo_digits by exact Hd1. cbn [go fnext]. change (digit_of ".") with (@None Z). cbn [Ascii.eqb Bool.eqb andb negb]. rewrite fgo_digits by exact Hd2.
      cbn [orb]. rewrite NE. unfold number. rewrite fold_left_app. reflexivity.
    + destruct ds as [|d ds].
      * exists (FNum false false 0 0 true). split; [reflexivity|]. rewrite fgo_digits by exact Hd2. cbn [orb nonempty] in *. rewrite NE. reflexivity.
      * inversion Hd1; subst. exists (FNum false true d 0 false). pose proof (proj1 (digit_numeral d ltac:(assumption))) as E.
        split; [unfold fstart, fbegin; now rewrite (digit_no_ws _ _ E), E|]. rewrite go_app, fgo_digits by assumption. cbn [go fnext]. change (digit_of ".") with (@None Z). cbn [Ascii.eqb Bool.eqb andb negb].
        rewrite fgo_digits by exact Hd2. cbn [orb]. unfold number. cbn [app fold_left]. rewrite fold_left_app. reflexivity.
Qed.
Lemma fscan_text s neg D E : decimal_text s neg D E -> exists st, after fstart fnext s st /\ fconv st = dec_float prec emax neg D E.
Proof.
  intros (sg & m & w & k & X & -> & Hsg & Hm & Hw & ->). destruct (mgo m D k Hm) as (dot & R1 & R2).
  assert (A : after fstart fnext (sg ++ m) (FNum neg true D k dot)).
  { destruct Hsg as [[-> ->]|[[-> ->]|[-> ->]]]; [exact R2|exists (FNum false false 0 0 false)|exists (FNum true false 0 0 false)]; (split; [reflexivity|apply R1]). }
  rewrite app_assoc. destruct Hw as [|a e X Ha Hx].
  - rewrite app_nil_r. eexists. split; [exact A|]. reflexivity.
  - assert (A2 : after fstart fnext ((sg ++ m) ++ [a]) (FE neg D k)).
    { apply (after_snoc _ _ _ (FNum neg true D k dot)); [exact A|]. destruct Ha as [<-|[<-|[]]]; reflexivity. }
    replace ((sg ++ m) ++ a :: e) with (((sg ++ m) ++ [a]) ++ e) by (now rewrite <- app_assoc).
    destruct Hx as [Hx|[(v & -> & Hx)|(v & -> & Hx)]].
    + exists (FX neg D k false X). split; [|reflexivity]. apply (after_app _ _ _ (FE neg D k)); [exact A2|]. now apply (xgo_start e X).
    + exists (FX neg D k false X). split; [|reflexivity]. apply (after_app _ _ _ (FE neg D k)); [exact A2|]. cbn [go fnext]. now apply (xgo_start v X).
    + exists (FX neg D k true (- X)). split; [|cbn; now rewrite Z.opp_involutive]. apply (after_app _ _ _ (FE neg D k)); [exact A2|]. cbn [go fnext]. now apply (xgo_start v (- X)).
Qed.
Theorem fextract_exact s vs e : fextract FSkip s = (vs, e) <-> reads real_text (real_value prec emax) s vs e.
Proof.
  rewrite fextract_gx. apply gx_exact.
  - apply fhead.
  - intros t (neg & D & E & H). destruct (fscan_text t neg D E H) as (st & A & _). eauto.
  - intros t st v A. split.
    + intros C. destruct (fconv_text t st v A C) as (neg & D & E & HT & C'). exists neg, D, E. split; [exact HT|].
      destruct (dec_float_ok prec emax neg D E (decimal_nonneg prec emax _ _ _ _ HT)) as [(x & Ex & Nx & _)|(Ex & _)]; [|congruence]. rewrite C' in Ex. now injection Ex as <-.
    + intros (neg & D & E & HT & Nv). destruct (fscan_text t neg D E HT) as (st' & A' & C'). rewrite (after_fun fstart fnext t st st' A A'), C'.
      apply (dec_float_nearest prec emax); [now apply (decimal_nonneg prec emax _ _ _ _ HT)|exact Nv].
  - intros t v (neg & D & E & HT & _). now exists neg, D, E.
  - exists (map numeral [0]), false, 0, (0 - 0). exists [], (map numeral [0]), [], 0, 0. repeat split; [left; auto| |constructor]. apply (man_int [0]); [discriminate|repeat constructor; lia].
  - intros a H. unfold fstart. now rewrite (proj1 (space_facts a H)).
Qed.
End F.

(** ** Arrays *)
Lemma reads_total {V} (f : text -> list V * bool) nt value : (forall s vs e, f s = (vs, e) <-> reads nt value s vs e) ->
  forall s, exists vs e, reads nt value s vs e /\ forall vs' e', reads nt value s vs' e' -> vs' = vs /\ e' = e.
Proof.
  intros H s. exists (fst (f s)), (snd (f s)). split; [apply H; now destruct (f s)|]. intros vs' e' R. apply H in R. now rewrite R.
Qed.
Lemma read_array {V} (zero : V) c vs e A : 8 <= amax c < two62 -> 2 * zlen vs <= amax c ->
  if e || negb (loud c) then exists A', read1 zero c vs e A = MOk A' /\ rep A' vs else read1 zero c vs e A = MFail (report c) A.
Proof.
  intros Ha Hv. destruct (read1_cases zero c vs e A Ha) as [(A' & E & R & H)|[(E & -> & L)|(E & H)]].
  - destruct (e || negb (loud c)) eqn:B; [eauto|]. exfalso. destruct H as [->|H]; [discriminate|]. rewrite H in B. destruct e; discriminate.
  - rewrite L. cbn. exact E.
  - exfalso. lia.
Qed.
Lemma getlines_lines s : forall cur, ~ In nl cur -> lines_of (rev cur ++ s) (getlines cur s).
Proof.
  assert (ON : forall cur, ~ In nl cur -> one_line (rev cur)) by (intros cur H; unfold one_line; rewrite <- in_rev; exact H).
  induction s as [|a s IH]; intros cur Hc; cbn [getlines].
  - destruct cur as [|b cur]; [split; [constructor|left; reflexivity]|]. rewrite app_nil_r. split; [constructor; [apply ON; exact Hc|constructor]|]. right. exists [], (rev (b :: cur)).
    repeat split. intros E. apply (f_equal (@length _)) in E. rewrite rev_length in E. discriminate.
  - destruct (Ascii.eqb_spec a nl) as [->|N].
    + destruct (IH []) as (F & H); [intros []|]. split; [constructor; [apply ON; exact Hc|exact F]|]. cbn [rev app] in H.
      assert (U : forall L, unlines (rev cur :: L) = rev cur ++ nl :: unlines L) by (intros L; unfold unlines; cbn; now rewrite <- app_assoc).
      destruct H as [E|(Ls0 & l & -> & Hl & E)]; [left; rewrite U; congruence|right]. exists (rev cur :: Ls0), l. repeat split; auto. rewrite U, E. now rewrite <- app_assoc.
    + specialize (IH (a :: cur)). cbn [rev] in IH. rewrite <- app_assoc in IH. apply IH. intros [E|H]; auto.
Qed.
Lemma lines_read {V} (f : text -> list V * bool) nt value s : (forall s vs e, f s = (vs, e) <-> reads nt value s vs e) ->
  exists Ls, lines_of s Ls /\ getlines [] s = Ls /\
    Forall2 (line_reads nt value) Ls (map (fun w => mkline (match w with [] => true | _ => false end) (fst (f w)) (snd (f w))) Ls).
Proof.
  intros H. exists (getlines [] s). split; [apply (getlines_lines s []); intros []|]. split; [reflexivity|]. induction (getlines [] s) as [|w L IH]; constructor; [|exact IH].
  split; cbn; [apply H; now destruct (f w)|]. destruct w; split; congruence.
Qed.
