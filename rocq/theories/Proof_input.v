From Coq Require Import Lia Lra DecimalString DecimalNat Decimal DecimalFacts Reals.
From Verif Require Import PyBase Model_xr Model_input Spec_input Proof_base.
Open Scope string_scope.
Open Scope Z_scope.

(** * Strings *)
Lemma append_inj_l : forall p a b : string, p ++ a = p ++ b -> a = b.
Proof. induction p; simpl; intros a0 b H; [exact H|]. injection H as H. auto. Qed.
Lemma length_append : forall a b : string, String.length (a ++ b) = (String.length a + String.length b)%nat.
Proof. induction a; simpl; intros; [reflexivity|]. rewrite IHa. reflexivity. Qed.
Lemma append_inj_r : forall a b s : string, a ++ s = b ++ s -> a = b.
Proof.
  induction a; destruct b; simpl; intros s H; try reflexivity.
  - exfalso. pose proof (f_equal String.length H) as L. simpl in L. rewrite length_append in L. lia.
  - exfalso. pose proof (f_equal String.length H) as L. simpl in L. rewrite length_append in L. lia.
  - injection H as -> H. f_equal. exact (IHa _ _ H).
Qed.
Lemma string_of_nat_inj n m : string_of_nat n = string_of_nat m -> n = m.
Proof.
  unfold string_of_nat. intro H.
  assert (nn : forall k, Nat.to_uint k <> Nil).
  { intro k. rewrite <- (Unsigned.of_to k), Unsigned.to_of. apply unorm_nonnil. }
  apply (f_equal NilZero.uint_of_string) in H. rewrite !NilZero.usu in H by apply nn.
  injection H as H. exact (Unsigned.to_uint_inj _ _ H).
Qed.
Lemma prefixed_inj p n m s : prefixed p n s = prefixed p m s -> n = m.
Proof. unfold prefixed. intro H. apply append_inj_l, append_inj_r in H. exact (string_of_nat_inj _ _ H). Qed.

Lemma append_nil_r : forall s : string, s ++ "" = s.
Proof. induction s; simpl; congruence. Qed.

Lemma split_comma_nonnil s : split_comma s <> [].
Proof. destruct s as [|c s]; simpl; [discriminate|]. destruct (Ascii.eqb c ","); [discriminate|]. destruct (split_comma s); discriminate. Qed.

Lemma split_comma_spec s : comma_separated (split_comma s) s.
Proof.
  split; [apply split_comma_nonnil|].
  induction s as [|c s [IH1 IH2]]; simpl.
  - split; [repeat constructor|reflexivity].
  - destruct (Ascii.eqb c ",") eqn:E.
    + apply Ascii.eqb_eq in E as ->. split; [constructor; [exact I|exact IH1]|].
      pose proof (split_comma_nonnil s). destruct (split_comma s) as [|w ws]; [congruence|]. simpl in *. rewrite <- IH2. reflexivity.
    + apply Ascii.eqb_neq in E. pose proof (split_comma_nonnil s). destruct (split_comma s) as [|w ws]; [congruence|].
      inversion IH1; subst. split.
      * constructor; [simpl; split; assumption|assumption].
      * destruct ws; simpl in *; reflexivity.
Qed.

(** the words are determined by the text *)
Lemma split_word : forall w rest, comma_free w -> split_comma (w ++ String "," rest) = w :: split_comma rest.
Proof.
  induction w as [|c w IH]; intros rest H; simpl; [reflexivity|]. destruct H as [H1 H2].
  apply Ascii.eqb_neq in H1. rewrite H1, (IH rest H2). reflexivity.
Qed.
Lemma split_single : forall w, comma_free w -> split_comma w = [w].
Proof.
  induction w as [|c w IH]; intros H; simpl; [reflexivity|]. destruct H as [H1 H2].
  apply Ascii.eqb_neq in H1. rewrite H1, (IH H2). reflexivity.
Qed.
Lemma comma_separated_split words s : comma_separated words s -> words = split_comma s.
Proof.
  intros (H1 & H2 & <-). induction words as [|w ws IH]; [congruence|]. inversion H2; subst.
  destruct ws as [|w2 ws].
  - simpl. symmetry. apply split_single. assumption.
  - change (String.concat "," (w :: w2 :: ws)) with (w ++ String "," (String.concat "," (w2 :: ws))).
    rewrite split_word by assumption. f_equal. apply IH; [discriminate|assumption].
Qed.

(** * C39 *)
Lemma mapM_element_some {A} (f : string -> option A) : forall ws l,
  mapM (fun x => element (f x)) ws = Ok l <-> Forall2 (fun w x => f w = Some x) ws l.
Proof.
  induction ws as [|w ws IH]; intros l; simpl.
  - split; [intro H; injection H as <-; constructor|intro H; inversion H; reflexivity].
  - unfold element at 1. destruct (f w) as [a|] eqn:E; simpl.
    + split.
      * intro H. destruct (mapM _ ws) as [ys|e] eqn:E2; simpl in H; [|discriminate]. injection H as <-.
        constructor; [exact E|]. apply IH. reflexivity.
      * intro H. inversion H; subst. apply IH in H4. rewrite H4. simpl. congruence.
    + split; [discriminate|]. intro H. inversion H; subst. congruence.
Qed.

Lemma existsb_in s l : existsb (String.eqb s) l = true <-> In s l.
Proof.
  rewrite existsb_exists. split.
  - intros (x & Hx & E). apply String.eqb_eq in E. subst. exact Hx.
  - intro H. exists s. split; [exact H|apply String.eqb_refl].
Qed.

Lemma xpos_spec x : xpos x = true <-> positive_number x.
Proof. destruct x; simpl; try (split; [discriminate|tauto]); [|tauto]. unfold xpos, xltb. destruct (Rlt_dec 0 r); split; auto; discriminate || contradiction. Qed.
Lemma xnonneg_spec x : xnonneg x = true <-> nonnegative_number x.
Proof. destruct x; simpl; try (split; [discriminate|tauto]); [|tauto]. destruct (Rle_dec 0 r); split; auto; discriminate || contradiction. Qed.

Lemma check_spec c v : c <> AtMost3Dim -> (check c v = true <-> satisfies c v).
Proof.
  intro Hc. destruct c; destruct v; simpl; try (split; [discriminate|contradiction]); try congruence.
  - apply xpos_spec.
  - rewrite Z.gtb_lt. reflexivity.
  - rewrite forallb_forall, Forall_forall. split; intros H x Hx; apply xpos_spec, H, Hx.
  - rewrite forallb_forall, Forall_forall. split; intros H x Hx; specialize (H x Hx); [apply Z.gtb_lt in H|apply Z.gtb_lt]; exact H.
  - apply xnonneg_spec.
  - rewrite Z.geb_le. reflexivity.
  - apply existsb_in.
Qed.

Definition convert (cv : conv) (t : ktype) (text : string) : res oval :=
  match t with
  | KStr => Ok (VStr text)
  | KFloat => scalar (to_float cv text) VFloat
  | KInt => scalar (to_int cv text) VInt
  | KBool => scalar (to_bool text) VBool
  | KFloats => do l <- mapM (fun x => element (to_float cv x)) (split_comma text); Ok (VFloats l)
  | KInts => do l <- mapM (fun x => element (to_int cv x)) (split_comma text); Ok (VInts l)
  end.

Lemma convert_spec cv t text v : convert cv t text = Ok v <-> converts cv t text v.
Proof.
  destruct t; simpl.
  - split; [intro H; injection H as <-; constructor|intro H; inversion H; reflexivity].
  - unfold scalar. destruct (to_float cv text) eqn:E; split; intro H; inversion H; subst; try (constructor; assumption); congruence.
  - unfold scalar. destruct (to_int cv text) eqn:E; split; intro H; inversion H; subst; try (constructor; assumption); congruence.
  - unfold scalar, to_bool.
    assert (Hex : forall x, In x ["1"; "yes"; "true"; "on"] -> ~ In x ["0"; "no"; "false"; "off"]).
    { intros x Hx Hy. simpl in Hx, Hy. repeat (destruct Hx as [<-|Hx]; [repeat (destruct Hy as [Hy|Hy]; [discriminate|]); contradiction|]). contradiction. }
    destruct (existsb (String.eqb (lower text)) ["1"; "yes"; "true"; "on"]) eqn:E1.
    + apply existsb_in in E1. split; intro H; [injection H as <-; constructor; exact E1|].
      inversion H; subst; [reflexivity|]. exfalso. exact (Hex _ E1 H0).
    + destruct (existsb (String.eqb (lower text)) ["0"; "no"; "false"; "off"]) eqn:E2.
      * apply existsb_in in E2. split; intro H; [injection H as <-; constructor; exact E2|].
        inversion H; subst; [|reflexivity]. exfalso. exact (Hex _ H0 E2).
      * split; [discriminate|]. intro H. inversion H; subst; apply existsb_in in H0; congruence.
  - split; intro H.
    + destruct (mapM _ _) as [l|e] eqn:E in H; simpl in H; [|discriminate]. injection H as <-.
      apply (conv_floats _ (split_comma text)); [apply split_comma_spec|]. apply mapM_element_some. exact E.
    + inversion H; subst. rewrite (comma_separated_split _ _ H0) in H1. apply mapM_element_some in H1. rewrite H1. reflexivity.
  - split; intro H.
    + destruct (mapM _ _) as [l|e] eqn:E in H; simpl in H; [|discriminate]. injection H as <-.
      apply (conv_ints _ (split_comma text)); [apply split_comma_spec|]. apply mapM_element_some. exact E.
    + inversion H; subst. rewrite (comma_separated_split _ _ H0) in H1. apply mapM_element_some in H1. rewrite H1. reflexivity.
Qed.

Lemma parse_option_eq cv sec o : parse_option cv sec o =
  match sec_get sec (io_key o) with
  | None => if io_compulsory o then Err OptionError else Ok (io_default o)
  | Some text => do text <- text; do val <- convert cv (io_type o) text;
      match io_cond o with Some c => if check c val then Ok val else Err OptionError | None => Ok val end
  end.
Proof. reflexivity. Qed.

Lemma convert_scalar_err cv t text e : ~ list_type t -> convert cv t text = Err e -> e = OptionError.
Proof.
  destruct t; simpl; intros Hn H; try tauto; try discriminate; unfold scalar in H;
    match type of H with match ?x with _ => _ end = _ => destruct x; congruence end.
Qed.
Lemma mapM_element_err {A} (f : string -> option A) : forall ws e, mapM (fun x => element (f x)) ws = Err e -> e = ValueError.
Proof.
  induction ws as [|w ws IH]; intros e H; simpl in H; [discriminate|]. unfold element in H at 1.
  destruct (f w); simpl in H; [|congruence]. destruct (mapM _ ws) eqn:E; simpl in H; [discriminate|]. injection H as <-. exact (IH _ eq_refl).
Qed.
Lemma convert_list_err cv t text e : list_type t -> convert cv t text = Err e -> e = ValueError.
Proof.
  destruct t; simpl; intros Hn H; try tauto;
    (destruct (mapM _ _) eqn:E in H; simpl in H; [discriminate|]; injection H as <-; exact (mapM_element_err _ _ _ E)).
Qed.

Lemma option_contract cv sec o : io_cond o <> Some AtMost3Dim ->
  match sec_get sec (io_key o) with
  | None => parse_option cv sec o = if io_compulsory o then Err OptionError else Ok (io_default o)
  | Some (Err e) => parse_option cv sec o = Err e
  | Some (Ok text) =>
      (forall v, parse_option cv sec o = Ok v <-> converts cv (io_type o) text v /\ satisfies_opt (io_cond o) v) /\
      (forall v, converts cv (io_type o) text v -> ~ satisfies_opt (io_cond o) v -> parse_option cv sec o = Err OptionError) /\
      (~ list_type (io_type o) -> (forall v, ~ converts cv (io_type o) text v) -> parse_option cv sec o = Err OptionError) /\
      (list_type (io_type o) -> (forall v, ~ converts cv (io_type o) text v) -> parse_option cv sec o = Err ValueError)
  end.
Proof.
  intro Hc. rewrite parse_option_eq. destruct (sec_get sec (io_key o)) as [[text|e]|]; [|reflexivity|reflexivity].
  cbn [bind].
  assert (Hck : forall v c, io_cond o = Some c -> (check c v = true <-> satisfies c v)).
  { intros v c H. apply check_spec. congruence. }
  split; [|split; [|split]].
  - intro v. destruct (convert cv (io_type o) text) as [w|e] eqn:E; cbn [bind].
    + assert (Hw : converts cv (io_type o) text v <-> v = w).
      { rewrite <- convert_spec, E. split; congruence. }
      rewrite Hw. unfold satisfies_opt. destruct (io_cond o) as [c|].
      * specialize (Hck w c eq_refl). destruct (check c w) eqn:Ec.
        -- split; [intro H; injection H as <-; split; [reflexivity|apply Hck; reflexivity]|intros [-> _]; reflexivity].
        -- split; [discriminate|]. intros [-> Hs]. apply Hck in Hs. discriminate.
      * split; [intro H; injection H as <-; split; [reflexivity|exact I]|intros [-> _]; reflexivity].
    + split; [discriminate|]. intros [H _]. apply convert_spec in H. congruence.
  - intros v Hv Hn. apply convert_spec in Hv. rewrite Hv. cbn [bind]. unfold satisfies_opt in Hn.
    destruct (io_cond o) as [c|]; [|tauto]. specialize (Hck v c eq_refl). destruct (check c v); [|reflexivity].
    exfalso. apply Hn, Hck. reflexivity.
  - intros Hl Hn. destruct (convert cv (io_type o) text) as [w|e] eqn:E; cbn [bind].
    + exfalso. apply (Hn w). apply convert_spec. exact E.
    + rewrite (convert_scalar_err _ _ _ _ Hl E). reflexivity.
  - intros Hl Hn. destruct (convert cv (io_type o) text) as [w|e] eqn:E; cbn [bind].
    + exfalso. apply (Hn w). apply convert_spec. exact E.
    + rewrite (convert_list_err _ _ _ _ Hl E). reflexivity.
Qed.

(** * parse_section *)
Lemma assoc_dict_set_eq k v : forall d, assoc k (dict_set k v d) = Some v.
Proof.
  induction d as [|[k' v'] d IH]; simpl.
  - rewrite String.eqb_refl. reflexivity.
  - destruct (String.eqb k' k) eqn:E; simpl; rewrite E; [reflexivity|exact IH].
Qed.
Lemma assoc_dict_set_ne k k2 v : k2 <> k -> forall d, assoc k2 (dict_set k v d) = assoc k2 d.
Proof.
  intro H. induction d as [|[k' v'] d IH]; simpl.
  - replace (String.eqb k k2) with false; [reflexivity|]. symmetry. apply String.eqb_neq. congruence.
  - destruct (String.eqb k' k) eqn:E; simpl.
    + apply String.eqb_eq in E as ->. replace (String.eqb k k2) with false; [reflexivity|].
      symmetry. apply String.eqb_neq. congruence.
    + destruct (String.eqb k' k2); [reflexivity|exact IH].
Qed.
Lemma dict_set_new k v : forall d, ~ In k (map fst d) -> dict_set k v d = (d ++ [(k, v)])%list.
Proof.
  induction d as [|[k' v'] d IH]; simpl; intro H; [reflexivity|].
  destruct (String.eqb k' k) eqn:E; [apply String.eqb_eq in E; tauto|]. rewrite IH by tauto. reflexivity.
Qed.

Lemma parse_section_fold cv sec : forall opts d0, NoDup (map fst d0 ++ map io_key opts) ->
  match foldM (fun d o => do v <- parse_option cv sec o; Ok (dict_set (io_key o) v d)) opts d0 with
  | Ok d => exists vs, d = (d0 ++ combine (map io_key opts) vs)%list /\ Forall2 (fun o v => parse_option cv sec o = Ok v) opts vs
  | Err e => exists before o after, opts = (before ++ o :: after)%list /\ parse_option cv sec o = Err e /\
      Forall (fun o' => exists v, parse_option cv sec o' = Ok v) before
  end.
Proof.
  induction opts as [|o opts IH]; intros d0 Hnd; cbn [foldM].
  - exists []. split; [rewrite app_nil_r; reflexivity|constructor].
  - destruct (parse_option cv sec o) as [v|e] eqn:E; cbn [bind].
    + assert (Hnin : ~ In (io_key o) (map fst d0)).
      { simpl in Hnd. apply NoDup_remove in Hnd. destruct Hnd as [_ Hn]. intro H. apply Hn. apply in_or_app. left. exact H. }
      rewrite dict_set_new by exact Hnin.
      specialize (IH (d0 ++ [(io_key o, v)])%list).
      rewrite map_app in IH. simpl in IH. rewrite <- app_assoc in IH. specialize (IH Hnd).
      destruct (foldM _ opts _) as [d|e].
      * destruct IH as (vs & -> & F). exists (v :: vs). split; [rewrite <- app_assoc; reflexivity|constructor; assumption].
      * destruct IH as (b & o' & a & -> & E' & F). exists (o :: b), o', a. split; [reflexivity|]. split; [exact E'|].
        constructor; [eauto|exact F].
    + exists [], o, opts. split; [reflexivity|]. split; [exact E|constructor].
Qed.

Lemma section_contract cv sec opts : NoDup (map io_key opts) ->
  match parse_section cv sec opts with
  | Ok d => map fst d = map io_key opts /\
      forall o, In o opts -> exists v, parse_option cv sec o = Ok v /\ assoc (io_key o) d = Some v
  | Err e => exists before o after, opts = (before ++ o :: after)%list /\ parse_option cv sec o = Err e /\
      Forall (fun o' => exists v, parse_option cv sec o' = Ok v) before
  end.
Proof.
  intro Hnd. pose proof (parse_section_fold cv sec opts [] Hnd) as H. fold (parse_section cv sec opts) in H.
  destruct (parse_section cv sec opts) as [d|e]; [|exact H]. destruct H as (vs & -> & F). simpl. split.
  - clear Hnd. induction F; simpl; congruence.
  - intros o Ho. clear -Hnd F Ho. induction F as [|o' v opts vs Ev F IH]; [contradiction|].
    simpl in Hnd. inversion Hnd; subst. destruct Ho as [->|Ho].
    + exists v. split; [exact Ev|]. simpl. rewrite String.eqb_refl. reflexivity.
    + destruct (IH H2 Ho) as (w & Ew & Aw). exists w. split; [exact Ew|]. simpl.
      replace (String.eqb (io_key o') (io_key o)) with false; [exact Aw|].
      symmetry. apply String.eqb_neq. intro Heq. apply H1. rewrite Heq. apply in_map. exact Ho.
Qed.

Lemma section_entry cv sec o : forall opts d0 d,
  foldM (fun d o => do v <- parse_option cv sec o; Ok (dict_set (io_key o) v d)) opts d0 = Ok d ->
  (forall o', In o' opts -> io_key o' = io_key o -> o' = o) ->
  In o opts \/ (exists v, parse_option cv sec o = Ok v /\ assoc (io_key o) d0 = Some v) ->
  exists v, parse_option cv sec o = Ok v /\ assoc (io_key o) d = Some v.
Proof.
  induction opts as [|o1 opts IH]; intros d0 d H Hu Hin; cbn [foldM] in H.
  - injection H as <-. destruct Hin as [[]|Hin]. exact Hin.
  - destruct (parse_option cv sec o1) as [v1|e] eqn:E; cbn [bind] in H; [|discriminate].
    apply (IH _ _ H).
    + intros o' Ho'. apply Hu. right. exact Ho'.
    + destruct (String.eqb_spec (io_key o1) (io_key o)) as [Heq|Hne].
      * right. pose proof (Hu o1 (or_introl eq_refl) Heq) as ->. exists v1. split; [exact E|apply assoc_dict_set_eq].
      * destruct Hin as [[->|Hin]|(v & Ev & Av)]; [congruence|left; exact Hin|].
        right. exists v. split; [exact Ev|]. rewrite assoc_dict_set_ne by congruence. exact Av.
Qed.
Lemma section_in cv sec opts d o : parse_section cv sec opts = Ok d ->
  In o opts -> (forall o', In o' opts -> io_key o' = io_key o -> o' = o) ->
  exists v, parse_option cv sec o = Ok v /\ assoc (io_key o) d = Some v.
Proof. intros H Hin Hu. exact (section_entry cv sec o opts [] d H Hu (or_introl Hin)). Qed.

Lemma parse_ok cv sec o v : parse_option cv sec o = Ok v ->
  (v = io_default o /\ io_compulsory o = false) \/
  (exists text, converts cv (io_type o) text v /\ match io_cond o with Some c => check c v = true | None => True end).
Proof.
  rewrite parse_option_eq. destruct (sec_get sec (io_key o)) as [[text|e]|]; cbn [bind].
  - destruct (convert cv (io_type o) text) as [w|e] eqn:E; cbn [bind]; [|discriminate].
    intro H. right. exists text. apply convert_spec in E.
    destruct (io_cond o) as [c|]; [destruct (check c w) eqn:Ec; [|discriminate]|]; injection H as <-; auto.
  - discriminate.
  - destruct (io_compulsory o); [discriminate|]. intro H. injection H as <-. auto.
Qed.

(** reading one entry: [H : parse_section .. = Ok d] *)
Section entry.
Context (cv : conv) (sec : section) (opts : list input_option) (d : dict) (H : parse_section cv sec opts = Ok d).
Lemma en_pos_int k : In (optc k KInt true Positive) opts ->
  (forall o', In o' opts -> io_key o' = k -> o' = optc k KInt true Positive) -> positive_int d k.
Proof.
  intros Hin Hu. destruct (section_in _ _ _ _ _ H Hin Hu) as (v & Ev & Av). cbn in Av.
  destruct (parse_ok _ _ _ _ Ev) as [[_ Hf]|(t & Hc & Hk)]; [discriminate|]. cbn in Hc, Hk.
  inversion Hc; subst. exists z. split; [exact Av|]. cbn in Hk. apply Z.gtb_lt in Hk. exact Hk.
Qed.
Lemma en_pos_float k : In (optc k KFloat true Positive) opts ->
  (forall o', In o' opts -> io_key o' = k -> o' = optc k KFloat true Positive) -> positive_float d k.
Proof.
  intros Hin Hu. destruct (section_in _ _ _ _ _ H Hin Hu) as (v & Ev & Av). cbn in Av.
  destruct (parse_ok _ _ _ _ Ev) as [[_ Hf]|(t & Hc & Hk)]; [discriminate|]. cbn in Hc, Hk.
  inversion Hc; subst. exists x. split; [exact Av|]. apply xpos_spec. exact Hk.
Qed.
Lemma en_nonneg_float k : In (optc k KFloat true PositiveOrZero) opts ->
  (forall o', In o' opts -> io_key o' = k -> o' = optc k KFloat true PositiveOrZero) -> nonnegative_float d k.
Proof.
  intros Hin Hu. destruct (section_in _ _ _ _ _ H Hin Hu) as (v & Ev & Av). cbn in Av.
  destruct (parse_ok _ _ _ _ Ev) as [[_ Hf]|(t & Hc & Hk)]; [discriminate|]. cbn in Hc, Hk.
  inversion Hc; subst. exists x. split; [exact Av|]. apply xnonneg_spec. exact Hk.
Qed.
Lemma en_opt_int k : In (optc k KInt false Positive) opts ->
  (forall o', In o' opts -> io_key o' = k -> o' = optc k KInt false Positive) -> none_or_positive_int d k.
Proof.
  intros Hin Hu. destruct (section_in _ _ _ _ _ H Hin Hu) as (v & Ev & Av). cbn in Av.
  destruct (parse_ok _ _ _ _ Ev) as [[-> Hf]|(t & Hc & Hk)]; [left; exact Av|right]. cbn in Hc, Hk.
  inversion Hc; subst. exists z. split; [exact Av|]. cbn in Hk. apply Z.gtb_lt in Hk. exact Hk.
Qed.
Lemma en_opt_float k : In (optc k KFloat false Positive) opts ->
  (forall o', In o' opts -> io_key o' = k -> o' = optc k KFloat false Positive) -> none_or_positive_float d k.
Proof.
  intros Hin Hu. destruct (section_in _ _ _ _ _ H Hin Hu) as (v & Ev & Av). cbn in Av.
  destruct (parse_ok _ _ _ _ Ev) as [[-> Hf]|(t & Hc & Hk)]; [left; exact Av|right]. cbn in Hc, Hk.
  inversion Hc; subst. exists x. split; [exact Av|]. apply xpos_spec. exact Hk.
Qed.
Lemma en_default_float k r : (0 < r)%R -> In (mkOpt k KFloat false (Some Positive) (VFloat (Fin r))) opts ->
  (forall o', In o' opts -> io_key o' = k -> o' = mkOpt k KFloat false (Some Positive) (VFloat (Fin r))) -> positive_float d k.
Proof.
  intros Hr Hin Hu. destruct (section_in _ _ _ _ _ H Hin Hu) as (v & Ev & Av). cbn in Av.
  destruct (parse_ok _ _ _ _ Ev) as [[-> Hf]|(t & Hc & Hk)]; [exists (Fin r); split; [exact Av|exact Hr]|]. cbn in Hc, Hk.
  inversion Hc; subst. exists x. split; [exact Av|]. apply xpos_spec. exact Hk.
Qed.
Lemma f2_nonnil {A B} (P : A -> B -> Prop) l m : Forall2 P l m -> l <> [] -> m <> [].
Proof. intros F Hn ->. inversion F; subst. congruence. Qed.
Lemma en_pos_floats k : In (optc k KFloats true AllPositive) opts ->
  (forall o', In o' opts -> io_key o' = k -> o' = optc k KFloats true AllPositive) -> positive_floats d k.
Proof.
  intros Hin Hu. destruct (section_in _ _ _ _ _ H Hin Hu) as (v & Ev & Av). cbn in Av.
  destruct (parse_ok _ _ _ _ Ev) as [[_ Hf]|(t & Hc & Hk)]; [discriminate|]. cbn in Hc, Hk.
  inversion Hc as [| | | | |ws ? l Hs Hf|]; subst. exists l. split; [exact Av|]. split; [exact (f2_nonnil _ _ _ Hf (proj1 Hs))|].
  apply (check_spec AllPositive (VFloats l)); [discriminate|exact Hk].
Qed.
Lemma en_pos_ints k b : In (optc k KInts b AllPositive) opts ->
  (forall o', In o' opts -> io_key o' = k -> o' = optc k KInts b AllPositive) ->
  (b = false /\ assoc k d = Some VNone) \/ positive_ints d k.
Proof.
  intros Hin Hu. destruct (section_in _ _ _ _ _ H Hin Hu) as (v & Ev & Av). cbn in Av.
  destruct (parse_ok _ _ _ _ Ev) as [[-> Hf]|(t & Hc & Hk)]; [left; split; [exact Hf|exact Av]|right]. cbn in Hc, Hk.
  inversion Hc as [| | | | | |ws ? l Hs Hf]; subst. exists l. split; [exact Av|]. split; [exact (f2_nonnil _ _ _ Hf (proj1 Hs))|].
  apply (check_spec AllPositive (VInts l)); [discriminate|exact Hk].
Qed.
Lemma en_str k b : In (opt k KStr b) opts ->
  (forall o', In o' opts -> io_key o' = k -> o' = opt k KStr b) ->
  exists v, parse_option cv sec (opt k KStr b) = Ok v /\ assoc k d = Some v.
Proof. intros Hin Hu. exact (section_in _ _ _ _ _ H Hin Hu). Qed.
End entry.

Ltac in_list := simpl; repeat (first [left; reflexivity | right]).
Ltac uniq := let o := fresh "o" in let Ho := fresh "Ho" in let Hk := fresh "Hk" in
  intros o Ho Hk; simpl in Ho; repeat (destruct Ho as [<-|Ho]; [first [reflexivity|discriminate Hk]|]); contradiction.

Lemma parse_ld_usable cv sec d : parse_ld cv sec = Ok d ->
  positive_int d "n_steps" /\ nonnegative_float d "timestep" /\
  (assoc "type" d = Some (VStr "overdamped") \/
   assoc "type" d = Some (VStr "bussi-parinello") /\ positive_float d "kt" /\ nonnegative_float d "friction").
Proof.
  unfold parse_ld. destruct (parse_option cv sec type_option_ld) as [v|e] eqn:Et; cbn [bind]; [|discriminate].
  destruct v as [|s|x|z|b|l|l]; cbn [vstr_is bind]; try discriminate.
  destruct (String.eqb_spec s "bussi-parinello") as [->|Hn1].
  - cbn [bind]. intro H. split; [|split].
    + apply (en_pos_int _ _ _ _ H); [in_list|uniq].
    + apply (en_nonneg_float _ _ _ _ H); [in_list|uniq].
    + right. split; [|split].
      * destruct (en_str _ _ _ _ H "type" false) as (v & Ev & Av); [in_list|uniq|].
        change (opt "type" KStr false) with type_option_ld in Ev. congruence.
      * apply (en_pos_float _ _ _ _ H); [in_list|uniq].
      * apply (en_nonneg_float _ _ _ _ H); [in_list|uniq].
  - destruct (String.eqb_spec s "overdamped") as [->|Hn2]; cbn [bind]; [|discriminate]. intro H. split; [|split].
    + apply (en_pos_int _ _ _ _ H); [in_list|uniq].
    + apply (en_nonneg_float _ _ _ _ H); [in_list|uniq].
    + left. destruct (en_str _ _ _ _ H "type" false) as (v & Ev & Av); [in_list|uniq|].
      change (opt "type" KStr false) with type_option_ld in Ev. congruence.
Qed.

Lemma in_numbered {A} (f : nat -> A) n o : In o (map f (seq 0 n)) -> exists i, o = f i.
Proof. intro H. apply in_map_iff in H. destruct H as (i & <- & _). eauto. Qed.

Lemma parse_particles_usable cv sec d : parse_particles cv sec = Ok d -> positive_float d "mass" /\ positive_int d "number".
Proof.
  unfold parse_particles. destruct (parse_option cv sec init_dist_option) as [v|e]; cbn [bind]; [|discriminate].
  intro H.
  assert (exists pos_options fr, parse_section cv sec ([optc "number" KInt true Positive; mkOpt "mass" KFloat false (Some Positive) (VFloat (Fin 1));
      opt "seed" KInt false; init_dist_option] ++ pos_options ++ fr)%list = Ok d /\
      (forall o, In o pos_options -> exists i, io_key o = prefixed "pos" i "") /\ (forall o, In o fr -> io_key o = "fractions")).
  { destruct (vstr_is v "random-pos" || vstr_is v "fractions-pos")%bool.
    - destruct (numbered_in_section sec "pos" "") as [vs|e]; cbn [bind] in H; [|discriminate].
      eexists; eexists; split; [exact H|]. split.
      + intros o Ho. apply in_numbered in Ho. destruct Ho as (i & ->). eexists; reflexivity.
      + intros o Ho. destruct (vstr_is v "fractions-pos"); [destruct Ho as [<-|[]]; reflexivity|destruct Ho].
    - cbn [bind] in H. eexists; eexists; split; [exact H|]. split.
      + intros o [].
      + intros o Ho. destruct (vstr_is v "fractions-pos"); [destruct Ho as [<-|[]]; reflexivity|destruct Ho]. }
  destruct H0 as (po & fr & H1 & Hpo & Hfr). clear H.
  assert (Hu : forall k o0, (k = "number" \/ k = "mass") -> In o0 [optc "number" KInt true Positive; mkOpt "mass" KFloat false (Some Positive) (VFloat (Fin 1))] -> io_key o0 = k ->
     forall o', In o' ([optc "number" KInt true Positive; mkOpt "mass" KFloat false (Some Positive) (VFloat (Fin 1));
      opt "seed" KInt false; init_dist_option] ++ po ++ fr)%list -> io_key o' = k -> o' = o0).
  { intros k o0 Hk Ho0 E0 o' Ho' Ek. apply in_app_or in Ho'. destruct Ho' as [Ho'|Ho'].
    - simpl in Ho', Ho0. destruct Hk as [-> | ->];
      repeat (destruct Ho' as [<-|Ho']; [first [discriminate Ek | repeat (destruct Ho0 as [<-|Ho0]; [first [discriminate E0|reflexivity]|]); contradiction]|]); contradiction.
    - exfalso. apply in_app_or in Ho'. destruct Ho' as [Ho'|Ho'].
      + destruct (Hpo _ Ho') as (i & Ei). rewrite Ei in Ek. destruct Hk as [-> | ->]; discriminate Ek.
      + rewrite (Hfr _ Ho') in Ek. destruct Hk as [-> | ->]; discriminate Ek. }
  split.
  - apply (en_default_float _ _ _ _ H1 "mass" 1); [lra|in_list|].
    intros o' Ho' Ek. apply (Hu "mass"); auto. in_list.
  - apply (en_pos_int _ _ _ _ H1 "number"); [in_list|].
    intros o' Ho' Ek. apply (Hu "number"); auto. in_list.
Qed.

Lemma parse_bd_usable cv pot sec d : parse_birth_death cv pot sec = Ok d ->
  positive_int d "stride" /\ none_or_positive_int d "stats-stride" /\
  none_or_positive_float d "exponential-factor" /\
  (positive_float d "kernel-bandwidth" \/ positive_floats d "kernel-bandwidth").
Proof.
  unfold parse_birth_death. destruct (vint_is (get_dict pot "n_dim") 1); intro H; (split; [|split; [|split]]).
  - apply (en_pos_int _ _ _ _ H); [in_list|uniq].
  - apply (en_opt_int _ _ _ _ H); [in_list|uniq].
  - apply (en_opt_float _ _ _ _ H); [in_list|uniq].
  - left. apply (en_pos_float _ _ _ _ H); [in_list|uniq].
  - apply (en_pos_int _ _ _ _ H); [in_list|uniq].
  - apply (en_opt_int _ _ _ _ H); [in_list|uniq].
  - apply (en_opt_float _ _ _ _ H); [in_list|uniq].
  - right. apply (en_pos_floats _ _ _ _ H); [in_list|uniq].
Qed.

Lemma parse_traj_usable cv sec d : parse_trajectories cv sec = Ok d -> none_or_positive_int d "stride" /\ none_or_positive_int d "write-stride".
Proof. unfold parse_trajectories. intro H. split; apply (en_opt_int _ _ _ _ H); [in_list|uniq|in_list|uniq]. Qed.

Lemma parse_histo_usable cv pot sec d : parse_histogram cv pot sec = Ok d ->
  none_or_positive_int d "stride" /\ none_or_positive_int d "write-stride" /\
    (assoc "reset" d = Some VNone \/ positive_ints d "reset") /\ (positive_int d "bins" \/ positive_ints d "bins").
Proof.
  unfold parse_histogram. destruct (vint_is (get_dict pot "n_dim") 1); intro H; (split; [|split; [|split]]).
  - apply (en_opt_int _ _ _ _ H); [in_list|uniq].
  - apply (en_opt_int _ _ _ _ H); [in_list|uniq].
  - destruct (en_pos_ints _ _ _ _ H "reset" false) as [[_ E]|E]; [in_list|uniq|left; exact E|right; exact E].
  - left. apply (en_pos_int _ _ _ _ H); [in_list|uniq].
  - apply (en_opt_int _ _ _ _ H); [in_list|uniq].
  - apply (en_opt_int _ _ _ _ H); [in_list|uniq].
  - destruct (en_pos_ints _ _ _ _ H "reset" false) as [[_ E]|E]; [in_list|uniq|left; exact E|right; exact E].
  - right. destruct (en_pos_ints _ _ _ _ H "bins" true) as [[E _]|E]; [in_list|uniq|discriminate|exact E].
Qed.

Lemma parse_fes_usable cv h sec d : parse_fes cv h sec = Ok d ->
  none_or_positive_int d "stride" /\ none_or_positive_int d "write-stride" /\ positive_float d "kt".
Proof.
  unfold parse_fes. destruct (negb (truthy_dict h)); [discriminate|]. intro H. split; [|split].
  - apply (en_opt_int _ _ _ _ H); [in_list|uniq].
  - apply (en_opt_int _ _ _ _ H); [in_list|uniq].
  - apply (en_pos_float _ _ _ _ H); [in_list|uniq].
Qed.

Lemma states_options sec opts : numbered_state_options sec = Ok opts ->
  exists n, (0 < n)%nat /\ opts = flat_map (fun i => [opt (prefixed "state" (S i) "-min") KFloats true;
                                    opt (prefixed "state" (S i) "-max") KFloats true]) (seq 0 n).
Proof.
  unfold numbered_state_options.
  destruct (numbered_in_section sec "state" "-min") as [mins|]; cbn [bind]; [|discriminate].
  destruct (numbered_in_section sec "state" "-max") as [maxs|]; cbn [bind]; [|discriminate].
  destruct (negb (Nat.eqb (length mins) (length maxs))); [discriminate|].
  destruct (length mins) as [|n] eqn:E.
  - simpl. discriminate.
  - intro H. exists (S n). split; [lia|]. cbn [seq flat_map app] in *. injection H as <-. reflexivity.
Qed.

Lemma parse_out_usable cv sec d states : numbered_state_options sec = Ok states ->
  parse_section cv sec (output_options ++ states)%list = Ok d ->
  none_or_positive_int d "stride" /\ none_or_positive_int d "write-stride".
Proof.
  intros Hs H. apply states_options in Hs. destruct Hs as (n & _ & ->).
  assert (Hkey : forall o, In o (flat_map (fun i => [opt (prefixed "state" (S i) "-min") KFloats true;
                                    opt (prefixed "state" (S i) "-max") KFloats true]) (seq 0 n)) ->
             io_key o <> "stride" /\ io_key o <> "write-stride").
  { intros o Ho. apply in_flat_map in Ho. destruct Ho as (i & _ & [<-|[<-|[]]]); split; discriminate. }
  split; apply (en_opt_int _ _ _ _ H).
  - apply in_or_app. left. in_list.
  - intros o Ho Ek. apply in_app_or in Ho. destruct Ho as [Ho|Ho].
    + simpl in Ho. repeat (destruct Ho as [<-|Ho]; [first [reflexivity|discriminate Ek]|]). contradiction.
    + apply Hkey in Ho. tauto.
  - apply in_or_app. left. in_list.
  - intros o Ho Ek. apply in_app_or in Ho. destruct Ho as [Ho|Ho].
    + simpl in Ho. repeat (destruct Ho as [<-|Ho]; [first [reflexivity|discriminate Ek]|]). contradiction.
    + apply Hkey in Ho. tauto.
Qed.

Lemma optional_inv secs name parse d : optional_section secs name parse = Ok d ->
  d = None /\ assoc name secs = None \/ exists sec d', assoc name secs = Some sec /\ parse sec = Ok d' /\ d = Some d'.
Proof.
  unfold optional_section. destruct (assoc name secs) as [sec|]; [|intro H; injection H as <-; auto].
  destruct (parse sec) as [d'|e] eqn:E; cbn [bind]; [|discriminate]. intro H. injection H as <-. right. eauto.
Qed.

Lemma parse_all_inv cv secs c : parse_all cv secs = Ok c ->
  exists s_ld s_pot s_part, assoc "ld" secs = Some s_ld /\ assoc "potential" secs = Some s_pot /\ assoc "particles" secs = Some s_part /\
  parse_ld cv s_ld = Ok (c_ld c) /\ parse_potential cv s_pot = Ok (c_potential c) /\ parse_particles cv s_part = Ok (c_particles c) /\
  optional_section secs "birth-death" (parse_birth_death cv (c_potential c)) = Ok (c_birth_death c) /\
  optional_section secs "trajectories" (parse_trajectories cv) = Ok (c_trajectories c) /\
  optional_section secs "histogram" (parse_histogram cv (c_potential c)) = Ok (c_histogram c) /\
  optional_section secs "fes" (parse_fes cv (c_histogram c)) = Ok (c_fes c) /\
  optional_section secs "delta-f" (parse_delta_f cv (c_fes c)) = Ok (c_delta_f c) /\
  optional_section secs "particle-distribution" (parse_particle_distribution cv) = Ok (c_particle_distribution c).
Proof.
  unfold parse_all. destruct (negb _); [discriminate|].
  destruct (assoc "ld" secs) as [s1|]; [|discriminate]. destruct (assoc "potential" secs) as [s2|]; [|discriminate].
  destruct (assoc "particles" secs) as [s3|]; [|discriminate].
  destruct (parse_ld cv s1) as [ld|] eqn:E1; cbn [bind]; [|discriminate].
  destruct (parse_potential cv s2) as [pot|] eqn:E2; cbn [bind]; [|discriminate].
  destruct (parse_particles cv s3) as [part|] eqn:E3; cbn [bind]; [|discriminate].
  destruct (optional_section secs "birth-death" _) as [bd|] eqn:E4; cbn [bind]; [|discriminate].
  destruct (optional_section secs "trajectories" _) as [traj|] eqn:E5; cbn [bind]; [|discriminate].
  destruct (optional_section secs "histogram" _) as [histo|] eqn:E6; cbn [bind]; [|discriminate].
  destruct (optional_section secs "fes" _) as [fes|] eqn:E7; cbn [bind]; [|discriminate].
  destruct (optional_section secs "delta-f" _) as [df|] eqn:E8; cbn [bind]; [|discriminate].
  destruct (optional_section secs "particle-distribution" _) as [pd|] eqn:E9; cbn [bind]; [|discriminate].
  intro H. injection H as <-. exists s1, s2, s3.
  cbn [c_ld c_potential c_particles c_birth_death c_trajectories c_histogram c_fes c_delta_f c_particle_distribution].
  auto 20.
Qed.

Lemma on_section_inv secs name parse d (P : dict -> Prop) : optional_section secs name parse = Ok d ->
  (forall sec d', parse sec = Ok d' -> P d') -> on_section d P.
Proof. intros H HP. apply optional_inv in H. destruct H as [[-> _]|(sec & d' & _ & Hp & ->)]; simpl; [exact I|eauto]. Qed.

Lemma accepted_usable cv secs c : parse_all cv secs = Ok c -> usable c.
Proof.
  intro H. apply parse_all_inv in H.
  destruct H as (s1 & s2 & s3 & _ & _ & _ & E1 & E2 & E3 & E4 & E5 & E6 & E7 & E8 & E9).
  destruct (parse_ld_usable _ _ _ E1) as (A1 & A2 & A3). destruct (parse_particles_usable _ _ _ E3) as (B1 & B2).
  unfold usable. split; [exact A1|]. split; [exact A2|]. split; [exact A3|]. split; [exact B1|]. split; [exact B2|].
  split; [exact (on_section_inv _ _ _ _ _ E4 (parse_bd_usable cv _))|].
  split; [exact (on_section_inv _ _ _ _ _ E5 (parse_traj_usable cv))|].
  split; [exact (on_section_inv _ _ _ _ _ E6 (parse_histo_usable cv _))|].
  split; [exact (on_section_inv _ _ _ _ _ E7 (parse_fes_usable cv _))|].
  split.
  - apply (on_section_inv _ _ _ _ _ E8). intros sec d Hd. unfold parse_delta_f in Hd.
    destruct (negb _); [discriminate|]. destruct (numbered_state_options sec) as [st|] eqn:Es; cbn [bind] in Hd; [|discriminate].
    exact (parse_out_usable _ _ _ _ Es Hd).
  - apply (on_section_inv _ _ _ _ _ E9). intros sec d Hd. unfold parse_particle_distribution in Hd.
    destruct (numbered_state_options sec) as [st|] eqn:Es; cbn [bind] in Hd; [|discriminate].
    exact (parse_out_usable _ _ _ _ Es Hd).
Qed.

(** * C41 *)
Lemma at_most_3dim_exact z : check AtMost3Dim (VInt z) = (0 <? z).
Proof. cbn [check]. rewrite Z.land_0_l, Z.gtb_ltb. cbn. rewrite andb_true_r. reflexivity. Qed.

Lemma n_dim_accepts cv sec text z : sec_get sec "n_dim" = Some (Ok text) -> to_int cv text = Some z ->
  parse_option cv sec n_dim_option = if 0 <? z then Ok (VInt z) else Err OptionError.
Proof.
  intros H Hz. rewrite parse_option_eq. cbn [n_dim_option optc io_key io_type io_cond]. rewrite H. cbn [bind convert].
  rewrite Hz. unfold scalar. cbn [bind]. rewrite at_most_3dim_exact. reflexivity.
Qed.

Lemma polynomial_dim cv secs c : parse_all cv secs = Ok c -> assoc "type" (c_potential c) = Some (VStr "polynomial") ->
  positive_int (c_potential c) "n_dim".
Proof.
  intros H Ht. apply parse_all_inv in H.
  destruct H as (s1 & s2 & s3 & _ & _ & _ & _ & E2 & _). revert E2. unfold parse_potential.
  destruct (parse_option cv s2 type_option_pot) as [v|e] eqn:Et; cbn [bind]; [|discriminate].
  assert (Hgen : forall o, io_key o = "n_dim" -> io_type o = KInt -> io_cond o = Some AtMost3Dim -> io_compulsory o = true ->
     forall opts, parse_section cv s2 opts = Ok (c_potential c) -> In o opts ->
     (forall o', In o' opts -> io_key o' = io_key o -> o' = o) -> positive_int (c_potential c) "n_dim").
  { intros o K1 K2 K3 K4 opts Hp Hin Hu. destruct (section_in _ _ _ _ _ Hp Hin Hu) as (w & Ew & Aw). rewrite K1 in Aw.
    destruct (parse_ok _ _ _ _ Ew) as [[_ Hf]|(t & Hc & Hk)]; [congruence|]. rewrite K2 in Hc. rewrite K3 in Hk.
    inversion Hc; subst. exists z. split; [exact Aw|]. rewrite at_most_3dim_exact in Hk. apply Z.ltb_lt. exact Hk. }
  destruct v as [|s|x|z|b|l|l]; cbn [vstr_is bind]; try discriminate.
  destruct (String.eqb_spec s "polynomial") as [->|Hn1].
  - destruct (parse_option cv s2 n_dim_option) as [nd|]; cbn [bind]; [|discriminate].
    destruct (vint_is nd 1); cbn [bind]; intro H; apply (Hgen n_dim_option eq_refl eq_refl eq_refl eq_refl _ H); [in_list|uniq|in_list|uniq].
  - destruct (String.eqb_spec s "mueller-brown") as [->|Hn2]; cbn [bind]; [|discriminate]. intro H. exfalso.
    destruct (en_str _ _ _ _ H "type" true) as (v & Ev & Av); [in_list|uniq|].
    change (opt "type" KStr true) with type_option_pot in Ev. rewrite Et in Ev. injection Ev as <-. congruence.
Qed.

(** * C42 *)
Lemma numbered_spec {A} (look : string -> option (res A)) pre suf : forall fuel c,
  match numbered look pre suf fuel c with
  | Ok vs => (forall i v, nth_error vs i = Some v -> look (prefixed pre (c + i) suf) = Some (Ok v)) /\
             look (prefixed pre (c + length vs) suf) = None
  | Err e => (e = NoTermination /\ forall i, (i < fuel)%nat -> look (prefixed pre (c + i) suf) <> None) \/
             (exists n, look (prefixed pre (c + n) suf) = Some (Err e) /\
                forall i, (i < n)%nat -> exists v, look (prefixed pre (c + i) suf) = Some (Ok v))
  end.
Proof.
  induction fuel as [|f IH]; intro c; cbn [numbered].
  - left. split; [reflexivity|lia].
  - destruct (look (prefixed pre c suf)) as [[v|e]|] eqn:E; cbn [bind].
    + specialize (IH (S c)). destruct (numbered look pre suf f (S c)) as [vs|e]; cbn [bind].
      * destruct IH as [H1 H2]. split.
        -- intros [|i] w Hw; simpl in Hw; [injection Hw as <-; rewrite Nat.add_0_r; exact E|].
           replace (c + S i)%nat with (S c + i)%nat by lia. apply H1. exact Hw.
        -- simpl. replace (c + S (length vs))%nat with (S c + length vs)%nat by lia. exact H2.
      * destruct IH as [[-> H]|(n & H1 & H2)].
        -- left. split; [reflexivity|]. intros [|i] Hi; [rewrite Nat.add_0_r; congruence|].
           replace (c + S i)%nat with (S c + i)%nat by lia. apply H. lia.
        -- right. exists (S n). replace (c + S n)%nat with (S c + n)%nat by lia. split; [exact H1|].
           intros [|i] Hi; [rewrite Nat.add_0_r; eauto|].
           replace (c + S i)%nat with (S c + i)%nat by lia. apply H2. lia.
    + right. exists 0%nat. rewrite Nat.add_0_r. split; [exact E|lia].
    + split; [intros i v H; destruct i; discriminate H|]. simpl. rewrite Nat.add_0_r. exact E.
Qed.

Lemma assoc_in {A} k : forall l : list (string * A), assoc k l <> None -> In k (map fst l).
Proof.
  induction l as [|[k' v] l IH]; simpl; [congruence|]. destruct (String.eqb_spec k' k); [left; assumption|intro H; right; auto].
Qed.

Lemma never_all_found {A} (l : list (string * A)) pre suf :
  ~ (forall i, (i < S (length l))%nat -> assoc (prefixed pre (1 + i) suf) l <> None).
Proof.
  intro H.
  assert (Hincl : incl (map (fun i => prefixed pre (1 + i) suf) (seq 0 (S (length l)))) (map fst l)).
  { intros k Hk. apply in_map_iff in Hk. destruct Hk as (i & <- & Hi). apply in_seq in Hi. apply assoc_in, H. lia. }
  apply NoDup_incl_length in Hincl.
  - rewrite !map_length, seq_length in Hincl. lia.
  - apply FinFun.Injective_map_NoDup; [|apply seq_NoDup]. intros i j Hij. apply prefixed_inj in Hij. lia.
Qed.

Lemma interpolate_err : forall depth sec s e, interpolate depth sec s = Err e -> e = InterpolationError.
Proof.
  induction depth as [|d IH]; intros sec s e H; [cbn in H; congruence|].
  cbn [interpolate] in H. revert s H.
  assert (G : forall fuel rest,
    (fix go (fuel : nat) (rest : string) : res string :=
         match fuel, rest with
         | S f, String c t =>
             if negb (Ascii.eqb c "%"%char) then do r <- go f t; Ok (String c r)
             else match t with
                  | String c2 t2 =>
                      if Ascii.eqb c2 "%"%char then do r <- go f t2; Ok (String c r)
                      else if Ascii.eqb c2 "("%char then
                        match until_paren t2 with
                        | Some (String n0 ns, String c3 t3) =>
                            if Ascii.eqb c3 "s"%char then
                              match assoc (lower (String n0 ns)) sec with
                              | None => Err InterpolationError
                              | Some v =>
                                  do a <- (if has_percent v then interpolate d sec v else Ok v);
                                  do r <- go f t3;
                                  Ok (a ++ r)
                              end
                            else Err InterpolationError
                        | _ => Err InterpolationError
                        end
                      else Err InterpolationError
                  | EmptyString => Err InterpolationError
                  end
         | _, _ => Ok EmptyString
         end) fuel rest = Err e -> e = InterpolationError).
  { induction fuel as [|f IHf]; intros rest H; [discriminate|]. destruct rest as [|c t]; [discriminate|].
    destruct (negb (Ascii.eqb c "%")).
    - destruct ((fix go (fuel : nat) (rest : string) : res string := _) f t) eqn:E; cbn [bind] in H; [discriminate|].
      injection H as <-. exact (IHf _ E).
    - destruct t as [|c2 t2]; [congruence|]. destruct (Ascii.eqb c2 "%").
      + destruct ((fix go (fuel : nat) (rest : string) : res string := _) f t2) eqn:E; cbn [bind] in H; [discriminate|].
        injection H as <-. exact (IHf _ E).
      + destruct (Ascii.eqb c2 "("); [|congruence].
        destruct (until_paren t2) as [[[|n0 ns] [|c3 t3]]|]; try congruence.
        destruct (Ascii.eqb c3 "s"); [|congruence].
        destruct (assoc (lower (String n0 ns)) sec) as [v|]; [|congruence].
        destruct (if has_percent v then interpolate d sec v else Ok v) as [a|e'] eqn:Ea; cbn [bind] in H.
        * destruct ((fix go (fuel : nat) (rest : string) : res string := _) f t3) eqn:E; cbn [bind] in H; [discriminate|].
          injection H as <-. exact (IHf _ E).
        * injection H as <-. destruct (has_percent v); [exact (IH _ _ _ Ea)|discriminate]. }
  intros s H. exact (G _ _ H).
Qed.

Lemma numbered_section_spec sec pre suf :
  match numbered_in_section sec pre suf with
  | Ok vs => all_numbered (sec_get sec) pre suf vs
  | Err e => e = InterpolationError /\ numbered_fails (sec_get sec) pre suf e
  end.
Proof.
  unfold numbered_in_section. pose proof (numbered_spec (sec_get sec) pre suf (S (length sec)) 1) as H.
  destruct (numbered _ _ _ _ _) as [vs|e]; [exact H|]. destruct H as [[-> H]|(n & H1 & H2)].
  - exfalso. apply (never_all_found sec pre suf). intros i Hi. specialize (H i Hi). unfold sec_get in H.
    intro Hn. rewrite Hn in H. congruence.
  - split; [|exists n; split; assumption]. unfold sec_get in H1. destruct (assoc _ sec) as [raw|]; [|discriminate].
    apply (interpolate_err 10 sec raw e). congruence.
Qed.

Lemma numbered_dict_spec d pre suf : exists vs, numbered_in_dict d pre suf = Ok vs /\
  all_numbered (fun k => option_map Ok (assoc k d)) pre suf vs.
Proof.
  unfold numbered_in_dict. pose proof (numbered_spec (fun k => option_map Ok (assoc k d)) pre suf (S (length d)) 1) as H.
  destruct (numbered _ _ _ _ _) as [vs|e].
  - exists vs. split; [reflexivity|exact H].
  - exfalso. destruct H as [[-> H]|(n & H1 & H2)].
    + apply (never_all_found d pre suf). intros i Hi. specialize (H i Hi).
      intro Hn. rewrite Hn in H. apply H. reflexivity.
    + destruct (assoc _ d); discriminate.
Qed.

(** values without % are fetched unchanged *)
Lemma interpolate_plain : forall d sec s, has_percent s = false -> interpolate (S d) sec s = Ok s.
Proof.
  intros d sec s. cbn [interpolate]. induction s as [|c s IH]; intro H; [reflexivity|].
  cbn [has_percent] in H. apply orb_false_iff in H. destruct H as [H1 H2]. cbn [String.length].
  rewrite H1. cbn [negb]. rewrite (IH H2). reflexivity.
Qed.
Lemma plain_assoc sec k raw : plain sec -> assoc k sec = Some raw -> has_percent raw = false.
Proof.
  intro P. induction P as [|[k' v] l Hv P IH]; simpl; [discriminate|]. destruct (String.eqb k' k); [|exact IH].
  intro H. injection H as <-. exact Hv.
Qed.
Lemma plain_get sec k : plain sec -> sec_get sec k = option_map Ok (assoc k sec).
Proof.
  intro P. unfold sec_get. destruct (assoc k sec) as [raw|] eqn:E; [|reflexivity].
  rewrite (interpolate_plain 9 sec raw (plain_assoc _ _ _ P E)). reflexivity.
Qed.

Lemma states_length sec suf n vs : plain sec -> has_states sec suf n ->
  numbered_in_section sec "state" suf = Ok vs -> length vs = n.
Proof.
  intros P [H1 H2] E. pose proof (numbered_section_spec sec "state" suf) as Hs. rewrite E in Hs. destruct Hs as [A B].
  destruct (Nat.lt_trichotomy (length vs) n) as [Hl|[Hl|Hl]]; [|exact Hl|].
  - exfalso. apply (H1 _ Hl). rewrite plain_get in B by exact P.
    destruct (assoc (prefixed "state" (S (length vs)) suf) sec); [discriminate|reflexivity].
  - exfalso. destruct (nth_error vs n) as [v|] eqn:Ev; [|apply nth_error_None in Ev; lia].
    specialize (A _ _ Ev). rewrite plain_get in A by exact P. rewrite H2 in A. discriminate.
Qed.
Lemma plain_numbered sec pre suf : plain sec -> exists vs, numbered_in_section sec pre suf = Ok vs.
Proof.
  intro P. pose proof (numbered_section_spec sec pre suf) as H. destruct (numbered_in_section sec pre suf) as [vs|e]; [eauto|].
  exfalso. destruct H as [_ (n & H & _)]. rewrite plain_get in H by exact P. destruct (assoc _ sec); discriminate.
Qed.
Lemma has_states_ex sec suf : plain sec -> exists n, has_states sec suf n.
Proof.
  intro P. destruct (plain_numbered sec "state" suf P) as (vs & E).
  pose proof (numbered_section_spec sec "state" suf) as H. rewrite E in H. destruct H as [A B]. exists (length vs). split.
  - intros i Hi. destruct (nth_error vs i) as [v|] eqn:Ev; [|apply nth_error_None in Ev; lia].
    specialize (A _ _ Ev). rewrite plain_get in A by exact P.
    destruct (assoc (prefixed "state" (S i) suf) sec); [discriminate|discriminate A].
  - rewrite plain_get in B by exact P.
    destruct (assoc (prefixed "state" (S (length vs)) suf) sec); [discriminate|reflexivity].
Qed.

Lemma state_options_spec sec : plain sec -> exists n m, has_states sec "-min" n /\ has_states sec "-max" m /\
  numbered_state_options sec =
    if Nat.eqb n m && negb (Nat.eqb n 0) then
      Ok (flat_map (fun i => [opt (prefixed "state" (S i) "-min") KFloats true;
                              opt (prefixed "state" (S i) "-max") KFloats true]) (seq 0 n))
    else Err OptionError.
Proof.
  intro P. destruct (has_states_ex sec "-min" P) as (n & Hn). destruct (has_states_ex sec "-max" P) as (m & Hm).
  exists n, m. split; [exact Hn|]. split; [exact Hm|]. unfold numbered_state_options.
  destruct (plain_numbered sec "state" "-min" P) as (v1 & E1). destruct (plain_numbered sec "state" "-max" P) as (v2 & E2).
  rewrite E1, E2. cbn [bind]. rewrite (states_length _ _ _ _ P Hn E1), (states_length _ _ _ _ P Hm E2).
  destruct (Nat.eqb n m); [|reflexivity]. cbn [negb andb]. destruct n; reflexivity.
Qed.

(** * C59 *)
Lemma double_percent_fetch d sec s : interpolate (S d) sec (double_percent s) = Ok s.
Proof.
  cbn [interpolate].
  assert (G : forall s fuel, (String.length (double_percent s) <= fuel)%nat ->
    (fix go (fuel : nat) (rest : string) : res string :=
         match fuel, rest with
         | S f, String c t =>
             if negb (Ascii.eqb c "%"%char) then do r <- go f t; Ok (String c r)
             else match t with
                  | String c2 t2 =>
                      if Ascii.eqb c2 "%"%char then do r <- go f t2; Ok (String c r)
                      else if Ascii.eqb c2 "("%char then
                        match until_paren t2 with
                        | Some (String n0 ns, String c3 t3) =>
                            if Ascii.eqb c3 "s"%char then
                              match assoc (lower (String n0 ns)) sec with
                              | None => Err InterpolationError
                              | Some v =>
                                  do a <- (if has_percent v then interpolate d sec v else Ok v);
                                  do r <- go f t3;
                                  Ok (a ++ r)
                              end
                            else Err InterpolationError
                        | _ => Err InterpolationError
                        end
                      else Err InterpolationError
                  | EmptyString => Err InterpolationError
                  end
         | _, _ => Ok EmptyString
         end) fuel (double_percent s) = Ok s).
  { clear s. induction s as [|c s IH]; intros fuel Hf; cbn [double_percent] in *.
    - destruct fuel; reflexivity.
    - destruct (Ascii.eqb c "%") eqn:E.
      + cbn [String.length] in Hf. destruct fuel as [|f]; [lia|]. rewrite E. cbn [negb]. rewrite (IH f) by lia. reflexivity.
      + cbn [String.length] in Hf. destruct fuel as [|f]; [lia|]. rewrite E. cbn [negb]. rewrite (IH f) by lia. reflexivity. }
  apply G. apply le_n.
Qed.

(** * C43 *)
Lemma mapM_as_list : forall l, mapM as_list (map Nums l) = Ok l.
Proof. induction l; simpl; [reflexivity|]. rewrite IHl. reflexivity. Qed.
Lemma mapM_as_number : forall l, mapM as_number (map Num l) = Ok l.
Proof. induction l; simpl; [reflexivity|]. rewrite IHl. reflexivity. Qed.

Lemma check_dims_lists n : forall mins maxs, length mins = length maxs ->
  check_dims n (map Nums mins) (map Nums maxs) = Ok tt /\
    (forall a b, In (a, b) (combine mins maxs) -> length a = length b \/ length b = n) \/
  check_dims n (map Nums mins) (map Nums maxs) = Err ValueError /\
    (exists a b, In (a, b) (combine mins maxs) /\ length a <> length b /\ length b <> n).
Proof.
  induction mins as [|a mins IH]; intros maxs Hl; destruct maxs as [|b maxs]; simpl in Hl; try lia.
  - left. split; [reflexivity|intros a b []].
  - cbn [map check_dims py_len bind].
    destruct (Nat.eqb_spec (length a) (length b)) as [E1|E1]; destruct (Nat.eqb_spec (length b) n) as [E2|E2]; cbn [negb andb].
    4:{ right. split; [reflexivity|]. exists a, b. split; [left; reflexivity|]. split; assumption. }
    all: destruct (IH maxs) as [[H1 H2]|[H1 (a' & b' & H2 & H3)]]; [lia| |].
    all: try (left; split; [exact H1|]; intros a' b' [H|H]; [injection H as <- <-; auto|exact (H2 _ _ H)]).
    all: right; split; [exact H1|]; exists a', b'; split; [right; exact H2|exact H3].
Qed.

Lemma ranges_exact mins maxs : mins <> [] ->
  min_max_to_ranges (map Nums mins) (map Nums maxs) =
    if negb (Nat.eqb (length mins) (length maxs)) then Err ValueError
    else if existsb (fun ab => negb (Nat.eqb (length (fst ab)) (length (snd ab))) &&
                               negb (Nat.eqb (length (snd ab)) (length (hd [] mins)))) (combine mins maxs)
    then Err ValueError
    else Ok (map (fun ab => combine (fst ab) (snd ab)) (combine mins maxs)).
Proof.
  intro Hn. unfold min_max_to_ranges. rewrite !map_length.
  destruct (Nat.eqb_spec (length mins) (length maxs)) as [El|El]; [|reflexivity]. cbn [negb].
  destruct mins as [|m0 mins0] eqn:Em; [congruence|]. cbn [map hd].
  change (Nums m0 :: map Nums mins0) with (map Nums (m0 :: mins0)). cbn [py_len bind]. rewrite <- Em in *.
  destruct (check_dims_lists (length m0) mins maxs El) as [[H1 H2]|[H1 (a & b & H2 & H3 & H4)]]; rewrite H1.
  - replace (existsb _ _) with false.
    + rewrite !mapM_as_list. cbn [bind]. reflexivity.
    + symmetry. apply Bool.not_true_iff_false. intro H. apply existsb_exists in H. destruct H as ([a b] & Hin & H).
      apply andb_true_iff in H. destruct H as [G1 G2]. cbn [fst snd] in *.
      apply negb_true_iff, Nat.eqb_neq in G1. apply negb_true_iff, Nat.eqb_neq in G2. destruct (H2 _ _ Hin); contradiction.
  - replace (existsb _ _) with true; [reflexivity|]. symmetry. apply existsb_exists. exists (a, b). split; [exact H2|].
    cbn [fst snd]. apply andb_true_iff. split; apply negb_true_iff, Nat.eqb_neq; assumption.
Qed.

Lemma is_zip_combine : forall a b, length a = length b -> is_zip a b (combine a b).
Proof.
  intros a b H. split.
  - revert b H. induction a; intros [|y b] H; simpl in *; try lia; [reflexivity|]. f_equal. apply IHa. lia.
  - revert b H. induction a; intros [|y b] H; simpl in *; try lia; [reflexivity|]. f_equal. apply IHa. lia.
Qed.

Lemma ranges_same_dims mins maxs : mins <> [] -> same_dims mins maxs ->
  exists rs, min_max_to_ranges (map Nums mins) (map Nums maxs) = Ok rs /\ length rs = length mins /\
    forall i a b, nth_error mins i = Some a -> nth_error maxs i = Some b -> exists r, nth_error rs i = Some r /\ is_zip a b r.
Proof.
  intros Hn Hs.
  assert (El : length mins = length maxs). { clear Hn. induction Hs; simpl; congruence. }
  rewrite (ranges_exact _ _ Hn). rewrite El, Nat.eqb_refl. cbn [negb].
  replace (existsb _ _) with false.
  2:{ symmetry. apply Bool.not_true_iff_false. intro H. apply existsb_exists in H. destruct H as ([a b] & Hin & H).
      cbn [fst snd] in H. apply andb_true_iff in H. destruct H as [G1 _]. apply negb_true_iff, Nat.eqb_neq in G1. apply G1.
      clear -Hs Hin. induction Hs; [destruct Hin|]. destruct Hin as [E|Hin]; [injection E as <- <-; assumption|auto]. }
  eexists; split; [reflexivity|]. split; [rewrite map_length, combine_length; lia|].
  intros i a b Ha Hb. exists (combine a b).
  assert (Hc : nth_error (combine mins maxs) i = Some (a, b)).
  { clear -Ha Hb. revert maxs i Ha Hb. induction mins; intros maxs [|i] Ha Hb; destruct maxs; simpl in *; try discriminate; [congruence|auto]. }
  split; [rewrite nth_error_map, Hc; reflexivity|]. apply is_zip_combine.
  clear -Hs Ha Hb. revert i Ha Hb. induction Hs; intros [|i] Ha Hb; simpl in *; try discriminate; [congruence|eauto].
Qed.

Lemma ranges_count mins maxs : length mins <> length maxs -> min_max_to_ranges mins maxs = Err ValueError.
Proof. intro H. unfold min_max_to_ranges. apply Nat.eqb_neq in H. rewrite H. reflexivity. Qed.

Lemma ranges_numbers mins maxs : mins <> [] -> length mins = length maxs ->
  min_max_to_ranges (map Num mins) (map Num maxs) = Ok (map (fun ab => [ab]) (combine mins maxs)).
Proof.
  intros Hn El. unfold min_max_to_ranges. rewrite !map_length, El, Nat.eqb_refl. cbn [negb].
  destruct mins as [|m0 mins0]; [congruence|]. cbn [map py_len bind].
  change (Num m0 :: map Num mins0) with (map Num (m0 :: mins0)). rewrite <- map_app, mapM_as_number. cbn [bind].
  rewrite <- El. rewrite firstn_app, firstn_all, Nat.sub_diag, skipn_app, skipn_all, Nat.sub_diag. simpl. rewrite app_nil_r. reflexivity.
Qed.

(** * Examples *)
Ltac one_section :=
  match goal with
  | |- context [if Rlt_dec ?a ?b then _ else _] => destruct (Rlt_dec a b); [|exfalso; lra]
  | |- context [if Rle_dec ?a ?b then _ else _] => destruct (Rle_dec a b); [|exfalso; lra]
  end.
Lemma demo_accepted : exists c,
  parse_all demo_conv (demo_input "100" [("histogram", demo_hist_section); ("fes", [("kt", "1"); ("stride", "100")])]) = Ok c /\
  c_fes c <> None /\ c_histogram c <> None.
Proof.
  eexists. split; [|split; [shelve|shelve]]. unfold parse_all. cbv - [Rlt_dec Rle_dec IZR Rdiv]. repeat one_section. reflexivity.
  Unshelve. all: discriminate.
Qed.
Lemma four_dims_accepted : exists cv secs c,
  parse_all cv secs = Ok c /\ assoc "type" (c_potential c) = Some (VStr "polynomial") /\
    assoc "n_dim" (c_potential c) = Some (VInt 4).
Proof.
  exists demo_conv, (demo_input "4" []). eexists. split; [|split; [shelve|shelve]].
  unfold parse_all. cbv - [Rlt_dec Rle_dec IZR Rdiv]. repeat one_section. reflexivity.
  Unshelve. all: reflexivity.
Qed.

Lemma demo_states :
  let sec := [("state2-min", "b"); ("state1-min", "a"); ("state4-min", "d"); ("state1-max", "A"); ("state2-max", "B")] in
  plain sec /\ has_states sec "-min" 2 /\ has_states sec "-max" 2 /\
  numbered_in_section sec "state" "-min" = Ok ["a"; "b"] /\
  numbered_state_options sec = Ok [opt "state1-min" KFloats true; opt "state1-max" KFloats true;
                                   opt "state2-min" KFloats true; opt "state2-max" KFloats true].
Proof.
  cbv zeta. split; [repeat constructor|].
  split; [split; [intros [|[|i]] Hi; [discriminate|discriminate|lia]|reflexivity]|].
  split; [split; [intros [|[|i]] Hi; [discriminate|discriminate|lia]|reflexivity]|].
  split; reflexivity.
Qed.

Lemma bad_dims_accepted : exists mins maxs rs, length mins = length maxs /\ ~ same_dims mins maxs /\
    min_max_to_ranges (map Nums mins) (map Nums maxs) = Ok rs.
Proof.
  exists [[Fin 0]; [Fin 0; Fin 0]], [[Fin 1]; [Fin 1]], [[(Fin 0, Fin 1)]; [(Fin 0, Fin 1)]].
  split; [reflexivity|]. split; [|reflexivity]. intro H. inversion H; subst. inversion H5; subst. discriminate.
Qed.
Lemma demo_ranges :
  min_max_to_ranges [Nums [Fin 0; Fin 1]; Nums [Fin 5; Fin 6]] [Nums [Fin 2; Fin 3]; Nums [Fin 7; Fin 8]] =
    Ok [[(Fin 0, Fin 2); (Fin 1, Fin 3)]; [(Fin 5, Fin 7); (Fin 6, Fin 8)]] /\
  same_dims [[Fin 0; Fin 1]; [Fin 5; Fin 6]] [[Fin 2; Fin 3]; [Fin 7; Fin 8]] /\
  min_max_to_ranges [Nums [Fin 0; Fin 1]] [Nums [Fin 2]] = Err ValueError.
Proof. split; [reflexivity|]. split; [repeat constructor|reflexivity]. Qed.

Lemma documented_fmt cv sec : assoc "fmt" sec = Some "%14.9f" ->
  parse_option cv sec (opt "fmt" KStr false) = Err InterpolationError.
Proof. intro H. unfold parse_option, sec_get. cbn [opt io_key]. rewrite H. reflexivity. Qed.
Lemma plain_text cv sec key text compulsory : assoc key sec = Some text -> has_percent text = false ->
  parse_option cv sec (opt key KStr compulsory) = Ok (VStr text).
Proof. intros H Hp. unfold parse_option, sec_get. cbn [opt io_key]. rewrite H, interpolate_plain by exact Hp. reflexivity. Qed.
Lemma doubled_text cv sec key text compulsory : assoc key sec = Some (double_percent text) ->
  parse_option cv sec (opt key KStr compulsory) = Ok (VStr text).
Proof. intros H. unfold parse_option, sec_get. cbn [opt io_key]. rewrite H, double_percent_fetch. reflexivity. Qed.
