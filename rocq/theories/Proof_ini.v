(** The text of the input file: layout *)
From Coq Require Import Lia.
From Verif Require Import PyBase Model_input Model_ini Spec_ini Proof_base.
Open Scope string_scope.
Open Scope Z_scope.
Ltac Zify.zify_post_hook ::= idtac.

(** ** Strings *)
Lemma sapp_nil s : s ++ "" = s.
Proof. induction s; cbn; congruence. Qed.
Lemma sapp_assoc a b c : (a ++ b) ++ c = a ++ (b ++ c).
Proof. induction a; cbn; congruence. Qed.
Lemma every_app P a b : every P (a ++ b) <-> every P a /\ every P b.
Proof. induction a; cbn; [tauto|]. rewrite IHa. tauto. Qed.
Lemma every_impl (P Q : ascii -> Prop) s : (forall c, P c -> Q c) -> every P s -> every Q s.
Proof. intro H. induction s; cbn; [tauto|]. intros [A B]. auto. Qed.

Lemma all_ascii (P : ascii -> bool) : forallb (fun n => P (ascii_of_nat n)) (seq 0 256) = true -> forall c, P c = true.
Proof.
  intros H c. rewrite forallb_forall in H. rewrite <- (ascii_nat_embedding c). apply H. apply in_seq. pose proof (nat_ascii_bounded c). lia.
Qed.
Lemma is_space_spec c : is_space c = true <-> white_char c.
Proof.
  unfold white_char. assert (E : Bool.eqb (is_space c) (existsb (Nat.eqb (nat_of_ascii c)) [9; 10; 11; 12; 13; 28; 29; 30; 31; 32]%nat) = true).
  { revert c. apply all_ascii. vm_compute. reflexivity. }
  apply eqb_prop in E. rewrite E, existsb_exists. split.
  - intros (x & H & Hx). apply Nat.eqb_eq in Hx. now subst.
  - intro H. exists (nat_of_ascii c). now rewrite Nat.eqb_refl.
Qed.
Lemma is_space_false c : is_space c = false <-> ~ white_char c.
Proof. rewrite <- is_space_spec. destruct (is_space c); split; congruence. Qed.

Lemma trimmed_nil : trimmed "".
Proof. split; [discriminate|]. intros [|] c H; discriminate. Qed.
Lemma trimmed_first c t : trimmed (String c t) -> is_space c = false.
Proof. intros [H _]. apply is_space_false. eapply H. reflexivity. Qed.

Lemma lstrip_white w s : white w -> lstrip (w ++ s) = lstrip s.
Proof. induction w as [|c w IH]; [reflexivity|]. intros [H1 H2]. cbn. apply is_space_spec in H1. rewrite H1. now apply IH. Qed.
Lemma lstrip_trimmed s : trimmed s -> lstrip s = s.
Proof. intro H. destruct s; [reflexivity|]. cbn. now rewrite (trimmed_first _ _ H). Qed.
Lemma lstrip_first c t : is_space c = false -> lstrip (String c t) = String c t.
Proof. intro H. cbn. now rewrite H. Qed.
Lemma rstrip_white w : white w -> rstrip w = "".
Proof. induction w as [|c w IH]; [reflexivity|]. intros [H1 H2]. cbn. rewrite (IH H2). apply is_space_spec in H1. now rewrite H1. Qed.
Lemma rstrip_app_white s w : white w -> rstrip (s ++ w) = rstrip s.
Proof. intro H. induction s as [|c s IH]; [now apply rstrip_white|]. cbn. now rewrite IH. Qed.
Lemma rstrip_last s : (forall p c, s = p ++ String c "" -> ~ white_char c) -> rstrip s = s.
Proof.
  induction s as [|c s IH]; [reflexivity|]. intro H. cbn. rewrite IH.
  - destruct s; [|reflexivity]. replace (is_space c) with false; [reflexivity|]. symmetry. apply is_space_false. apply (H "" c). reflexivity.
  - intros p d E. apply (H (String c p) d). cbn. now rewrite E.
Qed.
Lemma rstrip_trimmed s : trimmed s -> rstrip s = s.
Proof. intros [_ H]. now apply rstrip_last. Qed.
Lemma strip_around w t w' : white w -> white w' -> trimmed t -> strip (w ++ t ++ w') = t.
Proof.
  intros Hw Hw' Ht. unfold strip. rewrite lstrip_white by assumption. destruct t as [|c t].
  - cbn. replace w' with (w' ++ "") by apply sapp_nil. rewrite lstrip_white by assumption. reflexivity.
  - pose proof (trimmed_first _ _ Ht) as H. cbn [append]. rewrite lstrip_first by assumption. change (String c (t ++ w')) with (String c t ++ w').
    rewrite rstrip_app_white by assumption. now apply rstrip_trimmed.
Qed.

(** ** Kinds of lines *)
Lemma comment_is w t : white w -> starts_with comment_marks t -> is_comment (w ++ t) = true.
Proof.
  intros Hw (c & t' & -> & Hc). unfold is_comment. rewrite lstrip_white by assumption.
  destruct Hc as [<-|[<-|[]]]; reflexivity.
Qed.
Lemma comment_not w t : white w -> trimmed t -> ~ starts_with comment_marks t -> forall w', white w' -> is_comment (w ++ t ++ w') = false.
Proof.
  intros Hw Ht Hn w' Hw'. unfold is_comment. rewrite lstrip_white by assumption. destruct t as [|c t].
  - cbn. replace w' with (w' ++ "") by apply sapp_nil. rewrite lstrip_white by assumption. reflexivity.
  - cbn [append]. rewrite lstrip_first by (eapply trimmed_first; eassumption).
    destruct (Ascii.eqb_spec c "#"%char) as [->|]; [exfalso; apply Hn; do 2 eexists; split; [reflexivity|cbn; tauto]|].
    destruct (Ascii.eqb_spec c ";"%char) as [->|]; [exfalso; apply Hn; do 2 eexists; split; [reflexivity|cbn; tauto]|]. reflexivity.
Qed.
Lemma blank_is line : white line -> is_comment line = false /\ strip line = "".
Proof.
  intro H. split.
  - rewrite <- (sapp_nil line). change "" with ("" ++ "") at 1. apply comment_not; [assumption|apply trimmed_nil| |exact I].
    intros (c & t & E & _). discriminate.
  - rewrite <- (sapp_nil line). change "" with ("" ++ "") at 1. apply strip_around; [assumption|exact I|apply trimmed_nil].
Qed.

Lemma without_last rest : without ["]"%char] rest -> before_last_bracket rest = None.
Proof.
  induction rest as [|c t IH]; [reflexivity|]. intros [H1 H2]. cbn. rewrite (IH H2).
  destruct (Ascii.eqb_spec c "]"%char); [|reflexivity]. exfalso. apply H1. left. congruence.
Qed.
Lemma last_bracket name rest : without ["]"%char] rest -> before_last_bracket (name ++ String "]"%char rest) = Some name.
Proof.
  intro H. induction name as [|c name IH]; cbn [append before_last_bracket].
  - now rewrite (without_last _ H).
  - now rewrite IH.
Qed.
Lemma without_rstrip cs s : without cs s -> without cs (rstrip s).
Proof.
  induction s as [|c s IH]; [trivial|]. intros [H1 H2]. cbn. specialize (IH H2). destruct (rstrip s).
  - destruct (is_space c); cbn; tauto.
  - split; assumption.
Qed.
Lemma rstrip_app_nonwhite a c b : is_space c = false -> rstrip (a ++ String c b) = a ++ String c (rstrip b).
Proof.
  intro H. induction a as [|d a IH]; cbn [append rstrip].
  - rewrite H. destruct (rstrip b); reflexivity.
  - rewrite IH. destruct a; reflexivity.
Qed.
Lemma header_facts name line : header_line name line ->
  is_comment line = false /\ indentation line = O /\ (exists c v, strip line = String c v) /\ section_header (strip line) = Some name.
Proof.
  intros (rest & -> & Hn & Hr). split; [reflexivity|]. split; [reflexivity|].
  assert (E : strip ("[" ++ name ++ "]" ++ rest) = "[" ++ name ++ "]" ++ rstrip rest).
  { unfold strip. cbn [append]. rewrite lstrip_first by reflexivity.
    change (String "[" (name ++ String "]" rest)) with (String "[" name ++ String "]" rest).
    rewrite rstrip_app_nonwhite by reflexivity. reflexivity. }
  rewrite E. split; [cbn; do 2 eexists; reflexivity|]. cbn [append section_header]. cbn [Ascii.eqb Bool.eqb].
  rewrite last_bracket by now apply without_rstrip. destruct name; [congruence|reflexivity].
Qed.

Lemma split_delim_first name d rest : without delimiters name -> In d delimiters -> split_delim (name ++ String d rest) = Some (name, rest).
Proof.
  intros Hn Hd. induction name as [|c name IH]; cbn [append split_delim].
  - destruct Hd as [<-|[<-|[]]]; reflexivity.
  - destruct Hn as [H1 H2]. rewrite IH by assumption.
    destruct (Ascii.eqb_spec c "="%char); [exfalso; apply H1; cbn; left; congruence|].
    destruct (Ascii.eqb_spec c ":"%char); [exfalso; apply H1; cbn; right; left; congruence|]. reflexivity.
Qed.
Lemma white_without w : white w -> without delimiters w.
Proof.
  apply every_impl. intros c H [<-|[<-|[]]]; apply is_space_spec in H; discriminate.
Qed.
Lemma lower_nonempty s : s <> "" -> lower s <> "".
Proof. destruct s; [congruence|discriminate]. Qed.

Lemma option_facts key v line : option_line key v line ->
  is_comment line = false /\ indentation line = O /\ (exists c t, strip line = String c t) /\
  section_header (strip line) = None /\ option_match (strip line) = Some (key, v) /\ key <> "".
Proof.
  intros (name & w1 & d & w2 & w3 & -> & Hd & H1 & H2 & H3 & Hv & Hn & Hne & Hw & Hs & ->).
  destruct name as [|c name]; [congruence|]. pose proof (trimmed_first _ _ Hn) as Hc.
  assert (Hd' : is_space d = false) by (destruct Hd as [<-|[<-|[]]]; reflexivity).
  assert (Hb : Ascii.eqb c "["%char = false).
  { apply Ascii.eqb_neq. intros ->. apply Hs. do 2 eexists. split; [reflexivity|cbn; tauto]. }
  split.
  { unfold is_comment. cbn [append]. rewrite lstrip_first by assumption.
    destruct (Ascii.eqb_spec c "#"%char) as [->|]; [exfalso; apply Hs; do 2 eexists; split; [reflexivity|cbn; tauto]|].
    destruct (Ascii.eqb_spec c ";"%char) as [->|]; [exfalso; apply Hs; do 2 eexists; split; [reflexivity|cbn; tauto]|]. reflexivity. }
  split; [cbn; now rewrite Hc|].
  assert (E : strip (String c name ++ w1 ++ String d (w2 ++ v ++ w3)) = String c name ++ w1 ++ String d (rstrip (w2 ++ v))).
  { unfold strip. cbn [append]. rewrite lstrip_first by assumption.
    change (String c (name ++ w1 ++ String d (w2 ++ v ++ w3))) with (String c name ++ (w1 ++ String d (w2 ++ v ++ w3))).
    rewrite <- sapp_assoc. rewrite rstrip_app_nonwhite by assumption. rewrite sapp_assoc. cbn [append]. do 3 f_equal. f_equal.
    rewrite <- sapp_assoc. now apply rstrip_app_white. }
  rewrite E. split; [cbn; do 2 eexists; reflexivity|]. split; [cbn; now rewrite Hb|]. split; [|now apply lower_nonempty].
  unfold option_match. rewrite <- sapp_assoc. rewrite split_delim_first.
  - f_equal. f_equal.
    + rewrite rstrip_app_white by assumption. now rewrite (rstrip_trimmed _ Hn).
    + unfold strip. destruct v as [|a v].
      * rewrite sapp_nil, (rstrip_white _ H2). reflexivity.
      * rewrite <- (rstrip_trimmed _ Hv) at 2. pose proof (trimmed_first _ _ Hv) as Ha.
        rewrite rstrip_app_nonwhite by assumption. rewrite lstrip_white by assumption. rewrite lstrip_first by assumption.
        assert (Hr : rstrip (String a v) = String a (rstrip v)) by (cbn; rewrite Ha; destruct (rstrip v); reflexivity).
        rewrite <- Hr, (rstrip_trimmed _ Hv). apply (rstrip_trimmed _ Hv).
  - apply every_app. split; [assumption|now apply white_without].
  - assumption.
Qed.
Lemma further_facts t line : further_line t line ->
  is_comment line = false /\ strip line = t /\ (0 < indentation line)%nat /\ t <> "".
Proof.
  intros (w & w' & -> & Hw & Hn & Hw' & Ht & Htn & Hc). split; [now apply comment_not|]. split; [now apply strip_around|].
  split; [|assumption]. destruct w as [|c w]; [congruence|]. destruct Hw as [H _]. apply is_space_spec in H. cbn. rewrite H. lia.
Qed.

(** ** Lines in a state *)
Definition in_section (D : raw_section) (S : list (string * raw_section)) (name : string) (ros : raw_section) (o : string) : ini :=
  if String.eqb name "DEFAULT" then mkIni ros S (Some name) o O false else mkIni D (S ++ [(name, ros)])%list (Some name) o O false.

Lemma assoc_app {A} k (l l' : list (string * A)) : assoc k (l ++ l')%list = match assoc k l with Some v => Some v | None => assoc k l' end.
Proof. induction l as [|[k' v] l IH]; [reflexivity|]. cbn. destruct (String.eqb k' k); auto. Qed.
Lemma assoc_None {A} k (l : list (string * A)) : assoc k l = None <-> ~ In k (map fst l).
Proof.
  induction l as [|[k' v] l IH]; cbn; [tauto|]. destruct (String.eqb_spec k' k).
  - split; [discriminate|]. intro H. exfalso. tauto.
  - rewrite IH. tauto.
Qed.
Lemma update_last {A} k (f : A -> A) l v : assoc k l = None -> update k f (l ++ [(k, v)])%list = (l ++ [(k, f v)])%list.
Proof.
  induction l as [|[k' x] l IH]; cbn; [intros _; now rewrite String.eqb_refl|]. destruct (String.eqb k' k); [discriminate|]. intro H. now rewrite IH.
Qed.
Lemma in_section_cur D S name ros o : i_cur (in_section D S name ros o) = Some name.
Proof. unfold in_section. now destruct (String.eqb name "DEFAULT"). Qed.
Lemma in_section_opt D S name ros o : i_opt (in_section D S name ros o) = o.
Proof. unfold in_section. now destruct (String.eqb name "DEFAULT"). Qed.
Lemma in_section_indent D S name ros o : i_indent (in_section D S name ros o) = O.
Proof. unfold in_section. now destruct (String.eqb name "DEFAULT"). Qed.
Lemma in_section_set_opt D S name ros o o' : set_opt (in_section D S name ros o) o' = in_section D S name ros o'.
Proof. unfold in_section, set_opt. now destruct (String.eqb name "DEFAULT"). Qed.
Lemma in_section_set_indent D S name ros o : set_indent (in_section D S name ros o) 0 = in_section D S name ros o.
Proof. unfold in_section, set_indent. now destruct (String.eqb name "DEFAULT"). Qed.
Lemma in_section_get D S name ros o : assoc name S = None -> cur_section (in_section D S name ros o) name = ros.
Proof.
  intro H. unfold in_section, cur_section. destruct (String.eqb name "DEFAULT"); [reflexivity|]. cbn [i_sections].
  rewrite assoc_app, H. cbn. now rewrite String.eqb_refl.
Qed.
Lemma in_section_change D S name ros o f : assoc name S = None ->
  change_section (in_section D S name ros o) name f = in_section D S name (f ros) o.
Proof.
  intro H. unfold in_section, change_section. destruct (String.eqb name "DEFAULT"); [reflexivity|]. cbn. f_equal. now apply update_last.
Qed.

(** empty lines add empty lines to the last value *)
Definition padded (ls ls' : list string) : Prop := exists n, ls' = (ls ++ repeat "" n)%list.
Lemma padded_refl ls : padded ls ls.
Proof. exists O. cbn. now rewrite app_nil_r. Qed.
Lemma padded_more ls ls' : padded ls ls' -> padded ls (ls' ++ [""])%list.
Proof. intros (n & ->). exists (S n). rewrite <- app_assoc. f_equal. change [""] with (repeat "" 1). rewrite <- repeat_app. f_equal. lia. Qed.

Lemma foldM_app {A St} (f : St -> A -> res St) l l' s : foldM f (l ++ l')%list s = do s' <- foldM f l s; foldM f l' s'.
Proof. revert s. induction l as [|x l IH]; intro s; [reflexivity|]. cbn. destruct (f s x); [apply IH|reflexivity]. Qed.

Lemma notes_before D S name ros notes : Forall note notes -> foldM read_line notes (in_section D S name ros "") = Ok (in_section D S name ros "").
Proof.
  induction 1 as [|line notes H _ IH]; [reflexivity|]. cbn [foldM]. assert (E : read_line (in_section D S name ros "") line = Ok (in_section D S name ros "")); [|now rewrite E].
  unfold read_line. destruct H as [H|(w & t & -> & Hw & Ht)].
  - destruct (blank_is _ H) as [-> ->]. rewrite in_section_cur, in_section_opt. reflexivity.
  - rewrite (comment_is _ _ Hw Ht). rewrite in_section_cur. reflexivity.
Qed.
Lemma notes_start notes : Forall note notes -> foldM read_line notes ini0 = Ok ini0.
Proof.
  induction 1 as [|line notes H _ IH]; [reflexivity|]. cbn [foldM]. assert (E : read_line ini0 line = Ok ini0); [|now rewrite E].
  unfold read_line. destruct H as [H|(w & t & -> & Hw & Ht)].
  - destruct (blank_is _ H) as [-> ->]. reflexivity.
  - rewrite (comment_is _ _ Hw Ht). reflexivity.
Qed.
Lemma notes_after D S name ros key ls notes : assoc name S = None -> assoc key ros = None -> key <> "" -> Forall note notes ->
  exists ls', padded ls ls' /\
    foldM read_line notes (in_section D S name (ros ++ [(key, ls)])%list key) = Ok (in_section D S name (ros ++ [(key, ls')])%list key).
Proof.
  intros HS HR HK H. assert (G : forall ls0, padded ls ls0 -> exists ls', padded ls ls' /\
    foldM read_line notes (in_section D S name (ros ++ [(key, ls0)])%list key) = Ok (in_section D S name (ros ++ [(key, ls')])%list key)); [|now apply G, padded_refl].
  induction H as [|line notes H _ IH]; intros ls0 P; [exists ls0; now split|]. cbn [foldM]. destruct H as [H|(w & t & -> & Hw & Ht)].
  - destruct (IH (ls0 ++ [""])%list (padded_more _ _ P)) as (ls' & P' & E). exists ls'. split; [assumption|].
    unfold read_line. destruct (blank_is _ H) as [-> ->]. rewrite in_section_cur, in_section_opt.
    destruct (String.eqb_spec key ""); [congruence|]. cbn [negb andb]. unfold append_line. rewrite in_section_opt, in_section_change by assumption.
    rewrite update_last by assumption. exact E.
  - destruct (IH ls0 P) as (ls' & P' & E). exists ls'. split; [assumption|].
    unfold read_line. rewrite (comment_is _ _ Hw Ht). rewrite in_section_cur. exact E.
Qed.
Lemma further_read D S name ros key lines ts : assoc name S = None -> assoc key ros = None -> key <> "" -> further_lines lines ts -> forall ls,
  foldM read_line lines (in_section D S name (ros ++ [(key, ls)])%list key) = Ok (in_section D S name (ros ++ [(key, ls ++ ts)])%list key).
Proof.
  intros HS HR HK. induction 1 as [|line lines ts H _ IH|line t lines ts H _ IH]; intro ls.
  - now rewrite app_nil_r.
  - destruct H as (w & t & -> & Hw & Ht). cbn [foldM]. unfold read_line at 1. rewrite (comment_is _ _ Hw Ht). rewrite in_section_cur. cbn [negb andb bind]. apply IH.
  - destruct (further_facts _ _ H) as (E1 & E2 & E3 & E4). cbn [foldM]. unfold read_line at 1. rewrite E1, E2. destruct t as [|a t]; [congruence|].
    rewrite in_section_cur, in_section_opt, in_section_indent. destruct (String.eqb_spec key ""); [congruence|]. cbn [negb andb].
    replace (Nat.ltb 0 (indentation line)) with true by (symmetry; apply Nat.ltb_lt; lia).
    unfold append_line. rewrite in_section_opt, in_section_change by assumption. rewrite update_last by assumption. cbn [bind]. rewrite IH. now rewrite <- app_assoc.
Qed.
Lemma option_read D S name ros o key v line : assoc name S = None -> option_line key v line ->
  read_line (in_section D S name ros o) line =
    match assoc key ros with Some _ => Err DuplicateOptionError | None => Ok (in_section D S name (ros ++ [(key, [v])])%list key) end.
Proof.
  intros HS H. destruct (option_facts _ _ _ H) as (E1 & E2 & (c & t & E3) & E4 & E5 & E6). unfold read_line. rewrite E1, E3. rewrite E3 in E4, E5.
  rewrite in_section_cur, in_section_opt, in_section_indent, E2. rewrite andb_false_r. rewrite in_section_set_indent, E4, in_section_cur.
  unfold read_option. rewrite E5. destruct (String.eqb_spec key ""); [congruence|]. rewrite in_section_set_opt, in_section_get by assumption.
  destruct (assoc key ros); [reflexivity|]. now rewrite in_section_change.
Qed.

Definition same_values (opts ros : raw_section) : Prop := Forall2 (fun a b => fst a = fst b /\ padded (snd a) (snd b)) opts ros.
Lemma same_keys opts ros : same_values opts ros -> map fst ros = map fst opts.
Proof. induction 1 as [|? ? ? ? [H _]]; cbn; congruence. Qed.

Lemma options_read D S name : assoc name S = None -> forall lines opts, options_text lines opts -> forall ros o,
  NoDup (map fst opts) -> (forall k, In k (map fst opts) -> ~ In k (map fst ros)) ->
  exists ros' o', same_values opts ros' /\ foldM read_line lines (in_section D S name ros o) = Ok (in_section D S name (ros ++ ros')%list o').
Proof.
  intros HS. induction 1 as [|key v line ls ts notes rest opts Hl Hf Hn _ IH]; intros ros o ND NI.
  - exists [], o. split; [constructor|]. now rewrite app_nil_r.
  - cbn [foldM]. rewrite (option_read _ _ _ _ _ _ _ _ HS Hl). inversion ND as [|? ? ND1 ND2]; subst.
    assert (Hk : assoc key ros = None) by (apply assoc_None, NI; cbn; tauto). rewrite Hk. cbn [bind].
    destruct (option_facts _ _ _ Hl) as (_ & _ & _ & _ & _ & Hne).
    rewrite !foldM_app. rewrite (further_read _ _ _ _ _ _ _ HS Hk Hne Hf). cbn [bind].
    destruct (notes_after D S name ros key ([v] ++ ts)%list notes HS Hk Hne Hn) as (ls' & P & E). rewrite foldM_app, E. cbn [bind].
    destruct (IH (ros ++ [(key, ls')])%list key ND2) as (ros' & o' & V & E').
    { intros k Hi. rewrite map_app, in_app_iff. cbn. intros [Hr|[->|[]]]; [apply (NI k); [now right|assumption]|contradiction]. }
    exists ((key, ls') :: ros'), o'. split; [constructor; [split; [reflexivity|exact P]|exact V]|]. rewrite E'. now rewrite <- app_assoc.
Qed.

(** a state between sections *)
Definition at_section (st : ini) (D : raw_section) (S : list (string * raw_section)) : Prop :=
  i_defaults st = D /\ i_sections st = S /\ i_indent st = O /\ i_bad st = false.
Lemma header_read st D S name line : at_section st D S -> header_line name line -> 
  read_line st line = match assoc name S with
                      | Some _ => Err DuplicateSectionError
                      | None => Ok (mkIni D (if String.eqb name "DEFAULT" then S else (S ++ [(name, [])])%list) (Some name) "" O false) end.
Proof.
  intros (H1 & H2 & H3 & H4) H. destruct (header_facts _ _ H) as (E1 & E2 & (c & v & E3) & E4). unfold read_line. rewrite E1, E3. rewrite E3 in E4. rewrite H3, E2.
  assert (E : match (match i_cur st with Some _ => negb (String.eqb (i_opt st) "") && Nat.ltb 0 0 | None => false end), i_cur st with
     | true, Some name0 => Ok (append_line st name0 (String c v))
     | _, _ => match section_header (String c v) with
        | Some name => enter_section (set_indent st 0) name
        | None => match i_cur (set_indent st 0) with None => Err MissingSectionHeaderError | Some name => read_option (set_indent st 0) name (String c v) end end
     end = enter_section (set_indent st 0) name).
  { destruct (i_cur st); [rewrite andb_false_r|]; now rewrite E4. }
  cbv zeta. rewrite E. unfold enter_section, set_indent. cbn [i_sections i_defaults i_indent i_bad]. rewrite H1, H2, H4. destruct (assoc name S); [reflexivity|]. now destruct (String.eqb name "DEFAULT").
Qed.
