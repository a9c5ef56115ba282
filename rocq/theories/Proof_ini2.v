(** The text of the input file: documents and errors *)
From Coq Require Import Lia.
From Verif Require Import PyBase Model_input Model_ini Spec_ini Proof_base Proof_ini.
Open Scope string_scope.
Open Scope Z_scope.
Ltac Zify.zify_post_hook ::= idtac.

Definition raw_defaults (d : document) : raw_section := flat_map (fun s => if String.eqb (fst s) "DEFAULT" then snd s else []) d.
Definition others (d : document) : document := filter (fun s => negb (String.eqb (fst s) "DEFAULT")) d.
Definition raw_ok (d : document) (D : raw_section) (S : list (string * raw_section)) : Prop :=
  same_values (raw_defaults d) D /\ Forall2 (fun a b => fst a = fst b /\ same_values (snd a) (snd b)) (others d) S.

Lemma raw_names d D S : raw_ok d D S -> map fst S = map fst (others d).
Proof. intros [_ H]. induction H as [|a b l l' [E _] _ IH]; [reflexivity|]. cbn. f_equal; [symmetry; exact E|exact IH]. Qed.
Lemma others_in d k : In k (map fst (others d)) -> In k (map fst d).
Proof. intro H. apply in_map_iff in H. destruct H as (x & <- & H). apply filter_In in H. apply in_map, H. Qed.
Lemma others_default d : ~ In "DEFAULT" (map fst (others d)).
Proof. intro H. apply in_map_iff in H. destruct H as (x & E & H). apply filter_In in H. destruct H as [_ H]. rewrite E in H. discriminate. Qed.
Lemma no_defaults d : ~ In "DEFAULT" (map fst d) -> raw_defaults d = [].
Proof.
  induction d as [|[n o] d IH]; [reflexivity|]. cbn. intro H. destruct (String.eqb_spec n "DEFAULT"); [tauto|]. cbn. apply IH. tauto.
Qed.
Lemma in_section_at D S name ros o : at_section (in_section D S name ros o)
  (if String.eqb name "DEFAULT" then ros else D) (if String.eqb name "DEFAULT" then S else (S ++ [(name, ros)])%list).
Proof. unfold at_section, in_section. destruct (String.eqb name "DEFAULT"); repeat split. Qed.

Lemma one_section d1 st D S name line notes ls opts : at_section st D S -> raw_ok d1 D S ->
  ~ In name (map fst d1) -> NoDup (map fst opts) -> header_line name line -> Forall note notes -> options_text ls opts ->
  exists D0 S0 ros o, foldM read_line (line :: notes ++ ls)%list st = Ok (in_section D0 S0 name ros o) /\ assoc name S0 = None /\ same_values opts ros /\
    raw_ok (d1 ++ [(name, opts)])%list (if String.eqb name "DEFAULT" then ros else D0) (if String.eqb name "DEFAULT" then S0 else (S0 ++ [(name, ros)])%list).
Proof.
  intros HA HR HN ND Hh Hn Ho. assert (HS : assoc name S = None). { apply assoc_None. rewrite (raw_names _ _ _ HR). intro H. now apply HN, others_in. }
  cbn [foldM]. rewrite (header_read _ _ _ _ _ HA Hh), HS. cbn [bind].
  assert (E : mkIni D (if String.eqb name "DEFAULT" then S else (S ++ [(name, [])])%list) (Some name) "" 0 false = in_section D S name [] "").
  { unfold in_section. destruct (String.eqb_spec name "DEFAULT") as [->|]; [|reflexivity].
    destruct HR as [H _]. rewrite (no_defaults _ HN) in H. inversion H. reflexivity. }
  rewrite E, foldM_app, (notes_before _ _ _ _ _ Hn). cbn [bind].
  destruct (options_read D S name HS ls opts Ho [] "" ND (fun _ _ H => H)) as (ros & o & V & E'). rewrite E'. cbn [app].
  exists D, S, ros, o. split; [reflexivity|]. split; [assumption|]. split; [assumption|]. destruct HR as [R1 R2].
  unfold raw_ok, raw_defaults, others. rewrite flat_map_app, filter_app. cbn [flat_map filter fst snd]. destruct (String.eqb_spec name "DEFAULT") as [->|Hne]; cbn [negb].
  - fold (raw_defaults d1) (others d1). rewrite (no_defaults _ HN), !app_nil_r. split; assumption.
  - fold (raw_defaults d1) (others d1). rewrite !app_nil_r. split; [assumption|]. apply Forall2_app; [assumption|]. constructor; [|constructor]. now split.
Qed.

Lemma sections_read d2 : forall d1 st D S lines, sections_text lines d2 -> at_section st D S -> raw_ok d1 D S -> distinct (d1 ++ d2)%list ->
  exists st' D' S', foldM read_line lines st = Ok st' /\ at_section st' D' S' /\ raw_ok (d1 ++ d2)%list D' S'.
Proof.
  induction d2 as [|[name opts] d2 IH]; intros d1 st D S lines H HA HR HD.
  - inversion H; subst. exists st, D, S. rewrite app_nil_r. now repeat split; try apply HA; try apply HR.
  - inversion H as [|n0 line notes ls o0 rest d0 Hh Hn Ho Hr E1 E2]; subst. destruct HD as [N1 N2].
    assert (HN : ~ In name (map fst d1)).
    { intro Hi. rewrite map_app in N1. cbn in N1. apply NoDup_remove_2 in N1. apply N1. apply in_app_iff. now left. }
    assert (ND : NoDup (map fst opts)). { rewrite Forall_app in N2. destruct N2 as [_ N2]. inversion N2; subst. assumption. }
    destruct (one_section d1 st D S name line notes ls opts HA HR HN ND Hh Hn Ho) as (D0 & S0 & ros & o & E & _ & _ & R).
    replace (line :: notes ++ ls ++ rest)%list with ((line :: notes ++ ls)%list ++ rest)%list by (cbn; now rewrite <- app_assoc).
    rewrite foldM_app, E. cbn [bind].
    destruct (IH (d1 ++ [(name, opts)])%list _ _ _ rest Hr (in_section_at D0 S0 name ros o) R) as (st' & D' & S' & E' & A' & R').
    { rewrite <- app_assoc. now split. }
    exists st', D', S'. rewrite E'. rewrite <- app_assoc in R'. now repeat split; try apply A'; try apply R'.
Qed.

(** ** The joined values *)
Lemma concat_cons (x : string) l : l <> [] -> String.concat newline (x :: l) = x ++ newline ++ String.concat newline l.
Proof. destruct l; [congruence|reflexivity]. Qed.
Lemma concat_pad ls n : rstrip (String.concat newline (ls ++ repeat "" n)%list) = rstrip (String.concat newline ls).
Proof.
  assert (W : forall m, white (String.concat newline (repeat "" m))).
  { induction m as [|m IH]; [exact I|]. destruct m; [exact I|]. change (repeat "" (S (S m))) with ("" :: repeat "" (S m)). rewrite concat_cons by discriminate.
    cbn [append]. split; [cbn; tauto|exact IH]. }
  destruct n as [|n]; [now rewrite app_nil_r|]. induction ls as [|x ls IH].
  - cbn [app]. rewrite (rstrip_white _ (W _)). reflexivity.
  - cbn [app]. rewrite concat_cons by (destruct ls; discriminate). destruct ls as [|y ls].
    + cbn [app]. change (rstrip (String.concat newline [x])) with (rstrip x). rewrite <- (rstrip_app_white x (newline ++ String.concat newline (repeat "" (S n)))); [reflexivity|].
      apply every_app. split; [cbn; tauto|apply W].
    + rewrite concat_cons by discriminate. set (a := String.concat newline ((y :: ls) ++ repeat "" (S n))%list) in *. set (b := String.concat newline (y :: ls)) in *.
      clearbody a b. revert IH. clear. intro IH. induction x as [|c x IHx]; cbn [append].
      * cbn [append newline rstrip]. now rewrite IH.
      * cbn [rstrip]. now rewrite IHx.
Qed.
Lemma further_trimmed lines ts : further_lines lines ts -> Forall (fun t => trimmed t /\ t <> "") ts.
Proof. induction 1 as [| |? ? ? ? (w & w' & _ & _ & _ & _ & H1 & H2 & _)]; [constructor|assumption|]. constructor; [now split|assumption]. Qed.
Definition value_ok (ls : list string) : Prop := match ls with [] => False | v :: ts => trimmed v /\ Forall (fun t => trimmed t /\ t <> "") ts end.
Lemma rstrip_app_nonempty a b : rstrip b = b -> b <> "" -> rstrip (a ++ b) = a ++ b.
Proof. intros H N. induction a as [|c a IH]; [exact H|]. cbn. rewrite IH. destruct (a ++ b) eqn:E; [|reflexivity]. destruct a; [cbn in E; congruence|discriminate]. Qed.
Lemma concat_trimmed ls : value_ok ls -> rstrip (String.concat newline ls) = String.concat newline ls.
Proof.
  destruct ls as [|v ts]; [reflexivity|]. intros [Hv Ht]. destruct ts as [|t ts]; [now apply rstrip_trimmed|].
  rewrite concat_cons by discriminate. rewrite <- sapp_assoc.
  assert (G : rstrip (String.concat newline (t :: ts)) = String.concat newline (t :: ts) /\ String.concat newline (t :: ts) <> "").
  { clear v Hv. revert t Ht. induction ts as [|u ts IH]; intros t Ht; inversion Ht as [|? ? [H1 H2] H3]; subst.
    - split; [now apply rstrip_trimmed|assumption].
    - destruct (IH u H3) as [I1 I2]. rewrite concat_cons by discriminate. rewrite <- sapp_assoc. split; [now apply rstrip_app_nonempty|].
      destruct t; [congruence|discriminate]. }
  destruct G as [G1 G2]. now apply rstrip_app_nonempty.
Qed.
Lemma options_ok lines opts : options_text lines opts -> Forall (fun o => value_ok (snd o)) opts.
Proof.
  induction 1 as [|key v line ls ts notes rest opts Hl Hf _ _ IH]; constructor; [|assumption]. cbn. split.
  - destruct Hl as (? & ? & ? & ? & ? & _ & _ & _ & _ & _ & H & _). exact H.
  - now apply further_trimmed in Hf.
Qed.
Lemma joined_values opts ros : same_values opts ros -> Forall (fun o => value_ok (snd o)) opts -> joined ros = values opts.
Proof.
  induction 1 as [|[k ls] [k' ls'] opts ros [H1 (n & H2)] _ IH]; intro H; [reflexivity|]. inversion H; subst. cbn in *. subst. f_equal; [|now apply IH].
  f_equal. rewrite concat_pad. now apply concat_trimmed.
Qed.
Lemma sections_ok lines d : sections_text lines d -> Forall (fun s => Forall (fun o => value_ok (snd o)) (snd s)) d.
Proof. induction 1; constructor; [cbn; eapply options_ok; eassumption|assumption]. Qed.

Lemma layout_all ls d : file_lines ls d -> distinct d -> read_lines ls = Ok (meaning d).
Proof.
  intros (notes & rest & -> & Hn & Hs) HD. unfold read_lines. rewrite foldM_app, (notes_start _ Hn). cbn [bind].
  assert (A0 : at_section ini0 [] []) by (repeat split). assert (R0 : raw_ok [] [] []) by (split; constructor).
  destruct (sections_read d [] ini0 [] [] rest Hs A0 R0 HD) as (st & D & S & -> & (H1 & H2 & _ & H4) & [R1 R2]). cbn [bind app] in *. rewrite H4, H1, H2.
  pose proof (sections_ok _ _ Hs) as OK. f_equal.
  assert (ED : joined D = default_options d).
  { rewrite (joined_values _ _ R1).
    - unfold default_options, raw_defaults. clear. induction d as [|[n o] d IH]; [reflexivity|]. cbn. unfold values in *. destruct (String.eqb n "DEFAULT"); [rewrite map_app; f_equal; exact IH|exact IH].
    - unfold raw_defaults. clear - OK. induction OK as [|[n o] d H _ IH]; [constructor|]. cbn. destruct (String.eqb n "DEFAULT"); [apply Forall_app; now split|assumption]. }
  rewrite ED. unfold meaning. generalize (default_options d). intro dd. clear - R2 OK. revert S R2. unfold others. induction OK as [|[n o] d H _ IH]; intros S R2.
  - inversion R2. reflexivity.
  - cbn [filter fst flat_map]. cbn [filter fst] in R2. destruct (String.eqb n "DEFAULT"); cbn [negb] in R2; [now apply IH|].
    inversion R2 as [|? [n' ros] ? S' [E1 E2] R3]; subst. cbn in E1, E2. subst n'. cbn [map fst snd app]. rewrite (joined_values _ _ E2 H). f_equal. now apply IH.
Qed.

(** ** Errors *)
Lemma nodup_left {A} (l l' : list A) : NoDup (l ++ l')%list -> NoDup l.
Proof. induction l as [|x l IH]; [constructor|]. cbn. intro H. inversion H as [|? ? H1 H2]; subst. constructor; [intro Hi; apply H1, in_app_iff; now left|now apply IH]. Qed.
Lemma sections_split l x : forall lines, sections_text lines (l ++ [x])%list -> exists l1 l2, lines = (l1 ++ l2)%list /\ sections_text l1 l /\ sections_text l2 [x].
Proof.
  induction l as [|[n o] l IH]; intros lines H.
  - exists [], lines. split; [reflexivity|]. split; [constructor|assumption].
  - cbn in H. inversion H as [|n0 line notes ls o0 rest d0 Hh Hn Ho Hr E1 E2]; subst. destruct (IH _ Hr) as (l1 & l2 & -> & A & B). exists (line :: notes ++ ls ++ l1)%list, l2.
    split; [cbn; now rewrite <- !app_assoc|]. split; [now constructor|assumption].
Qed.
Lemma last_section ls d name opts : file_lines ls (d ++ [(name, opts)])%list -> distinct (d ++ [(name, opts)])%list ->
  exists D S ros o, foldM read_line ls ini0 = Ok (in_section D S name ros o) /\ assoc name S = None /\ same_values opts ros.
Proof.
  intros (notes & rest & -> & Hn & Hs) [N1 N2]. destruct (sections_split _ _ _ Hs) as (l1 & l2 & -> & A & B). rewrite !foldM_app, (notes_start _ Hn). cbn [bind].
  assert (A0 : at_section ini0 [] []) by (repeat split). assert (R0 : raw_ok [] [] []) by (split; constructor).
  assert (HD : distinct ([] ++ d)%list). { rewrite map_app in N1. apply nodup_left in N1. rewrite Forall_app in N2. split; [assumption|apply N2]. }
  destruct (sections_read d [] ini0 [] [] l1 A A0 R0 HD) as (st & D & S & E & HA & HR). rewrite foldM_app, E. cbn [bind app] in *.
  inversion B as [|? ? ? ? ? ? ? Hh Hnn Ho Hr]; subst. inversion Hr; subst. rewrite app_nil_r.
  assert (HN : ~ In name (map fst d)). { rewrite map_app in N1. cbn in N1. apply NoDup_remove_2 in N1. now rewrite app_nil_r in N1. }
  assert (ND : NoDup (map fst opts)). { rewrite Forall_app in N2. destruct N2 as [_ N2]. inversion N2; subst. assumption. }
  destruct (one_section d st D S name _ _ _ opts HA HR HN ND Hh Hnn Ho) as (D0 & S0 & ros & o & E' & E2 & E3 & _). exists D0, S0, ros, o. now repeat split.
Qed.

Lemma read_err ls x : foldM read_line ls ini0 = Err x -> read_lines ls = Err x.
Proof. intro H. unfold read_lines. now rewrite H. Qed.

Lemma duplicate_option ls d name opts key v line rest : file_lines ls (d ++ [(name, opts)])%list -> distinct (d ++ [(name, opts)])%list ->
  option_line key v line -> In key (map fst opts) -> read_lines (ls ++ line :: rest)%list = Err DuplicateOptionError.
Proof.
  intros HF HD Hl Hi. apply read_err. destruct (last_section _ _ _ _ HF HD) as (D & S & ros & o & E & E2 & E3). rewrite foldM_app, E. cbn [bind foldM].
  rewrite (option_read _ _ _ _ _ _ _ _ E2 Hl). destruct (assoc key ros) eqn:Ek; [reflexivity|]. apply assoc_None in Ek. rewrite (same_keys _ _ E3) in Ek. contradiction.
Qed.
Lemma duplicate_section ls d name line rest : file_lines ls d -> distinct d -> header_line name line -> In name (map fst d) -> name <> "DEFAULT" ->
  read_lines (ls ++ line :: rest)%list = Err DuplicateSectionError.
Proof.
  intros (notes & r & -> & Hn & Hs) HD Hl Hi Hne. apply read_err. rewrite !foldM_app, (notes_start _ Hn). cbn [bind].
  assert (A0 : at_section ini0 [] []) by (repeat split). assert (R0 : raw_ok [] [] []) by (split; constructor).
  destruct (sections_read d [] ini0 [] [] r Hs A0 R0 HD) as (st & D & S & E & HA & HR). rewrite E. cbn [bind foldM app] in *.
  rewrite (header_read _ _ _ _ _ HA Hl). destruct (assoc name S) eqn:Ek; [reflexivity|]. apply assoc_None in Ek. exfalso. apply Ek. rewrite (raw_names _ _ _ HR).
  apply in_map_iff in Hi. destruct Hi as (x & <- & Hx). apply in_map. apply filter_In. split; [assumption|]. now destruct (String.eqb_spec (fst x) "DEFAULT").
Qed.
Lemma no_section notes key v line rest : Forall note notes -> option_line key v line ->
  read_lines (notes ++ line :: rest)%list = Err MissingSectionHeaderError.
Proof.
  intros Hn Hl. apply read_err. rewrite foldM_app, (notes_start _ Hn). cbn [bind foldM].
  destruct (option_facts _ _ _ Hl) as (E1 & E2 & (c & t & E3) & E4 & _ & _). unfold read_line. rewrite E1, E3. rewrite E3 in E4. cbn [i_cur ini0]. rewrite E4. reflexivity.
Qed.

(** a line without meaning *)
Lemma bad_kept st line : i_bad st = true -> match read_line st line with Ok st' => i_bad st' = true | Err _ => True end.
Proof.
  intro H. unfold read_line. set (value := if is_comment line then "" else strip line). destruct value as [|c v].
  - destruct (i_cur st); [|exact H]. destruct (_ && _); [|exact H]. unfold append_line, change_section. destruct (String.eqb _ _); exact H.
  - assert (G : match (match section_header (String c v) with
          | Some name => enter_section (set_indent st (indentation line)) name
          | None => match i_cur (set_indent st (indentation line)) with
                    | None => Err MissingSectionHeaderError
                    | Some name => read_option (set_indent st (indentation line)) name (String c v) end end) with Ok st' => i_bad st' = true | Err _ => True end).
    { destruct (section_header _).
      - unfold enter_section. destruct (assoc _ _); [exact I|]. destruct (String.eqb _ _); exact H.
      - destruct (i_cur _); [|exact I]. unfold read_option. destruct (option_match _) as [[k x]|]; [|reflexivity].
        destruct (assoc _ _); [exact I|]. unfold change_section. destruct (String.eqb k ""); destruct (String.eqb _ "DEFAULT"); cbn; try exact H; reflexivity. }
    destruct (i_cur st); [|exact G]. destruct (_ && _); [|exact G]. unfold append_line, change_section. destruct (String.eqb _ _); exact H.
Qed.
Lemma bad_stays ls : forall st, i_bad st = true -> match foldM read_line ls st with Ok st' => i_bad st' = true | Err _ => True end.
Proof.
  induction ls as [|l ls IH]; intros st H; [exact H|]. cbn. pose proof (bad_kept st l H). destruct (read_line st l); [now apply IH|exact I].
Qed.
Lemma without_split v : without delimiters v -> split_delim v = None.
Proof.
  induction v as [|c v IH]; [reflexivity|]. intros [H1 H2]. cbn. rewrite (IH H2).
  destruct (Ascii.eqb_spec c "="%char); [exfalso; apply H1; cbn; left; congruence|].
  destruct (Ascii.eqb_spec c ":"%char); [exfalso; apply H1; cbn; right; left; congruence|]. reflexivity.
Qed.
Lemma no_delimiter ls d text w line rest : file_lines ls d -> distinct d -> line = text ++ w -> white w -> trimmed text -> text <> "" ->
  ~ starts_with ("["%char :: comment_marks) text -> without delimiters text -> exists x, read_lines (ls ++ line :: rest)%list = Err x.
Proof.
  intros (notes & r & -> & Hn & Hs) HD -> Hw Ht Hne Hst Hwo. unfold read_lines. rewrite !foldM_app, (notes_start _ Hn). cbn [bind].
  assert (A0 : at_section ini0 [] []) by (repeat split). assert (R0 : raw_ok [] [] []) by (split; constructor).
  destruct (sections_read d [] ini0 [] [] r Hs A0 R0 HD) as (st & D & S & E & (HA1 & HA2 & HA3 & HA4) & HR). rewrite E. cbn [bind foldM].
  assert (E1 : is_comment (text ++ w) = false). { apply (comment_not "" text I Ht); [|assumption]. intros (c & t & E' & Hi). apply Hst. exists c, t. split; [assumption|now right]. }
  assert (E2 : strip (text ++ w) = text) by (apply (strip_around "" text w I Hw Ht)).
  destruct text as [|c t]; [congruence|]. assert (E3 : indentation (String c t ++ w) = O) by (cbn; now rewrite (trimmed_first _ _ Ht)).
  assert (Eb : Ascii.eqb c "["%char = false). { apply Ascii.eqb_neq. intros ->. apply Hst. do 2 eexists. split; [reflexivity|cbn; tauto]. }
  assert (G : match read_line st (String c t ++ w) with Ok st' => i_bad st' = true | Err _ => True end).
  { unfold read_line. rewrite E1, E2, E3, HA3. assert (Eh : section_header (String c t) = None) by (cbn; now rewrite Eb).
    destruct (i_cur st) eqn:Ec.
    - rewrite andb_false_r, Eh. unfold set_indent. cbn [i_cur]. rewrite Ec. unfold read_option, option_match. rewrite (without_split _ Hwo). reflexivity.
    - rewrite Eh. unfold set_indent. cbn [i_cur]. rewrite Ec. exact I. }
  destruct (read_line st (String c t ++ w)) as [st'|x]; [|exists x; reflexivity]. cbn [bind].
  pose proof (bad_stays rest st' G) as B. destruct (foldM read_line rest st') as [st''|x]; [|exists x; reflexivity]. cbn [bind]. rewrite B. exists ParsingError. reflexivity.
Qed.

(** ** Lines of a text *)
Lemma lines_of ls s : text_of ls s -> Forall single_line ls -> text_lines s = ls.
Proof.
  induction 1 as [|l Hl|l ls nl s Hnl _ IH]; intro HF.
  - reflexivity.
  - inversion HF as [|? ? H _]; subst. clear HF. induction l as [|c l IHl]; [congruence|]. destruct H as [H1 H2]. cbn [text_lines].
    destruct (Ascii.eqb_spec c LF) as [->|]; [exfalso; apply H1; left; reflexivity|].
    destruct (Ascii.eqb_spec c CR) as [->|]; [exfalso; apply H1; right; left; reflexivity|].
    destruct l as [|c2 l]; [reflexivity|]. rewrite IHl; [reflexivity|discriminate|exact H2].
  - inversion HF as [|? ? H HF']; subst. specialize (IH HF'). clear HF HF'. induction l as [|c l IHl].
    + destruct Hnl as [->| ->]; cbn [append text_lines]; [|cbn [Ascii.eqb Bool.eqb]]; rewrite <- IH; reflexivity.
    + destruct H as [H1 H2]. cbn [append text_lines].
      destruct (Ascii.eqb_spec c LF) as [->|]; [exfalso; apply H1; left; reflexivity|].
      destruct (Ascii.eqb_spec c CR) as [->|]; [exfalso; apply H1; right; left; reflexivity|]. rewrite (IHl H2). reflexivity.
Qed.
Lemma text_all text ls d : text_of ls text -> Forall single_line ls -> file_lines ls d -> distinct d -> read_text text = Ok (meaning d).
Proof. intros H1 H2 H3 H4. unfold read_text. rewrite (lines_of _ _ H1 H2). now apply layout_all. Qed.
