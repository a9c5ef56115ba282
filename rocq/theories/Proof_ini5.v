(** The text of the input file and the whole program *)
From Verif Require Import PyBase Model_xr Model_input Model_ini Model_main Spec_input Spec_main Spec_ini Spec_example
  Proof_input Proof_ini Proof_ini2 Proof_ini3 Proof_ini4 Proof_example.
From Coq Require Import Reals Lra Lia.
Open Scope string_scope.
Open Scope Z_scope.

Lemma foldM_err {A S} (f : S -> A -> res S) (P : exn -> Prop) : (forall s a x, f s a = Err x -> P x) ->
  forall l s x, foldM f l s = Err x -> P x.
Proof.
  intros H. induction l as [|a l IH]; intros s x E; [discriminate|]. cbn [foldM] in E. destruct (f s a) as [s'|y] eqn:Ef.
  - exact (IH s' x E).
  - injection E as <-. exact (H _ _ _ Ef).
Qed.
Lemma read_line_err st line x : read_line st line = Err x -> In x syntax_errors.
Proof.
  unfold read_line, enter_section, read_option. intro H.
  repeat match type of H with
  | context [match ?e with _ => _ end] => destruct e; try discriminate
  | context [if ?e then _ else _] => destruct e; try discriminate
  end; injection H as <-; cbn; tauto.
Qed.
Lemma read_text_err text x : read_text text = Err x -> In x syntax_errors.
Proof.
  unfold read_text, read_lines. destruct (foldM read_line (text_lines text) ini0) as [st|y] eqn:E.
  - cbn [bind]. destruct (i_bad st); [|discriminate]. intro H. injection H as <-. cbn. tauto.
  - intro H. injection H as <-. revert E. apply (foldM_err read_line (fun x => In x syntax_errors)). intros st line z. apply read_line_err.
Qed.
Lemma syntax_traceback e cv text x : read_text text = Err x -> main e cv (Some (read_text text)) = Traceback x.
Proof.
  intro H. pose proof (read_text_err _ _ H) as I. rewrite H. cbn in I.
  repeat (destruct I as [<-|I]; [reflexivity|]). contradiction.
Qed.
Lemma text_outcome e cv text :
  (exists secs, read_text text = Ok secs /\ main e cv (Some (read_text text)) = main e cv (Some (Ok secs))) \/
  (exists x, In x syntax_errors /\ main e cv (Some (read_text text)) = Traceback x).
Proof.
  destruct (read_text text) as [secs|x] eqn:E; [left; exists secs; split; reflexivity|right].
  exists x. split; [exact (read_text_err _ _ E)|]. rewrite <- E. apply syntax_traceback, E.
Qed.

Lemma same_main e cv secs secs' : parse_all cv secs' = parse_all cv secs -> main e cv (Some (Ok secs')) = main e cv (Some (Ok secs)).
Proof. intro H. unfold main, read_input. cbn [bind]. now rewrite H. Qed.
Lemma unknown_main e cv secs secs' :
  adds_unknown secs secs' -> percent_free secs /\ percent_free secs' \/ (exists c, parse_all cv secs = Ok c) ->
  main e cv (Some (Ok secs')) = main e cv (Some (Ok secs)).
Proof.
  intros A [[P P']|(c & Hc)]; apply same_main.
  - exact (unknown_ignored _ _ _ P P' A).
  - rewrite Hc. exact (unknown_accepted _ _ _ _ A Hc).
Qed.

Lemma added_middle name a extra b : (forall k, In k (map fst extra) -> ~ known_option name k /\ ~ In k (map fst b)) ->
  only_unknown_added name (a ++ b)%list (a ++ extra ++ b)%list.
Proof.
  intros H k. rewrite !assoc_app. destruct (assoc k a); [reflexivity|].
  destruct (assoc k extra) as [v|] eqn:E.
  - assert (I : In k (map fst extra)) by (apply assoc_in; congruence). destruct (H k I) as [H1 H2].
    apply assoc_None in H2. rewrite H2. intro. contradiction.
  - destruct (assoc k b); [reflexivity|]. intros _. reflexivity.
Qed.
Lemma added_none name a : only_unknown_added name a a.
Proof. intro k. destruct (assoc k a); [reflexivity|intros _; reflexivity]. Qed.
Ltac not_known := let H := fresh in intro H; unfold known_option in H;
  destruct H as [H|[[H _]|[H _]]]; [vm_compute in H; intuition discriminate|discriminate|cbn in H; intuition discriminate].
Definition example_default : section := [("kt", "1"); ("seed", "632683")].
Lemma typos_added : adds_unknown (meaning example_document) (meaning with_typos) /\ meaning with_typos <> meaning example_document.
Proof.
  split; [|vm_compute; discriminate].
  assert (B : only_unknown_added "birth-death"
    ([("stride", "100"); ("kernel-bandwidth", "0.3"); ("correction-variant", "multiplicative")] ++ example_default)%list
    ([("stride", "100"); ("kernel-bandwidth", "0.3"); ("correction-variant", "multiplicative")] ++ [("recalculate-probability", "true")] ++ example_default)%list).
  { apply added_middle. intros k [<-|[]]. split; [not_known|cbn; intuition discriminate]. }
  assert (T : only_unknown_added "trajectories"
    ([("stride", "5"); ("filename", "traj")] ++ example_default)%list
    ([("stride", "5"); ("filename", "traj")] ++ [("write_stride", "many"); ("stride1", "0")] ++ example_default)%list).
  { apply added_middle. intros k [<-|[<-|[]]]; (split; [not_known|cbn; intuition discriminate]). }
  intros name Hn. cbn [section_names In] in Hn.
  destruct Hn as [<-|[<-|[<-|[<-|[<-|[<-|[<-|[<-|[<-|[]]]]]]]]]];
    match goal with |- match ?a with _ => _ end => let v := eval vm_compute in a in change a with v end;
    match goal with |- context [assoc ?n (meaning with_typos)] =>
      let v := eval vm_compute in (assoc n (meaning with_typos)) in change (assoc n (meaning with_typos)) with v end;
    cbv beta iota; first [exact I | apply added_none | exact B | exact T].
Qed.
Lemma typos_same e : main e py_conv (Some (Ok (meaning with_typos))) = main e py_conv (Some (read_text example_text)).
Proof.
  rewrite example_read. apply unknown_main; [exact (proj1 typos_added)|]. right. exists example_config. exact example_accepted.
Qed.
Lemma example_input_read : read_input py_conv (Some (read_text example_text)) = Ok example_config.
Proof. rewrite example_read. exact example_accepted. Qed.
