(** Proofs about sequences of file operations (C48, C61) *)
From Coq Require Import Lia.
From Verif Require Import PyBase Model_xr Model_input Proof_base Proof_input Model_files Spec_files Proof_files.
Open Scope string_scope.
Open Scope Z_scope.
Open Scope list_scope.
Ltac Zify.zify_post_hook ::= idtac.

Lemma name_dec (a b : string) : a = b \/ a <> b.
Proof. destruct (String.eqb_spec a b); auto. Qed.

(** * Nothing is lost *)
(** a backup with any outcome *)
Lemma backup_cases fe fs name fs' r : backup_if_exists fe fs name = (fs', r) ->
  (fs' = fs /\ exists x, r = Err x) \/
  (r = Ok tt /\ fs_get fs' name = None /\ (forall f, f <> name -> fs_get fs f <> None -> fs_get fs' f = fs_get fs f) /\
   forall c, fs_get fs name = Some c -> exists b, b <> name /\ fs_get fs b = None /\ fs_get fs' b = Some c).
Proof.
  intro H. destruct (fs_get fs name) as [c|] eqn:E.
  - destruct (backup_existing fe fs name c E) as (n & Hn & _ & Hf & Ht). destruct (fe_ok fe (backup_name name n)).
    + right. destruct (Ht eq_refl) as (fs1 & E1 & H1 & H2 & H3). rewrite E1 in H. injection H as <- <-.
      split; [reflexivity|]. split; [exact H2|]. split.
      * intros f Hf1 Hf2. apply H3. intros [<-|[<-|[]]]; contradiction.
      * intros c' Hc. injection Hc as <-. exists (backup_name name n). split; [congruence|]. split; [exact Hn|exact H1].
    + left. rewrite (Hf eq_refl) in H. injection H as <- <-. eauto.
  - right. rewrite (backup_missing fe fs name E) in H. injection H as <- <-. split; [reflexivity|]. split; [exact E|].
    split; [reflexivity|]. intros c Hc. congruence.
Qed.
Lemma write_cases fe fs name l fs' r : write_file fe fs name l = (fs', r) ->
  (fs' = fs /\ exists x, r = Err x) \/ (r = Ok tt /\ fs' = fs_set fs name l).
Proof. unfold write_file. destruct (fe_ok fe name); intro H; injection H as <- <-; eauto. Qed.
Lemma append_cases fe fs name l fs' r : append_file fe fs name l = (fs', r) ->
  (fs' = fs /\ exists x, r = Err x) \/
  (r = Ok tt /\ fs' = fs_set fs name (match fs_get fs name with Some c => c | None => [] end ++ l)).
Proof. unfold append_file. destruct (fe_ok fe name); intro H; injection H as <- <-; eauto. Qed.

(** the effect of an operation that is no plot *)
Lemma op_cases fe fs stdin op st' r : ~ is_plot op -> apply_op fe (fs, stdin) op = (st', r) ->
  exists fs', st' = (fs', stdin) /\
  match op with
  | OAppend name rows => append_file fe fs name rows = (fs', r)
  | OInit name _ _ | OWrite name _ => exists fs1 r1, backup_if_exists fe fs name = (fs1, r1) /\
      match r1 with
      | Err x => fs' = fs1 /\ r = Err x
      | Ok _ => match op with
                | OInit _ fields constants => write_file fe fs1 name (match fields with [] => [] | _ => map Text (header_lines fields constants) end) = (fs', r)
                | OWrite _ (Some l) => write_file fe fs1 name l = (fs', r)
                | _ => fs' = fs1 /\ r = Ok tt
                end
      end
  | OPlot _ _ => False
  end.
Proof.
  destruct op as [name fields constants|name rows|name lines|name f]; cbn [is_plot apply_op]; [| | |tauto]; intros _ H.
  - unfold initialize_file in H. destruct (backup_if_exists fe fs name) as [fs1 [[]|x]] eqn:E.
    + destruct (write_file _ _ _ _) as [fs2 r2] eqn:E2. injection H as <- <-. exists fs2. split; [reflexivity|]. exists fs1, (Ok tt). auto.
    + injection H as <- <-. exists fs1. split; [reflexivity|]. exists fs1, (Err x). auto.
  - destruct (append_file fe fs name rows) as [fs1 r1] eqn:E. injection H as <- <-. eauto.
  - destruct (backup_if_exists fe fs name) as [fs1 [[]|x]] eqn:E.
    + destruct lines as [l|].
      * destruct (write_file fe fs1 name l) as [fs2 r2] eqn:E2. injection H as <- <-. exists fs2. split; [reflexivity|]. exists fs1, (Ok tt). auto.
      * injection H as <- <-. exists fs1. split; [reflexivity|]. exists fs1, (Ok tt). auto.
    + injection H as <- <-. exists fs1. split; [reflexivity|]. exists fs1, (Err x). auto.
Qed.

Lemma set_keeps fs name l f c : fs_get fs name = None -> fs_get fs f = Some c -> fs_get (fs_set fs name l) f = Some c.
Proof. intros Hn Hf. rewrite get_set_other; [exact Hf|congruence]. Qed.

Lemma op_prefix fe fs stdin op fs' stdin' r f c : ~ is_plot op -> apply_op fe (fs, stdin) op = (fs', stdin', r) ->
  fs_get fs f = Some c -> available_prefix fs' c.
Proof.
  intros Hp H Hf. destruct (op_cases _ _ _ _ _ _ Hp H) as (fs2 & E & Hop). injection E as <- <-.
  assert (B : forall name fs1 r1, backup_if_exists fe fs name = (fs1, r1) -> available fs1 c /\ (r1 = Ok tt -> fs_get fs1 name = None)).
  { intros name fs1 r1 E. destruct (backup_cases _ _ _ _ _ E) as [(-> & x & ->)|(-> & H1 & H2 & H3)].
    - split; [exists f; exact Hf|discriminate].
    - split; [|auto]. destruct (name_dec f name) as [->|Hn].
      + destruct (H3 c Hf) as (b & _ & _ & Hb). exists b. exact Hb.
      + exists f. rewrite H2; congruence. }
  assert (P : forall fs0, available fs0 c -> available_prefix fs0 c) by (intros fs0 (g & Hg); exists g, []; now rewrite app_nil_r).
  assert (W : forall name fs1 l fs3 r3, available fs1 c -> fs_get fs1 name = None -> write_file fe fs1 name l = (fs3, r3) -> available fs3 c).
  { intros name fs1 l fs3 r3 (g & Hg) Hn E. destruct (write_cases _ _ _ _ _ _ E) as [(-> & _)|(_ & ->)]; [exists g; exact Hg|].
    exists g. now apply set_keeps. }
  destruct op as [name fields constants|name rows|name lines|name g]; [| | |contradiction].
  - destruct Hop as (fs1 & r1 & E & Hop). destruct (B _ _ _ E) as (Ha & Hn). destruct r1 as [[]|x]; [|destruct Hop as (-> & _); auto].
    apply P. eapply W; eauto.
  - destruct (append_cases _ _ _ _ _ _ Hop) as [(-> & _)|(_ & ->)]; [apply P; exists f; exact Hf|].
    destruct (name_dec f name) as [->|Hn].
    + exists name, rows. rewrite get_set_same, Hf. reflexivity.
    + exists f, []. rewrite get_set_other, app_nil_r by exact Hn. exact Hf.
  - destruct Hop as (fs1 & r1 & E & Hop). destruct (B _ _ _ E) as (Ha & Hn). destruct r1 as [[]|x]; [|destruct Hop as (-> & _); auto].
    destruct lines as [l|]; [apply P; eapply W; eauto|]. destruct Hop as (-> & _). auto.
Qed.

Lemma ops_prefix fe ops : Forall (fun op => ~ is_plot op) ops -> forall fs stdin fs' stdin' r,
  apply_ops fe ops (fs, stdin) = (fs', stdin', r) -> forall c, available_prefix fs c -> available_prefix fs' c.
Proof.
  induction 1 as [|op ops Hp _ IH]; cbn [apply_ops]; intros fs stdin fs' stdin' r H c Hc.
  - injection H as <- <- <-. exact Hc.
  - destruct (apply_op fe (fs, stdin) op) as [[fs1 stdin1] r1] eqn:E.
    assert (H1 : available_prefix fs1 c).
    { destruct Hc as (g & more & Hg). destruct (op_prefix _ _ _ _ _ _ _ _ _ Hp E Hg) as (g' & more' & Hg').
      exists g', (more ++ more'). now rewrite app_assoc. }
    destruct r1 as [[]|x]; [eapply IH; eassumption|]. injection H as <- <- <-. exact H1.
Qed.

(** ** unchanged if only own files are appended to *)
Fixpoint wf (own : list string) (ops : list fop) : Prop :=
  match ops with
  | [] => True
  | OInit n _ _ :: t => wf (n :: own) t
  | OAppend n _ :: t => In n own /\ wf own t
  | OWrite n (Some _) :: t => wf own t
  | _ => False
  end.
Lemma ops_exact fe ops : forall own fs stdin fs' stdin' r c, wf own ops -> (forall n, In n own -> fs_get fs n <> None) ->
  (exists f, ~ In f own /\ fs_get fs f = Some c) -> apply_ops fe ops (fs, stdin) = (fs', stdin', r) -> available fs' c.
Proof.
  induction ops as [|op ops IH]; intros own fs stdin fs' stdin' r c Hwf Hown (f & Hfo & Hf) H; cbn [apply_ops] in H.
  - injection H as <- <- <-. exists f. exact Hf.
  - destruct (apply_op fe (fs, stdin) op) as [[fs1 stdin1] r1] eqn:E.
    assert (Hp : ~ is_plot op) by (intro Hp; destruct op; cbn in Hp, Hwf; contradiction).
    destruct (op_cases _ _ _ _ _ _ Hp E) as (fs2 & E2 & Hop). injection E2 as <- <-.
    (* a backup followed by a write *)
    assert (B : forall name l fs0 r0, backup_if_exists fe fs name = (fs0, r0) ->
      match r0 with Err x => fs1 = fs0 /\ r1 = Err x | Ok _ => write_file fe fs0 name l = (fs1, r1) end ->
      available fs1 c /\ (r1 = Ok tt -> (exists g, g <> name /\ ~ In g own /\ fs_get fs1 g = Some c) /\
                            (forall n, In n (name :: own) -> fs_get fs1 n <> None))).
    { intros name l fs0 r0 E0 H0. destruct (backup_cases _ _ _ _ _ E0) as [(-> & x & ->)|(-> & H1 & H2 & H3)].
      - destruct H0 as (-> & ->). split; [exists f; exact Hf|discriminate].
      - assert (G : exists g, g <> name /\ ~ In g own /\ fs_get fs0 g = Some c).
        { destruct (name_dec f name) as [->|Hn].
          - destruct (H3 c Hf) as (b & Hb & Hb0 & Hb1). exists b. split; [exact Hb|]. split; [|exact Hb1]. intro Hin. exact (Hown _ Hin Hb0).
          - exists f. split; [exact Hn|]. split; [exact Hfo|]. rewrite H2; congruence. }
        destruct G as (g & Hg & Hgo & Hgc). destruct (write_cases _ _ _ _ _ _ H0) as [(-> & x & ->)|(-> & ->)].
        + split; [exists g; exact Hgc|discriminate].
        + split; [exists g; now apply set_keeps|]. intros _. split.
          * exists g. split; [exact Hg|]. split; [exact Hgo|]. now apply set_keeps.
          * intros n [<-|Hin]; [rewrite get_set_same; discriminate|]. destruct (name_dec n name) as [->|Hn]; [rewrite get_set_same; discriminate|].
            rewrite get_set_other by exact Hn. rewrite H2; auto. }
    destruct op as [name fields constants|name rows|name lines|name g]; [| | |contradiction].
    + destruct Hop as (fs0 & r0 & E0 & Hop). destruct (B _ _ _ _ E0 Hop) as (Ha & Hok). destruct r1 as [[]|x].
      * destruct (Hok eq_refl) as ((g & Hg1 & Hg2 & Hg3) & Hex). eapply IH; [exact Hwf|exact Hex| |exact H].
        exists g. split; [|exact Hg3]. intros [->|Hin]; contradiction.
      * injection H as <- <- <-. exact Ha.
    + destruct Hwf as (Hin & Hwf). destruct (append_cases _ _ _ _ _ _ Hop) as [(-> & x & ->)|(-> & ->)].
      * injection H as <- <- <-. exists f. exact Hf.
      * eapply IH; [exact Hwf| | |exact H].
        -- intros n Hn. destruct (name_dec n name) as [->|Hne]; [rewrite get_set_same; discriminate|]. rewrite get_set_other by exact Hne. auto.
        -- exists f. split; [exact Hfo|]. rewrite get_set_other; [exact Hf|congruence].
    + destruct lines as [l|]; [|contradiction]. destruct Hop as (fs0 & r0 & E0 & Hop).
      destruct (B name l _ _ E0 Hop) as (Ha & Hok). destruct r1 as [[]|x].
      * destruct (Hok eq_refl) as ((g & Hg1 & Hg2 & Hg3) & Hex). eapply IH; [exact Hwf| | |exact H].
        -- intros n Hn. apply Hex. right. exact Hn.
        -- eauto.
      * injection H as <- <- <-. exact Ha.
Qed.

Lemma wf_of ops : Forall always_writes ops -> forall own,
  (forall pre name rows post, ops = pre ++ OAppend name rows :: post ->
     In name own \/ exists fields constants, In (OInit name fields constants) pre) -> wf own ops.
Proof.
  induction 1 as [|op ops Hw _ IH]; intros own H; [exact I|].
  destruct op as [n fs cs|n rows|n [l|]|n g]; cbn [always_writes] in Hw; try contradiction; cbn [wf].
  - apply IH. intros pre name rows post E. destruct (H (OInit n fs cs :: pre) name rows post) as [Hin|(f1 & c1 & [Heq|Hin])].
    + rewrite E. reflexivity.
    + left. right. exact Hin.
    + injection Heq as <- _ _. left. now left.
    + right. eauto.
  - destruct (H [] n rows ops eq_refl) as [Hin|(f1 & c1 & [])]. split; [exact Hin|].
    apply IH. intros pre name rows' post E. destruct (H (OAppend n rows :: pre) name rows' post) as [Hi|(f1 & c1 & [Heq|Hi])].
    + rewrite E. reflexivity.
    + auto.
    + discriminate.
    + right. eauto.
  - apply IH. intros pre name rows' post E. destruct (H (OWrite n (Some l) :: pre) name rows' post) as [Hi|(f1 & c1 & [Heq|Hi])].
    + rewrite E. reflexivity.
    + auto.
    + discriminate.
    + right. eauto.
Qed.
Lemma ops_unchanged fe ops fs stdin fs' stdin' r c : Forall always_writes ops -> appends_initialised ops ->
  available fs c -> apply_ops fe ops (fs, stdin) = (fs', stdin', r) -> available fs' c.
Proof.
  intros Hw Ha (f & Hf) H. eapply (ops_exact fe ops []); [|intros ? []| |exact H].
  - apply wf_of; [exact Hw|]. intros. right. eauto.
  - exists f. split; [intros []|exact Hf].
Qed.

(** * What the files contain *)
Lemma existsb_eqb_in s l : In s l -> existsb (String.eqb s) l = true.
Proof. intro H. apply existsb_exists. exists s. split; [exact H|apply String.eqb_refl]. Qed.

Lemma op_ok fe fs stdin op : writable fe -> can_plot fe op ->
  exists fs', apply_op fe (fs, stdin) op = (fs', stdin, Ok tt) /\
    (forall x, x <> op_file op -> fs_get fs x <> None -> fs_get fs' x = fs_get fs x) /\
    match op with
    | OInit n fields constants => fs_get fs' n = Some (match fields with [] => [] | _ => header_of fields constants end)
    | OAppend n rows => fs_get fs' n = Some (match fs_get fs n with Some c => c | None => [] end ++ rows)
    | OWrite n lines => fs_get fs' n = lines
    | OPlot n f => fs_get fs' (plot_file n) = Some [Image f]
    end.
Proof.
  intros Hw Hp. destruct op as [n fields constants|n rows|n lines|n f]; cbn [apply_op op_file can_plot] in *.
  - destruct (replace_spec fe fs n (match fields with [] => [] | _ => map Text (header_lines fields constants) end) Hw)
      as (fs1 & fs' & E1 & _ & E2 & H1 & H2 & _).
    exists fs'. unfold initialize_file. rewrite E1, E2. split; [reflexivity|]. split; [exact H2|]. rewrite H1.
    destruct fields; [reflexivity|]. unfold header_of, header_lines. cbn [map]. rewrite map_map. reflexivity.
  - unfold append_file. rewrite (Hw n). eexists. split; [reflexivity|]. split; [intros x Hx _; now apply get_set_other|apply get_set_same].
  - destruct lines as [l|].
    + destruct (replace_spec fe fs n l Hw) as (fs1 & fs' & E1 & _ & E2 & H1 & H2 & _). exists fs'. rewrite E1, E2. auto.
    + destruct (backup_if_exists fe fs n) as [fs1 r1] eqn:E. exists fs1.
      destruct (replace_spec fe fs n [] Hw) as (fs1' & fs' & E1 & H0 & _). rewrite E in E1. injection E1 as <- ->.
      split; [reflexivity|]. split; [|exact H0].
      destruct (backup_cases _ _ _ _ _ E) as [(_ & x & Hx)|(_ & _ & H2 & _)]; [discriminate|]. exact H2.
  - unfold plot_fes, savefig, plottable, plot_file in *. cbn [fst snd].
    destruct (String.eqb (extension n) ""); rewrite (existsb_eqb_in _ _ Hp); unfold write_file; rewrite Hw;
      (eexists; split; [reflexivity|]; split; [intros x Hx _; now apply get_set_other|apply get_set_same]).
Qed.

Lemma ops_ok fe ops : writable fe -> Forall (can_plot fe) ops -> forall fs stdin,
  exists fs', apply_ops fe ops (fs, stdin) = (fs', stdin, Ok tt).
Proof.
  intros Hw. induction 1 as [|op ops Hp _ IH]; intros fs stdin; cbn [apply_ops]; [eauto|].
  destruct (op_ok fe fs stdin op Hw Hp) as (fs1 & E & _). rewrite E. apply IH.
Qed.
Lemma apply_app fe ops1 ops2 st : apply_ops fe (ops1 ++ ops2) st =
  match apply_ops fe ops1 st with (st', Ok _) => apply_ops fe ops2 st' | (st', Err x) => (st', Err x) end.
Proof.
  revert st. induction ops1 as [|op ops IH]; intro st; cbn [app apply_ops]; [reflexivity|].
  destruct (apply_op fe st op) as [st1 [u|x]]; [apply IH|reflexivity].
Qed.

(** a file to which is only appended *)
Lemma append_only fe ops x : writable fe -> Forall (can_plot fe) ops ->
  Forall (fun op => op_file op = x -> exists rows, op = OAppend x rows) ops -> forall fs stdin fs' stdin' r c,
  fs_get fs x = Some c -> apply_ops fe ops (fs, stdin) = (fs', stdin', r) -> fs_get fs' x = Some (c ++ appended x ops).
Proof.
  intros Hw Hp. induction Hp as [|op ops Hp _ IH]; intros Ho fs stdin fs' stdin' r c Hc H; cbn [apply_ops] in H.
  - injection H as <- <- <-. cbn. now rewrite app_nil_r.
  - destruct (op_ok fe fs stdin op Hw Hp) as (fs1 & E & H1 & H2). rewrite E in H.
    apply Forall_cons_iff in Ho. destruct Ho as (Ho & Hos).
    destruct (name_dec (op_file op) x) as [Hx|Hx].
    + destruct (Ho Hx) as (rows & ->). rewrite (IH Hos fs1 stdin fs' stdin' r (c ++ rows)); [|rewrite H2, Hc; reflexivity|exact H].
      unfold appended. cbn [flat_map]. rewrite String.eqb_refl. now rewrite app_assoc.
    + rewrite (IH Hos fs1 stdin fs' stdin' r c); [|rewrite H1; congruence|exact H].
      unfold appended. cbn [flat_map]. destruct op as [n f0 k|n rows|n l|n f]; cbn [app]; try reflexivity.
      destruct (String.eqb_spec n x); [contradiction|reflexivity].
Qed.

Lemma init_appends fe pre x fields constants post fs stdin fs' stdin' r : writable fe ->
  Forall (can_plot fe) (pre ++ OInit x fields constants :: post) -> fields <> [] ->
  Forall (fun op => op_file op = x -> exists rows, op = OAppend x rows) post ->
  apply_ops fe (pre ++ OInit x fields constants :: post) (fs, stdin) = (fs', stdin', r) ->
  fs_get fs' x = Some (header_of fields constants ++ appended x post).
Proof.
  intros Hw Hp Hf Hpost H. apply Forall_app in Hp. destruct Hp as (Hp1 & Hp2). apply Forall_cons_iff in Hp2. destruct Hp2 as (_ & Hp2).
  rewrite apply_app in H. destruct (ops_ok fe pre Hw Hp1 fs stdin) as (fs1 & E1). rewrite E1 in H. cbn [apply_ops] in H.
  destruct (op_ok fe fs1 stdin (OInit x fields constants) Hw I) as (fs2 & E2 & _ & H2). rewrite E2 in H.
  eapply append_only; [exact Hw|exact Hp2|exact Hpost| |exact H]. rewrite H2. destruct fields; [contradiction|reflexivity].
Qed.
Lemma written_last fe pre x l post fs stdin fs' stdin' r : writable fe ->
  Forall (can_plot fe) (pre ++ OWrite x (Some l) :: post) -> Forall (fun op => op_file op <> x) post ->
  apply_ops fe (pre ++ OWrite x (Some l) :: post) (fs, stdin) = (fs', stdin', r) -> fs_get fs' x = Some l.
Proof.
  intros Hw Hp Hpost H. apply Forall_app in Hp. destruct Hp as (Hp1 & Hp2). apply Forall_cons_iff in Hp2. destruct Hp2 as (_ & Hp2).
  rewrite apply_app in H. destruct (ops_ok fe pre Hw Hp1 fs stdin) as (fs1 & E1). rewrite E1 in H. cbn [apply_ops] in H.
  destruct (op_ok fe fs1 stdin (OWrite x (Some l)) Hw I) as (fs2 & E2 & _ & H2). rewrite E2 in H.
  assert (Hn : appended x post = []).
  { clear - Hpost. induction Hpost as [|op post Ho _ IH]; [reflexivity|]. unfold appended in *. cbn [flat_map]. rewrite IH.
    destruct op as [n f k|n rows|n ll|n f]; try reflexivity. cbn [op_file] in Ho. destruct (String.eqb_spec n x); [contradiction|reflexivity]. }
  rewrite (append_only fe post x Hw Hp2) with (fs := fs2) (stdin := stdin) (stdin' := stdin') (r := r) (c := l);
    [now rewrite Hn, app_nil_r| |exact H2|exact H].
  eapply Forall_impl; [|exact Hpost]. cbn beta. intros op Ho Hx. contradiction.
Qed.
