(** Output files are read back, property C91; coefficient files as text, property C92 *)
From Coq Require Import Lia Lra.
From Verif Require Import PyBase Model_xr Model_input Model_ini Model_pot Model_files Model_text Spec_ini Spec_text Spec_files Proof_base Proof_ini Proof_ini2 Proof_ini3 Proof_text Proof_text2.
Open Scope string_scope.
Open Scope Z_scope.
Ltac Zify.zify_post_hook ::= idtac.

(** characters of numbers *)
Definition plain (c : ascii) : Prop := ~ white_char c /\ c <> "#"%char.
Lemma plain_dec c : negb (is_space c) && negb (Ascii.eqb c "#"%char) = true -> plain c.
Proof.
  intros H. apply andb_prop in H as [H1 H2]. split.
  - apply is_space_false. now destruct (is_space c).
  - intros ->. discriminate.
Qed.
Lemma digit_plain c d : digit_char c d -> plain c.
Proof.
  intros H. pose proof (digit_char_not _ _ H) as (_ & _ & _ & _ & _ & _ & S). split; [now apply is_space_false|].
  intros ->. destruct H as [H0 H]. assert (Z.of_nat (nat_of_ascii "#"%char) = 35) by reflexivity. lia.
Qed.
Lemma run_plain s ds : digit_run s ds -> every plain s.
Proof.
  induction 1 as [c d H|c d s ds H H' IH|c d s ds H H' IH]; cbn [every].
  - split; [eapply digit_plain, H|exact I].
  - split; [eapply digit_plain, H|assumption].
  - split; [eapply digit_plain, H|]. split; [apply plain_dec; reflexivity|assumption].
Qed.
Lemma mantissa_plain m ds fs : mantissa_text m ds fs -> every plain m.
Proof.
  assert (forall s l, digits_or_none s l -> every plain s) as D by (intros s l [[-> _]|H]; [exact I|eapply run_plain, H]).
  intros [[H _]|(a & b & -> & H1 & H2 & _)]; [eapply run_plain, H|]. apply every_app. split; [eapply D, H1|]. cbn.
  split; [apply plain_dec; reflexivity|eapply D, H2].
Qed.
Lemma fixed_plain p x : every plain (fixed_text p x) /\ fixed_text p x <> "".
Proof.
  destruct (fixed_parts p x) as (sg & m & ds & fs & -> & S & M & _). destruct (mantissa_first _ _ _ M) as (c & t & -> & _). split.
  - apply every_app. split; [|eapply mantissa_plain, M]. destruct S as [[-> _]|[[-> _]|[-> _]]]; cbn; auto; (split; [apply plain_dec; reflexivity|exact I]).
  - destruct S as [[-> _]|[[-> _]|[-> _]]]; discriminate.
Qed.
Lemma plain_word s : every plain s -> s <> "" -> word s.
Proof. intros H N. split; [assumption|]. eapply every_impl; [|exact H]. intros c [Hc _]. exact Hc. Qed.
Lemma plain_hash s : every plain s -> without ["#"%char] s.
Proof. intros H. eapply every_impl; [|exact H]. intros c [_ Hc]. intros [E|[]]. apply Hc. now symmetry. Qed.
Lemma plain_single s : every plain s -> single_line s.
Proof. intros H. eapply every_impl; [|exact H]. intros c [Hc _]. intros [<-|[<-|[]]]; apply Hc; cbn; tauto. Qed.
Lemma spaces_hash n : without ["#"%char] (spaces n).
Proof. induction n; cbn; [exact I|]. split; [intros [E|[]]; discriminate E|assumption]. Qed.
Lemma spaces_single n : single_line (spaces n).
Proof. induction n; cbn; [exact I|]. split; [intros [E|[E|[]]]; discriminate E|assumption]. Qed.

Section Reading.
Variables (f : number_format) (good : xreal -> Prop) (rb : xreal -> xreal).
Hypothesis number_ok : forall x, good x -> exists k b, number_text f x = Ok (spaces k ++ b) /\ every plain b /\ b <> "" /\ float_text b (rb x).

Lemma row_words row : Forall good row -> exists s ws, row_text f row = Ok s /\ words_text s ws /\
  Forall2 float_text ws (map rb row) /\ without ["#"%char] s /\ single_line s.
Proof using All.
  intros F. unfold row_text.
  assert (exists fields ws, mapM (number_text f) row = Ok fields /\ words_text (String.concat " " fields) ws /\
    Forall2 float_text ws (map rb row) /\ without ["#"%char] (String.concat " " fields) /\ single_line (String.concat " " fields)) as (fields & ws & -> & H).
  { induction F as [|x row Hx F IH].
    - exists [], []. cbn. repeat split; constructor. exact I.
    - destruct (number_ok x Hx) as (k & b & E & B & N & V). destruct IH as (fields & ws & E' & W & V' & S1 & S2).
      exists ((spaces k ++ b)%string :: fields), (b :: ws). cbn [mapM]. rewrite E, E'. split; [reflexivity|].
      pose proof (plain_word _ B N) as Wb. pose proof (white_spaces k) as Ws. pose proof (plain_hash _ B) as Hb. pose proof (plain_single _ B) as Sb.
      pose proof (spaces_hash k) as Hk. pose proof (spaces_single k) as Sk.
      destruct fields as [|g gs].
      + destruct row; [|cbn in E'; destruct (number_text f x0); [|discriminate]; cbn in E'; destruct (mapM _ row); discriminate].
        inversion V'; subst. cbn [String.concat]. split; [now apply words_last|]. split; [now repeat constructor|]. split; apply every_app; split; assumption.
      + change (String.concat " " ((spaces k ++ b)%string :: g :: gs)) with ((spaces k ++ b) ++ " " ++ String.concat " " (g :: gs)%list).
        rewrite sapp_assoc. cbn [String.append]. split.
        * change (" " ++ String.concat " " (g :: gs)%list) with (String " "%char (String.concat " " (g :: gs)%list)). apply words_more; auto. cbn. tauto.
        * split; [constructor; assumption|]. split; repeat (apply every_app; split); auto; (split; [|assumption]);
            [intros [C|[]]; discriminate C|intros [C|[C|[]]]; discriminate C]. }
  eexists _, _. split; [reflexivity|]. exact H.
Qed.

Definition line_good (l : line) : Prop := match l with Text s => remark s | Row r => r <> [] /\ Forall good r | Image _ => False end.
Lemma lines_text lines : Forall line_good lines -> exists ls text all, file_text f lines = Ok text /\ text_of ls text /\ Forall single_line ls /\
  Forall2 numbers_line ls all /\ rows_in all = map (map rb) (file_rows lines).
Proof using All.
  intros F. unfold file_text.
  assert (exists ls all, mapM (line_text f) lines = Ok ls /\ Forall single_line ls /\ Forall2 numbers_line ls all /\ rows_in all = map (map rb) (file_rows lines)) as (ls & all & -> & H).
  { induction F as [|l lines Hl F IH]; [exists [], []; repeat split; constructor|].
    destruct IH as (ls & all & E & S & N & R). destruct l as [s|row|img]; [| |destruct Hl].
    - destruct Hl as [Hs Hc]. exists (s :: ls)%list, ([] :: all)%list. cbn [mapM line_text bind]. rewrite E. repeat split; try (constructor; assumption); auto.
      constructor; [|assumption]. exists []. split; [|constructor]. exists "", s. repeat split; [destruct Hc; auto|]. apply words_none. exact I.
    - destruct Hl as [Hn Hg]. destruct (row_words row Hg) as (s & ws & Es & W & V & H1 & H2).
      exists (s :: ls)%list, (map rb row :: all)%list. cbn [mapM line_text]. rewrite Es. cbn [bind]. rewrite E. split; [reflexivity|]. split; [constructor; assumption|]. split.
      + constructor; [|assumption]. exists ws. split.
        * exists s, "". rewrite sapp_nil. repeat split; auto.
        * clear - V. induction V; constructor; auto.
      + unfold rows_in in *. cbn. destruct row; [congruence|]. cbn. f_equal. exact R. }
  exists ls, (String.concat "" (map (fun s => s ++ newline) ls)), all. split; [reflexivity|]. split; [|exact H].
  clear. induction ls as [|l ls IH]; [constructor|]. destruct ls as [|l' ls'].
  - cbn. apply (text_cons l [] newline ""); [left; reflexivity|constructor].
  - change (text_of (l :: l' :: ls')%list ((l ++ newline) ++ "" ++ String.concat "" (map (fun s => s ++ newline) (l' :: ls')%list))).
    rewrite sapp_assoc. apply text_cons; [left; reflexivity|]. exact IH.
Qed.
Lemma file_read lines k : Forall line_good lines -> has_columns lines k ->
  exists text, file_text f lines = Ok text /\ genfromtxt text = Ok (map (map rb) (file_rows lines)).
Proof using All.
  intros F K. destruct (lines_text lines F) as (ls & text & all & E & T & S & N & R). exists text. split; [assumption|].
  destruct (genfromtxt_reads _ _ _ T S N) as [G _]. rewrite G, R; [reflexivity|]. rewrite R.
  assert (forall r, In r (map (map rb) (file_rows lines)) -> length r = k) as L.
  { intros r Hr. apply in_map_iff in Hr as (r0 & <- & Hr). rewrite map_length. apply K. unfold file_rows in Hr. apply in_flat_map in Hr as (l & Hl & Hr).
    destruct l; cbn in Hr; try tauto. destruct Hr as [->|[]]. assumption. }
  intros r r' H1 H2. rewrite (L r H1), (L r' H2). reflexivity.
Qed.
End Reading.

Lemma fixed_ok w p x : moderate x -> exists k b, number_text (Fixed w p) x = Ok (spaces k ++ b) /\ every plain b /\ b <> "" /\ float_text b (read_back p x).
Proof.
  intros M. destruct (number_float 0 p x M) as (s & E & V). cbn [number_text] in *. unfold pad in *. cbn in E. injection E as <-.
  eexists _, _. split; [reflexivity|]. destruct x as [r| | |]; cbn [read_back] in *.
  - destruct (fixed_plain p r). repeat split; auto.
  - repeat split; auto; try (apply plain_dec; reflexivity); discriminate.
  - repeat split; auto; try (apply plain_dec; reflexivity); discriminate.
  - repeat split; auto; try (apply plain_dec; reflexivity); discriminate.
Qed.
Lemma near_rows p rows : Forall2 (Forall2 (near p)) rows (map (map (read_back p)) rows).
Proof. induction rows as [|r rows IH]; cbn; constructor; [|assumption]. induction r; cbn; constructor; [apply read_back_near|assumption]. Qed.
Lemma file_read_fixed w p lines k : table_file lines -> has_columns lines k ->
  exists text rows, file_text (Fixed w p) lines = Ok text /\ genfromtxt text = Ok rows /\ Forall2 (Forall2 (near p)) (file_rows lines) rows.
Proof.
  intros T K. destruct (file_read (Fixed w p) moderate (read_back p) (fixed_ok w p) lines k T K) as (text & E & G).
  exists text, (map (map (read_back p)) (file_rows lines)). split; [assumption|]. split; [assumption|]. apply near_rows.
Qed.

(** whole numbers *)
Definition whole (x : xreal) : Prop := exists n, x = Fin (IZR n) /\ 0 <= n <= 10 ^ 300.
Lemma trunc_IZR z : 0 <= z -> trunc (IZR z) = z.
Proof.
  intros H. unfold trunc. apply IZR_le in H. destruct (Rlt_dec _ _); [lra|]. apply int_part_unique. lra.
Qed.
Lemma integer_ok x : whole x -> exists k b, number_text Integer x = Ok (spaces k ++ b) /\ every plain b /\ b <> "" /\ float_text b x.
Proof.
  intros (n & -> & Hn). exists O, (string_of_Z n). cbn [number_text spaces String.append]. rewrite trunc_IZR by lia. split; [reflexivity|].
  destruct (string_of_Z_run n ltac:(lia)) as (ds & R & V). split; [eapply run_plain, R|]. split; [eapply run_nonempty, R|].
  exists "", "", (string_of_Z n), "", 1. rewrite sapp_nil. repeat split; [left; auto|]. right. right. exists (string_of_Z n), "", ds, [], 0.
  rewrite sapp_nil. repeat split; [left; auto|left; auto|]. cbn [length number Z.of_nat Z.opp powerRZ]. rewrite V.
  replace (IZR 1 * (IZR n + 0 * 1) * 1)%R with (IZR n) by lra. left. split; [|reflexivity].
  pose proof big_limit as B. rewrite Rabs_right by (apply Rle_ge, IZR_le; lia). destruct Hn as [_ Hn]. apply IZR_le in Hn.
  replace (10 ^ 300) with (10 ^ Z.of_nat 300) in Hn by reflexivity. rewrite <- pow10_IZR in Hn. lra.
Qed.
Lemma file_read_whole lines k : Forall (line_good whole) lines -> has_columns lines k ->
  exists text, file_text Integer lines = Ok text /\ genfromtxt text = Ok (file_rows lines).
Proof.
  intros T K. destruct (file_read Integer whole (fun x => x) integer_ok lines k T K) as (text & E & G).
  exists text. split; [assumption|]. rewrite G. f_equal. rewrite <- (map_id (file_rows lines)) at 2. apply map_ext. intros r. apply map_id.
Qed.

(** ** C92: coefficient files *)
Lemma finite_row_Fin l : finite_row (map Fin l) = Some l.
Proof. induction l as [|x l IH]; [reflexivity|]. cbn. unfold finite_row in IH. now rewrite IH. Qed.
Lemma finite_rows_Fin rows : finite_rows (map (map Fin) rows) = Some rows.
Proof. induction rows as [|x l IH]; [reflexivity|]. cbn. unfold finite_rows in IH. now rewrite finite_row_Fin, IH. Qed.
Lemma coefficients_text text ls all rows n : text_of ls text -> Forall single_line ls -> Forall2 numbers_line ls all ->
  rows_in all = map (map Fin) rows -> (forall r r', In r rows -> In r' rows -> length r = length r') ->
  coefficients_from_text text n = Some (coefficients_from_file rows n).
Proof.
  intros T S N R L. unfold coefficients_from_text. destruct (genfromtxt_reads _ _ _ T S N) as [G _]. rewrite G, R, finite_rows_Fin; [reflexivity|].
  rewrite R. intros r r' H1 H2. apply in_map_iff in H1 as (a & <- & Ha). apply in_map_iff in H2 as (b & <- & Hb). rewrite !map_length. now apply L.
Qed.
