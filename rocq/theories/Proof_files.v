(** Proofs about single file operations (C48, C55) *)
From Coq Require Import Lia DecimalString.
From Verif Require Import PyBase Model_xr Model_input Proof_base Proof_input Model_files Spec_files.
Open Scope string_scope.
Open Scope Z_scope.
Open Scope list_scope.
Ltac Zify.zify_post_hook ::= idtac.

(** * The file system *)
Lemma get_del_same fs n : fs_get (fs_del fs n) n = None.
Proof.
  unfold fs_get, fs_del. induction fs as [|[k v] fs IH]; [reflexivity|]. cbn [filter fst].
  destruct (String.eqb_spec k n); cbn [negb]; [exact IH|]. cbn [assoc]. destruct (String.eqb_spec k n); [contradiction|exact IH].
Qed.
Lemma get_del_other fs n m : m <> n -> fs_get (fs_del fs n) m = fs_get fs m.
Proof.
  intro H. unfold fs_get, fs_del. induction fs as [|[k v] fs IH]; [reflexivity|]. cbn [filter fst].
  destruct (String.eqb_spec k n) as [->|Hk]; cbn [negb assoc].
  - destruct (String.eqb_spec n m); [congruence|exact IH].
  - destruct (String.eqb_spec k m); [reflexivity|exact IH].
Qed.
Lemma get_set_same fs n c : fs_get (fs_set fs n c) n = Some c.
Proof. unfold fs_get, fs_set. cbn [assoc]. now rewrite String.eqb_refl. Qed.
Lemma get_set_other fs n m c : m <> n -> fs_get (fs_set fs n c) m = fs_get fs m.
Proof.
  intro H. unfold fs_set. unfold fs_get at 1. cbn [assoc]. destruct (String.eqb_spec n m); [congruence|]. now apply get_del_other.
Qed.
Lemma exists_spec fs n : fs_exists fs n = true <-> fs_get fs n <> None.
Proof. unfold fs_exists. destruct (fs_get fs n); split; congruence. Qed.
Lemma get_in fs n c : fs_get fs n = Some c -> In n (map fst fs).
Proof.
  unfold fs_get. induction fs as [|[k v] fs IH]; [discriminate|]. cbn [assoc map fst].
  destruct (String.eqb_spec k n); [now left|]. intro H. right. auto.
Qed.

(** * Backup names *)
Lemma str_app_assoc a b c : ((a ++ b) ++ c = a ++ (b ++ c))%string.
Proof. induction a as [|x a IH]; [reflexivity|]. cbn. now rewrite IH. Qed.
Lemma backup_name_inj name n m : backup_name name n = backup_name name m -> n = m.
Proof.
  unfold backup_name. destruct (path_split name) as [d f]. unfold path_join.
  assert (E : forall p, (p ++ ("bck." ++ string_of_nat n ++ "." ++ f) = p ++ ("bck." ++ string_of_nat m ++ "." ++ f))%string -> n = m).
  { intros p H. apply append_inj_l, append_inj_l, append_inj_r in H. now apply string_of_nat_inj. }
  destruct (String.eqb d ""); [apply (E "")|]. destruct (String.eqb _ ""); [apply E|].
  rewrite <- !str_app_assoc. intro H. apply (E (d ++ "/")%string). now rewrite <- !str_app_assoc.
Qed.

Lemma free_backup_spec fuel fs name n :
  match free_backup fuel fs name n with
  | Ok k => (n <= k)%nat /\ fs_get fs (backup_name name k) = None /\
            forall j, (n <= j < k)%nat -> fs_get fs (backup_name name j) <> None
  | Err ex => ex = NoTermination /\ forall j, (n <= j < n + fuel)%nat -> fs_get fs (backup_name name j) <> None
  end.
Proof.
  revert n. induction fuel as [|fuel IH]; intro n; cbn [free_backup]; [split; [reflexivity|intros; lia]|].
  destruct (fs_exists fs (backup_name name n)) eqn:E.
  - specialize (IH (S n)). apply exists_spec in E. destruct (free_backup fuel fs name (S n)) as [k|x].
    + destruct IH as (Hk & Hf & Hj). split; [lia|]. split; [exact Hf|]. intros j Hjk.
      destruct (Nat.eq_dec j n) as [->|]; [exact E|]. apply Hj. lia.
    + destruct IH as (-> & Hj). split; [reflexivity|]. intros j Hjk. destruct (Nat.eq_dec j n) as [->|]; [exact E|]. apply Hj. lia.
  - split; [lia|]. split; [|intros; lia]. unfold fs_exists in E. destruct (fs_get fs (backup_name name n)); congruence.
Qed.
(** the loop ends *)
Lemma free_backup_total fs name : exists k, free_backup (S (length fs)) fs name 0 = Ok k /\
  fs_get fs (backup_name name k) = None /\ forall j, (j < k)%nat -> fs_get fs (backup_name name j) <> None.
Proof.
  pose proof (free_backup_spec (S (length fs)) fs name 0) as H.
  destruct (free_backup (S (length fs)) fs name 0) as [k|ex].
  - destruct H as (_ & Hf & Hj). exists k. split; [reflexivity|]. split; [exact Hf|]. intros j Hjk. apply Hj. lia.
  - exfalso. destruct H as (_ & H).
    assert (Hin : incl (map (backup_name name) (seq 0 (S (length fs)))) (map fst fs)).
    { intros x Hx. apply in_map_iff in Hx. destruct Hx as (j & <- & Hj). apply in_seq in Hj.
      specialize (H j ltac:(lia)). destruct (fs_get fs (backup_name name j)) eqn:E; [|congruence]. eapply get_in; eassumption. }
    apply NoDup_incl_length in Hin.
    + rewrite !map_length, seq_length in Hin. lia.
    + apply FinFun.Injective_map_NoDup; [|apply seq_NoDup]. intros a b. apply backup_name_inj.
Qed.

(** * C48: one operation *)
Lemma backup_missing fe fs name : fs_get fs name = None -> backup_if_exists fe fs name = (fs, Ok tt).
Proof. unfold backup_if_exists. now intros ->. Qed.
Lemma backup_existing fe fs name content : fs_get fs name = Some content ->
  exists n, fs_get fs (backup_name name n) = None /\
    (forall j, (j < n)%nat -> fs_get fs (backup_name name j) <> None) /\
    (fe_ok fe (backup_name name n) = false -> backup_if_exists fe fs name = (fs, Err OSError)) /\
    (fe_ok fe (backup_name name n) = true -> exists fs', backup_if_exists fe fs name = (fs', Ok tt) /\
      fs_get fs' (backup_name name n) = Some content /\ fs_get fs' name = None /\
      unchanged_except [name; backup_name name n] fs fs').
Proof.
  intro H. destruct (free_backup_total fs name) as (n & En & Hn & Hj). exists n. split; [exact Hn|]. split; [exact Hj|].
  unfold backup_if_exists. rewrite H, En. split; intros ->; [reflexivity|].
  eexists. split; [reflexivity|]. split; [apply get_set_same|]. split.
  - rewrite get_set_other by congruence. apply get_del_same.
  - intros f Hf. rewrite get_set_other, get_del_other; [reflexivity| |]; intros ->; apply Hf; cbn; auto.
Qed.

(** ** The name of the backup *)
Lemma has_char_app a s t : has_char a (s ++ t) = has_char a s || has_char a t.
Proof. induction s as [|c s IH]; [reflexivity|]. cbn. rewrite IH. now rewrite Bool.orb_assoc. Qed.
Lemma after_last_none a s : has_char a s = false -> after_last a s = s.
Proof. destruct s as [|c t]; [reflexivity|]. intro H. cbn [after_last]. now rewrite H. Qed.
Lemma after_last_sep a p f : has_char a f = false -> after_last a (p ++ String a f) = f.
Proof.
  intro H. induction p as [|c p IH].
  - cbn [append after_last has_char]. rewrite Ascii.eqb_refl. cbn [orb]. now apply after_last_none.
  - cbn [append after_last has_char]. rewrite has_char_app. cbn [has_char]. rewrite Ascii.eqb_refl, Bool.orb_true_r, Bool.orb_true_r.
    exact IH.
Qed.
Lemma after_last_nonempty a p c : c <> a -> after_last a (p ++ String c "") <> "".
Proof.
  intro H. induction p as [|x p IH].
  - cbn [append after_last has_char]. destruct (Ascii.eqb_spec c a); [contradiction|]. discriminate.
  - cbn [append after_last]. destruct (has_char a _); [exact IH|discriminate].
Qed.
Lemma substring_prefix d f : substring 0 (String.length d) (d ++ f) = d.
Proof. induction d as [|c d IH]; cbn; [now destruct f|]. now rewrite IH. Qed.
Lemma drop_end_app d f : drop_end (String.length f) (d ++ f) = d.
Proof.
  unfold drop_end. rewrite length_append. replace (String.length d + String.length f - String.length f)%nat with (String.length d) by lia.
  apply substring_prefix.
Qed.
Lemma rstrip_sep a p c : c <> a -> rstrip a (p ++ String c (String a "")) = (p ++ String c "")%string.
Proof.
  intro H. induction p as [|x p IH].
  - cbn [append rstrip]. rewrite Ascii.eqb_refl. destruct (Ascii.eqb_spec c a); [contradiction|]. reflexivity.
  - cbn [append rstrip]. rewrite IH. destruct p; reflexivity.
Qed.
Lemma backup_name_of d f n : directory d -> no_slash f -> backup_name (d ++ f) n = (d ++ bck n f)%string.
Proof.
  unfold directory, no_slash, backup_name, path_split, bck. intros Hd Hf.
  destruct Hd as [->|[->|(d' & c & -> & Hc)]].
  - cbn [append]. rewrite (after_last_none _ _ Hf). assert (E : drop_end (String.length f) f = "") by apply (drop_end_app "" f).
    rewrite E. reflexivity.
  - assert (E : after_last "/" ("/" ++ f) = f) by apply (after_last_sep "/" "" f Hf). rewrite E, drop_end_app. reflexivity.
  - assert (E : after_last "/" ((d' ++ String c "/") ++ f) = f).
    { rewrite str_app_assoc. cbn [append]. change (String c (String "/" f)) with (String c "" ++ String "/" f)%string.
      rewrite <- str_app_assoc. now apply after_last_sep. }
    rewrite E, drop_end_app, rstrip_sep by exact Hc.
    assert (D : exists x y, (d' ++ String c "")%string = String x y) by (destruct d'; cbn; eauto).
    destruct D as (x & y & D). rewrite D. unfold path_join. cbn [String.eqb]. rewrite <- D.
    destruct (String.eqb_spec (after_last "/" (d' ++ String c "")) ""); [exfalso; eapply after_last_nonempty; eassumption|].
    rewrite !str_app_assoc. reflexivity.
Qed.

Lemma backup_ok fe fs d f content : writable fe -> directory d -> no_slash f -> fs_get fs (d ++ f) = Some content ->
  exists n fs', backup_if_exists fe fs (d ++ f) = (fs', Ok tt) /\
    fs_get fs (d ++ bck n f) = None /\ (forall j, (j < n)%nat -> fs_get fs (d ++ bck j f) <> None) /\
    fs_get fs' (d ++ bck n f) = Some content /\ fs_get fs' (d ++ f) = None /\
    unchanged_except [(d ++ f)%string; (d ++ bck n f)%string] fs fs'.
Proof.
  intros Hok Hd Hf Hc. destruct (backup_existing fe fs (d ++ f) content Hc) as (n & Hn & Hj & _ & H).
  rewrite (backup_name_of d f n Hd Hf) in *. destruct (H (Hok _)) as (fs' & E & H1 & H2 & H3).
  exists n, fs'. split; [exact E|]. split; [exact Hn|]. split; [|auto].
  intros j Hjn. rewrite <- (backup_name_of d f j Hd Hf). auto.
Qed.

(** writing a new file after a backup *)
Lemma replace_spec fe fs name new : writable fe ->
  exists fs1 fs', backup_if_exists fe fs name = (fs1, Ok tt) /\ fs_get fs1 name = None /\
    write_file fe fs1 name new = (fs', Ok tt) /\ fs_get fs' name = Some new /\
    (forall f, f <> name -> fs_get fs f <> None -> fs_get fs' f = fs_get fs f) /\
    match fs_get fs name with
    | None => unchanged_except [name] fs fs'
    | Some content => exists b, fs_get fs b = None /\ fs_get fs' b = Some content /\ unchanged_except [name; b] fs fs'
    end.
Proof.
  intro Hok. destruct (fs_get fs name) as [content|] eqn:E.
  - destruct (backup_existing fe fs name content E) as (n & Hn & Hj & _ & H). destruct (H (Hok _)) as (fs1 & E1 & H1 & H2 & H3).
    exists fs1. unfold write_file. rewrite (Hok name). eexists. split; [exact E1|]. split; [exact H2|]. split; [reflexivity|].
    split; [apply get_set_same|]. assert (Hb : backup_name name n <> name) by congruence.
    assert (U : unchanged_except [name; backup_name name n] fs (fs_set fs1 name new)).
    { intros f Hf. rewrite get_set_other by (intros ->; apply Hf; cbn; auto). apply H3. exact Hf. }
    split.
    + intros f Hf Hx. apply U. intros [<-|[<-|[]]]; contradiction.
    + exists (backup_name name n). split; [exact Hn|]. split; [|exact U]. rewrite get_set_other by exact Hb. exact H1.
  - exists fs. unfold write_file. rewrite (Hok name). eexists. split; [now apply backup_missing|]. split; [exact E|]. split; [reflexivity|].
    split; [apply get_set_same|]. split; [intros f Hf _; now apply get_set_other|].
    intros f Hf. apply get_set_other. intros ->. apply Hf. cbn. auto.
Qed.
Lemma initialize_ok fe fs name fields constants : writable fe -> fields <> [] ->
  exists fs', initialize_file fe fs name fields constants = (fs', Ok tt) /\
    fs_get fs' name = Some (header_of fields constants) /\
    (forall f, f <> name -> fs_get fs f <> None -> fs_get fs' f = fs_get fs f) /\
    match fs_get fs name with
    | None => unchanged_except [name] fs fs'
    | Some content => exists b, fs_get fs b = None /\ fs_get fs' b = Some content /\ unchanged_except [name; b] fs fs'
    end.
Proof.
  intros Hok Hf. destruct (replace_spec fe fs name (header_of fields constants) Hok) as (fs1 & fs' & E1 & _ & E2 & H).
  exists fs'. split; [|exact H]. unfold initialize_file. rewrite E1. destruct fields as [|x l]; [contradiction|].
  unfold header_of in E2. unfold header_lines. cbn [map]. rewrite map_map. exact E2.
Qed.
