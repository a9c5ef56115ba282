(** Examples of numbers and tables as text, properties C90 to C92 *)
From Coq Require Import Lia Lra.
From Verif Require Import PyBase Model_xr Model_input Spec_input Model_ini Model_dyn Model_grid Model_pot Model_main Model_files Model_text Spec_grid Spec_pot Spec_rng Spec_setup Spec_main Spec_whole Spec_files Spec_ini Spec_text
  Proof_pot Proof_ini Proof_ini2 Proof_ini3 Proof_files10 Proof_files11 Proof_text Proof_text2 Proof_text3 Proof_text4.
Open Scope string_scope.
Open Scope Z_scope.
Open Scope list_scope.
Ltac Zify.zify_post_hook ::= idtac.

Lemma default_format : write_format None = Some (Fixed 14 9) /\ write_format (Some "") = Some (Fixed 14 9) /\ write_format (Some "%.3f") = Some (Fixed 0 3) /\
  stats_format = Some Integer /\ format_of "%8.4g" = None /\ format_of "%08.3f" = None.
Proof. repeat split; reflexivity. Qed.
Lemma number_read w p x : moderate x -> exists s y, number_text (Fixed w p) x = Ok s /\ float_text s y /\ near p x y /\ (w <= String.length s)%nat.
Proof.
  intros M. destruct (number_float w p x M) as (s & E & F). exists s, (read_back p x). split; [assumption|]. split; [assumption|]. split; [apply read_back_near|].
  cbn [number_text] in E. injection E as <-. rewrite length_pad. lia.
Qed.
Lemma number_exact w p x z : (Rabs x <= 10 ^ 300)%R -> (x * 10 ^ p = IZR z)%R -> exists s, number_text (Fixed w p) (Fin x) = Ok s /\ float_text s (Fin x).
Proof. intros M H. destruct (number_float w p (Fin x) M) as (s & E & F). cbn [read_back] in F. rewrite (shown_exact _ _ _ H) in F. eauto. Qed.
Lemma number_ordered w p x y s t a b : (Rabs x <= 10 ^ 300)%R -> (Rabs y <= 10 ^ 300)%R -> (x <= y)%R ->
  number_text (Fixed w p) (Fin x) = Ok s -> number_text (Fixed w p) (Fin y) = Ok t -> float_text s (Fin a) -> float_text t (Fin b) -> (a <= b)%R.
Proof.
  intros Mx My H Es Et Fa Fb. destruct (number_float w p (Fin x) Mx) as (s' & E1 & F1). destruct (number_float w p (Fin y) My) as (t' & E2 & F2).
  rewrite Es in E1. injection E1 as <-. rewrite Et in E2. injection E2 as <-. pose proof (float_text_fun _ _ _ Fa F1) as E1. pose proof (float_text_fun _ _ _ Fb F2) as E2.
  cbn [read_back] in E1, E2. injection E1 as ->. injection E2 as ->. now apply shown_mono.
Qed.
Lemma round_even_is x k : (Rabs (x - IZR k) < / 2)%R -> round_even x = k.
Proof.
  intros H. pose proof (round_even_near x) as N. apply Rabs_bounds in N. apply Rabs_def2 in H.
  assert (round_even x < k + 1) by (apply lt_IZR; rewrite plus_IZR; lra). assert (k < round_even x + 1) by (apply lt_IZR; rewrite plus_IZR; lra). lia.
Qed.
Lemma third_text : number_text (Fixed 14 9) (Fin (-1/3)) = Ok "  -0.333333333".
Proof.
  cbn [number_text]. unfold fixed_text. rewrite (round_even_is _ 333333333).
  - destruct (Rlt_dec (-1/3) 0); [reflexivity|lra].
  - rewrite (Rabs_left (-1/3)) by lra. rewrite Rabs_right; lra.
Qed.
Lemma whole_text : number_text (Fixed 14 9) (Fin 20) = Ok "  20.000000000" /\ number_text (Fixed 14 9) (Fin (-1/10^10)) = Ok "  -0.000000000" /\ number_text (Fixed 14 9) PInf = Ok "           inf" /\
  row_text (Fixed 14 9) [Fin 20; NaN] = Ok "  20.000000000            nan".
Proof.
  assert (number_text (Fixed 14 9) (Fin 20) = Ok "  20.000000000") as E.
  { cbn [number_text]. unfold fixed_text. rewrite (round_even_is _ 20000000000).
    - destruct (Rlt_dec 20 0); [lra|reflexivity].
    - rewrite (Rabs_right 20) by lra. rewrite Rabs_right; lra. }
  split; [exact E|]. split; [|split; [reflexivity|]].
  - cbn [number_text]. unfold fixed_text. rewrite (round_even_is _ 0).
    + destruct (Rlt_dec _ 0); [reflexivity|lra].
    + rewrite (Rabs_left (-1/10^10)) by lra. rewrite Rabs_right; lra.
  - unfold row_text. cbn [mapM]. rewrite E. reflexivity.
Qed.
Lemma times_refuted : exists dt i j, (0 < dt)%R /\ i <> j /\ number_text (Fixed 14 9) (Fin (INR i * dt)) = number_text (Fixed 14 9) (Fin (INR j * dt)).
Proof. exists (1/10^10)%R, 1%nat, 2%nat. split; [lra|]. split; [discriminate|]. apply times_equal; cbn [INR]; lra. Qed.

(** a coefficient file *)
Definition coefficient_text : string := ("# order coefficient" ++ newline ++ " 0   5.5" ++ newline ++ newline ++ " 2  -1  # negative" ++ newline ++ "4 2.5e-1")%string.
Definition coefficient_rows : list (list nat * R * list R) := [([0]%nat, 55/10, []); ([2]%nat, -1, []); ([4]%nat, 25/100, [])]%R.
Lemma in_range x : (Rabs x <= 10)%R -> to_double x = Fin x.
Proof.
  intros H. apply to_double_all. left. split; [|reflexivity]. pose proof big_limit. assert (10 <= 10 ^ 300)%R; [|lra].
  replace 10%R with (10 ^ 1)%R at 1 by lra. apply Rle_pow; [lra|lia].
Qed.
Lemma to_double_is r v : r = v -> (-10 <= v <= 10)%R -> to_double r = Fin v.
Proof. intros -> H. apply in_range, Rabs_le. exact H. Qed.
Ltac loose := unfold loose_float; cbn -[to_double powerRZ]; apply to_double_is; [simpl; lra|lra].
Lemma coefficient_case : exists ls all, text_of ls coefficient_text /\ Forall single_line ls /\ Forall2 numbers_line ls all /\
  rows_in all = map (fun l => map Fin (line_numbers l)) coefficient_rows /\ genfromtxt coefficient_text = Ok [[Fin 0; Fin (55/10)]; [Fin 2; Fin (-1)]; [Fin 4; Fin (25/100)]].
Proof.
  assert (loose_float "0" = Fin 0) as E0. { loose. }
  assert (loose_float "5.5" = Fin (55/10)) as E1. { loose. }
  assert (loose_float "2" = Fin 2) as E2. { loose. }
  assert (loose_float "-1" = Fin (-1)) as E3. { loose. }
  assert (loose_float "4" = Fin 4) as E4. { loose. }
  assert (loose_float "2.5e-1" = Fin (25/100)) as E5. { loose. }
  set (ls := ["# order coefficient"; " 0   5.5"; ""; " 2  -1  # negative"; "4 2.5e-1"]).
  exists ls, (map (fun l => map loose_float (line_words l)) ls).
  assert (forall l, Forall2 numbers_line l (map (fun l => map loose_float (line_words l)) l)) as N.
  { induction l; constructor; [now apply numbers_line_eq|assumption]. }
  split. { unfold ls, coefficient_text. do 2 (apply text_cons; [left; reflexivity|]). apply (text_cons "" _ newline); [left; reflexivity|]. apply text_cons; [left; reflexivity|]. apply text_last. discriminate. }
  split. { unfold ls. singles. }
  split; [apply N|].
  assert (map line_words ls = [[]; ["0"; "5.5"]; []; ["2"; "-1"]; ["4"; "2.5e-1"]]) as W by reflexivity.
  split.
  - rewrite <- (map_map line_words (map loose_float)), W. cbn [map rows_in filter]. rewrite E0, E1, E2, E3, E4, E5. unfold line_numbers, coefficient_rows. cbn. repeat f_equal; lra.
  - unfold genfromtxt. assert (text_lines coefficient_text = ls) as -> by reflexivity. rewrite W. cbn [filter forallb length Nat.eqb andb map]. now rewrite E0, E1, E2, E3, E4, E5.
Qed.
Lemma coefficient_potential text ls all lines n ranges bc : text_of ls text -> Forall single_line ls -> Forall2 numbers_line ls all ->
  rows_in all = map (fun l => map Fin (line_numbers l)) lines ->
  (1 <= n <= 3)%nat -> (2 <= length lines)%nat -> Forall (fun l => length (orders l) = n) lines ->
  (forall l l', In l lines -> In l' lines -> length (snd l) = length (snd l')) ->
  exists coeffs pot, coefficients_from_text text n = Some (Ok coeffs) /\ poly_init coeffs ranges bc = Ok pot /\
    pot_ndim pot = n /\ forall pos, length pos = n ->
      pot_energy pot pos = nsum (map (fun d => S (highest lines d)) (seq 0 n))
        (fun idx => match listed lines idx with Some v => v | None => 0 end * monomial pos idx)%R /\
      is_minus_gradient (pot_energy pot) pos (pot_force pot pos).
Proof.
  intros T S N R Hn Hl Ho He. destruct (file_potential lines n ranges bc Hn Hl Ho He) as (coeffs & pot & E & H). exists coeffs, pot. split; [|exact H].
  rewrite <- E. eapply coefficients_text; [exact T|exact S|exact N|now rewrite map_map|].
  intros r r' H1 H2. apply in_map_iff in H1 as (a & <- & Ha). apply in_map_iff in H2 as (b & <- & Hb). unfold line_numbers.
  rewrite Forall_forall in Ho. pose proof (Ho a Ha) as La. pose proof (Ho b Hb) as Lb. pose proof (He a b Ha Hb).
  destruct a as [[oa va] ra], b as [[ob vb] rb]. cbn in *. rewrite !app_length, !map_length. cbn. lia.
Qed.
Lemma run_case : exists w0 w c, set_up shaped_env demo_conv all_outputs all_actions 4 w0 /\ main shaped_env demo_conv (Some (Ok all_outputs)) = Finished w /\
  parse_all demo_conv all_outputs = Ok c /\ rng_ok (e_rng shaped_env) /\ w_ps w0 <> [] /\
  (pot_bc (ld_pot (w_ld w0)) = None \/ length (pot_ranges (ld_pot (w_ld w0))) = pot_ndim (ld_pot (w_ld w0))) /\ array_shapes shaped_env w0 /\ plain_texts plain_files /\
  map fst (output_files shaped_env plain_files c w) = ["traj.0"; "traj.1"; "traj.2"; "traj.3"; "hist"; "fes"; "delta_f"; "dist"].
Proof.
  destruct all_outputs_files as (w0 & w & c & HS & HR & HA & HF & HC & _ & _ & N & _). exists w0, w, c. destruct HR as [Rr Rw Rg Rx Rp].
  split; [exact HS|]. split; [exact HF|]. split; [exact HC|]. split; [exact Rr|]. split; [exact Rw|]. split; [|split; [exact HA|split; [|exact N]]].
  - exact Rg.
  - split; intros; single.
Qed.
