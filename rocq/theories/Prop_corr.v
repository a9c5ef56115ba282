(** Properties of the integration and the grids of the birth-death corrections: C37, C38 *)
From Coq Require Import Lra Lia.
From Verif Require Import PyBase Model_dyn Model_grid Model_potgrid Model_corr Spec_grid Spec_gridops Proof_grid Proof_grid2.
Open Scope R_scope.

(** C37: the integral exists for all data ... *)
Theorem C37_total :
  forall shape dx flat, length dx = length shape -> length flat = size shape ->
  exists v, integral_is shape dx flat v.
Proof. exact nd_trapz_total. Qed.
Print Assumptions C37_total.
(** ... is linear ... *)
Theorem C37_linear :
  forall shape dx a b f g vf vg, length dx = length shape -> length f = size shape -> length g = size shape ->
  integral_is shape dx f vf -> integral_is shape dx g vg ->
  integral_is shape dx (map (fun xy => a * fst xy + b * snd xy) (combine f g)) (a * vf + b * vg).
Proof. exact nd_trapz_linear. Qed.
Print Assumptions C37_linear.
(** ... is the volume for constant data ... *)
Theorem C37_constant :
  forall shape dx c, length dx = length shape -> Forall (fun n => (1 <= n)%nat) shape ->
  integral_is shape dx (repeat c (size shape)) (c * box_volume dx shape).
Proof. exact nd_trapz_const. Qed.
Print Assumptions C37_constant.
(** ... and exact for products of affine functions of the coordinates, hence by linearity for
    all functions linear in each coordinate.  [fs] has (a, b, lo, dx) per dimension. *)
Theorem C37_multilinear :
  forall shape fs, length fs = length shape -> Forall (fun n => (1 <= n)%nat) shape ->
  forall flat, length flat = size shape ->
  (forall idx, in_shape shape idx -> entry shape flat idx = affine_product fs idx) ->
  integral_is shape (map (fun q => snd q) fs) flat (affine_product_integral fs shape).
Proof. exact nd_trapz_affine. Qed.
Print Assumptions C37_multilinear.

Example C37_case : (* f(x, y) = x (1 - y) on a 2 x 3 grid *)
  let fs := [(0, 1, 0, 1); (1, -1, 0, 1/2)] in let shape := [2; 3]%nat in
  length fs = length shape /\ Forall (fun n => (1 <= n)%nat) shape /\
  (forall idx, in_shape shape idx -> entry shape [0; 0; 0; 1; 1/2; 0] idx = affine_product fs idx) /\
  affine_product_integral fs shape = 1/4.
Proof.
  cbv zeta. split; [reflexivity|]. split; [repeat constructor|]. split.
  - intros idx H. inversion H as [|? i ? t Hi Ht]; subst. inversion Ht as [|? j ? t' Hj Ht']; subst. inversion Ht'; subst.
    destruct i as [|[|i]]; [| |lia]; (destruct j as [|[|[|j]]]; [| | |lia]); unfold entry; cbn; lra.
  - unfold affine_product_integral, affine_integral; cbn. lra.
Qed.

(** C38 *)
Theorem C38_kernel_grid :
  forall pot bw kt,
  length (pot_ranges pot) = pot_ndim pot -> length bw = pot_ndim pot ->
  increasing (pot_ranges pot) -> Forall (fun b => 0 < b) bw -> 0 < kt ->
  exists g, bd_prob_density pot bw kt = Ok g /\
    length (g_npoints g) = pot_ndim pot /\
    Forall (fun n => (501 <= n)%nat /\ Nat.odd n = true) (g_npoints g) /\
    forall m, exists k, dens_kernel_convolution g bw m = convolve g k m /\
      g_steps k = g_steps g /\ length (axes k) = pot_ndim pot /\
      forall d, (d < pot_ndim pot)%nat ->
        (20 <= length (nth d (axes k) []))%nat /\
        forall i, (i < 20)%nat -> - (5 * nth d bw 0) <= nth i (nth d (axes k) []) 0 <= 5 * nth d bw 0.
Proof. exact kernel_fine_enough. Qed.
Print Assumptions C38_kernel_grid.
(** with too few bandwidths there is no density grid *)
Theorem C38_few_bandwidths :
  forall pot bw kt, (length bw < length (pot_ranges pot))%nat -> bd_prob_density pot bw kt = Err IndexError.
Proof. exact bd_density_short. Qed.
Print Assumptions C38_few_bandwidths.

Example C38_case : exists pot : potential, length (pot_ranges pot) = pot_ndim pot /\ length [1/10; 1/2] = pot_ndim pot /\
  increasing (pot_ranges pot) /\ Forall (fun b => 0 < b) [1/10; 1/2].
Proof.
  exists (mkPot 2 [(-3, 3); (-2, 2)] (fun _ => 0) (fun _ => []) None). cbn. repeat split; repeat constructor; cbn; lra.
Qed.
