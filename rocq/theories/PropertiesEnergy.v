(** * Property C59: the operator is a symmetric, non-negative form *)

From Coq Require Import QArith Qcanon.
From Verif Require Import Base ModelBounds ModelMatrix ModelIters ModelSpan ModelProxy Spec SpecAssign FortranBase SpecKernel SpecRow
  SpecEnergy Instances KernelsFlux KernelsApply LemForm PropertiesStencilKernels.
Import ListNotations.
Open Scope Z_scope.

(** For the examples: the entry of an array, whether entries exist, a number as
    (numerator, denominator), a memory whose allocation 4 holds [u] and whose other
    allocations are positive. *)
Definition ex_en_val (m : mem QcS) (a : farray) (ix : list Z) : QcS :=
  match load m (faddr a ix) with Some x => x | None => lit 0 end.
Definition ex_en_ok (m : mem QcS) (a : farray) (ix : list (list Z)) : bool :=
  forallb (fun i => match load m (faddr a i) with Some _ => true | None => false end) ix.
Definition ex_en_num (x : QcS) : Z * Z := (Qnum (this x), Zpos (Qden (this x))).
Definition ex_en_cells (n : nat) (u : list Z) : mem QcS :=
  mkMem (map (fun a => if Nat.eqb a 4 then map (fun x => lit x : QcS) u
    else map (fun k => (lit (Z.of_nat (k * k + 3 * a * k + 1)) : QcS)) (seq 0 n)) (seq 0 10)) [].
Definition ex_en_nonneg (m : mem QcS) : bool :=
  forallb (fun a => forallb (fun x => Qle_bool 0 (this x)) (nth a (cells m) [])) [0; 1; 2; 3]%nat.

(** ** Against a test function

    [r]: the operator of the solution [w], computed by the fluxes and the operator
    kernel; [z]: any grid function.  The right-hand side is symmetric in [w] and [z]
    apart from the two outer faces of each grid line, where the flux of [w] enters. *)

Theorem C59_weak_v1_1d : forall (S : Scalar), field_laws S ->
  forall i0 i1 dx beta b0 gcw u f0 alpha agcw a rgcw res (m mo : mem S) r w c v0 z,
  i0 <= i1 -> 0 <= gcw -> 0 <= rgcw ->
  apart f0 [b0; a; u] -> apart res [f0; a; u] ->
  (m' <- cdf_1d_flux i0 i1 dx b0 gcw u f0 m ;;
   cd_apply_1d_diffusion_v1_apply i0 i1 alpha beta dx agcw a gcw u f0 rgcw res m') = Some mo ->
  (forall i, i0 <= i <= i1 -> ((mkFa res (CELL1d i0 i1 rgcw))!(i))%F mo = Some (r i)) ->
  (forall i, i0 - 1 <= i <= i1 + 1 -> ((mkFa u (CELL1d i0 i1 gcw))!(i))%F m = Some (w i)) ->
  (forall i, i0 <= i <= i1 -> ((mkFa a (CELL1d i0 i1 agcw))!(i))%F m = Some (c i)) ->
  (forall i, i0 <= i <= i1 + 1 -> ((mkFa b0 (FACE1d i0 i1 0))!(i))%F m = Some (v0 i)) ->
  (total i0 i1 (fun i => r i * z i))%T =
  (beta * (line i0 i1 (dx 0) v0 w z) + alpha * total i0 i1 (fun i => c i * w i * z i))%T.
Proof. exact @weak_v1_1d. Qed.
Print Assumptions C59_weak_v1_1d.

Example C59_weak_v1_1d_example :
  apart (5%nat, 0) [(0%nat, 0); (3%nat, 0); (4%nat, 0)] /\
  apart (8%nat, 0) [(5%nat, 0); (3%nat, 0); (4%nat, 0)] /\
  (let m := ex_st_cells 20 in
   match (m' <- cdf_1d_flux 0 1 ex_st_h (0%nat, 0) 1 (4%nat, 0) (5%nat, 0) m ;; cd_apply_1d_diffusion_v1_apply 0 1 (lit 5) (lit 3) ex_st_h 1 (3%nat, 0) 1 (4%nat, 0) (5%nat, 0) 0 (8%nat, 0) m') with
   | Some mo =>
     let r := (fun i => ex_en_val mo (mkFa (8%nat, 0) (CELL1d 0 1 0)) [i]) in let w := (fun i => ex_en_val m (mkFa (4%nat, 0) (CELL1d 0 1 1)) [i]) in let c := (fun i => ex_en_val m (mkFa (3%nat, 0) (CELL1d 0 1 1)) [i]) in let v0 := (fun i => ex_en_val m (mkFa (0%nat, 0) (FACE1d 0 1 0)) [i]) in let z := (fun i => lit (1 * i * i + 1) : QcS) in
     (ex_en_ok mo (mkFa (8%nat, 0) (CELL1d 0 1 0)) [[0]; [1]] && ex_en_ok m (mkFa (4%nat, 0) (CELL1d 0 1 1)) [[-1]; [0]; [1]; [2]] && ex_en_ok m (mkFa (3%nat, 0) (CELL1d 0 1 1)) [[0]; [1]] && ex_en_ok m (mkFa (0%nat, 0) (FACE1d 0 1 0)) [[0]; [1]; [2]],
      ex_en_num (total 0 1 (fun i => r i * z i))%T,
      ex_en_num ((lit 3) * (line 0 1 (ex_st_h 0) v0 w z) + (lit 5) * total 0 1 (fun i => c i * w i * z i))%T)
   | None => (false, (0, 0), (0, 0)) end) = (true, (29379, 4), (29379, 4)).
Proof. split; [repeat constructor; discriminate|]. split; [repeat constructor; discriminate|]. vm_compute. reflexivity. Qed.

Theorem C59_weak_v2_1d : forall (S : Scalar), field_laws S ->
  forall i0 i1 dx beta b0 gcw u f0 alpha rgcw res (m mo : mem S) r w v0 z,
  i0 <= i1 -> 0 <= gcw -> 0 <= rgcw ->
  apart f0 [b0; u] -> apart res [f0; u] ->
  (m' <- cdf_1d_flux i0 i1 dx b0 gcw u f0 m ;;
   cd_apply_1d_diffusion_v2_apply i0 i1 alpha beta dx gcw u f0 rgcw res m') = Some mo ->
  (forall i, i0 <= i <= i1 -> ((mkFa res (CELL1d i0 i1 rgcw))!(i))%F mo = Some (r i)) ->
  (forall i, i0 - 1 <= i <= i1 + 1 -> ((mkFa u (CELL1d i0 i1 gcw))!(i))%F m = Some (w i)) ->
  (forall i, i0 <= i <= i1 + 1 -> ((mkFa b0 (FACE1d i0 i1 0))!(i))%F m = Some (v0 i)) ->
  (total i0 i1 (fun i => r i * z i))%T =
  (beta * (line i0 i1 (dx 0) v0 w z) + alpha * total i0 i1 (fun i => w i * z i))%T.
Proof. exact @weak_v2_1d. Qed.
Print Assumptions C59_weak_v2_1d.

Example C59_weak_v2_1d_example :
  apart (5%nat, 0) [(0%nat, 0); (4%nat, 0)] /\
  apart (8%nat, 0) [(5%nat, 0); (4%nat, 0)] /\
  (let m := ex_st_cells 20 in
   match (m' <- cdf_1d_flux 0 1 ex_st_h (0%nat, 0) 1 (4%nat, 0) (5%nat, 0) m ;; cd_apply_1d_diffusion_v2_apply 0 1 (lit 5) (lit 3) ex_st_h 1 (4%nat, 0) (5%nat, 0) 0 (8%nat, 0) m') with
   | Some mo =>
     let r := (fun i => ex_en_val mo (mkFa (8%nat, 0) (CELL1d 0 1 0)) [i]) in let w := (fun i => ex_en_val m (mkFa (4%nat, 0) (CELL1d 0 1 1)) [i]) in let v0 := (fun i => ex_en_val m (mkFa (0%nat, 0) (FACE1d 0 1 0)) [i]) in let z := (fun i => lit (1 * i * i + 1) : QcS) in
     (ex_en_ok mo (mkFa (8%nat, 0) (CELL1d 0 1 0)) [[0]; [1]] && ex_en_ok m (mkFa (4%nat, 0) (CELL1d 0 1 1)) [[-1]; [0]; [1]; [2]] && ex_en_ok m (mkFa (0%nat, 0) (FACE1d 0 1 0)) [[0]; [1]; [2]],
      ex_en_num (total 0 1 (fun i => r i * z i))%T,
      ex_en_num ((lit 3) * (line 0 1 (ex_st_h 0) v0 w z) + (lit 5) * total 0 1 (fun i => w i * z i))%T)
   | None => (false, (0, 0), (0, 0)) end) = (true, (1059, 4), (1059, 4)).
Proof. split; [repeat constructor; discriminate|]. split; [repeat constructor; discriminate|]. vm_compute. reflexivity. Qed.

Theorem C59_weak_poisson_1d : forall (S : Scalar), field_laws S ->
  forall i0 i1 dx beta gcw u f0 rgcw res (m mo : mem S) r w z,
  i0 <= i1 -> 0 <= gcw -> 0 <= rgcw ->
  apart f0 [u] -> apart res [f0; u] ->
  (m' <- cdf_1d_poisson_flux i0 i1 dx gcw u f0 m ;;
   cd_apply_1d_poisson_v2_apply i0 i1 beta dx f0 rgcw res m') = Some mo ->
  (forall i, i0 <= i <= i1 -> ((mkFa res (CELL1d i0 i1 rgcw))!(i))%F mo = Some (r i)) ->
  (forall i, i0 - 1 <= i <= i1 + 1 -> ((mkFa u (CELL1d i0 i1 gcw))!(i))%F m = Some (w i)) ->
  (total i0 i1 (fun i => r i * z i))%T =
  (beta * (line i0 i1 (dx 0) (fun _ => lit 1) w z))%T.
Proof. exact @weak_poisson_1d. Qed.
Print Assumptions C59_weak_poisson_1d.

Example C59_weak_poisson_1d_example :
  apart (5%nat, 0) [(4%nat, 0)] /\
  apart (8%nat, 0) [(5%nat, 0); (4%nat, 0)] /\
  (let m := ex_st_cells 20 in
   match (m' <- cdf_1d_poisson_flux 0 1 ex_st_h 1 (4%nat, 0) (5%nat, 0) m ;; cd_apply_1d_poisson_v2_apply 0 1 (lit 3) ex_st_h (5%nat, 0) 0 (8%nat, 0) m') with
   | Some mo =>
     let r := (fun i => ex_en_val mo (mkFa (8%nat, 0) (CELL1d 0 1 0)) [i]) in let w := (fun i => ex_en_val m (mkFa (4%nat, 0) (CELL1d 0 1 1)) [i]) in let z := (fun i => lit (1 * i * i + 1) : QcS) in
     (ex_en_ok mo (mkFa (8%nat, 0) (CELL1d 0 1 0)) [[0]; [1]] && ex_en_ok m (mkFa (4%nat, 0) (CELL1d 0 1 1)) [[-1]; [0]; [1]; [2]],
      ex_en_num (total 0 1 (fun i => r i * z i))%T,
      ex_en_num ((lit 3) * (line 0 1 (ex_st_h 0) (fun _ => lit 1) w z))%T)
   | None => (false, (0, 0), (0, 0)) end) = (true, (-9, 2), (-9, 2)).
Proof. split; [repeat constructor; discriminate|]. split; [repeat constructor; discriminate|]. vm_compute. reflexivity. Qed.

Theorem C59_weak_v1_2d : forall (S : Scalar), field_laws S ->
  forall i0 j0 i1 j1 dx beta b0 b1 gcw u f0 f1 alpha agcw a rgcw res (m mo : mem S) r w c v0 v1 z,
  i0 <= i1 -> j0 <= j1 -> 0 <= gcw -> 0 <= rgcw ->
  apart f0 [f1; b0; b1; a; u] -> apart f1 [b0; b1; a; u] -> apart res [f0; f1; a; u] ->
  (m' <- cdf_2d_flux i0 j0 i1 j1 dx b0 b1 gcw u f0 f1 m ;;
   cd_apply_2d_diffusion_v1_apply i0 i1 j0 j1 alpha beta dx agcw a gcw u f0 f1 rgcw res m') = Some mo ->
  (forall i j, i0 <= i <= i1 -> j0 <= j <= j1 -> ((mkFa res (CELL2d i0 j0 i1 j1 rgcw))!(i, j))%F mo = Some (r i j)) ->
  (forall i j, i0 - 1 <= i <= i1 + 1 -> j0 - 1 <= j <= j1 + 1 -> ((mkFa u (CELL2d i0 j0 i1 j1 gcw))!(i, j))%F m = Some (w i j)) ->
  (forall i j, i0 <= i <= i1 -> j0 <= j <= j1 -> ((mkFa a (CELL2d i0 j0 i1 j1 agcw))!(i, j))%F m = Some (c i j)) ->
  (forall i j, i0 <= i <= i1 + 1 -> j0 <= j <= j1 -> ((mkFa b0 (FACE2d0 i0 j0 i1 j1 0))!(i, j))%F m = Some (v0 i j)) ->
  (forall i j, i0 <= i <= i1 -> j0 <= j <= j1 + 1 -> ((mkFa b1 (FACE2d1 i0 j0 i1 j1 0))!(j, i))%F m = Some (v1 i j)) ->
  (total2 i0 j0 i1 j1 (fun i j => r i j * z i j))%T =
  (beta * (total j0 j1 (fun j => line i0 i1 (dx 0) (fun i => v0 i j) (fun i => w i j) (fun i => z i j)) + total i0 i1 (fun i => line j0 j1 (dx 1) (fun j => v1 i j) (fun j => w i j) (fun j => z i j))) + alpha * total2 i0 j0 i1 j1 (fun i j => c i j * w i j * z i j))%T.
Proof. exact @weak_v1_2d. Qed.
Print Assumptions C59_weak_v1_2d.

Example C59_weak_v1_2d_example :
  apart (5%nat, 0) [(6%nat, 0); (0%nat, 0); (1%nat, 0); (3%nat, 0); (4%nat, 0)] /\
  apart (6%nat, 0) [(0%nat, 0); (1%nat, 0); (3%nat, 0); (4%nat, 0)] /\
  apart (8%nat, 0) [(5%nat, 0); (6%nat, 0); (3%nat, 0); (4%nat, 0)] /\
  (let m := ex_st_cells 40 in
   match (m' <- cdf_2d_flux 0 0 1 1 ex_st_h (0%nat, 0) (1%nat, 0) 1 (4%nat, 0) (5%nat, 0) (6%nat, 0) m ;; cd_apply_2d_diffusion_v1_apply 0 1 0 1 (lit 5) (lit 3) ex_st_h 1 (3%nat, 0) 1 (4%nat, 0) (5%nat, 0) (6%nat, 0) 0 (8%nat, 0) m') with
   | Some mo =>
     let r := (fun i j => ex_en_val mo (mkFa (8%nat, 0) (CELL2d 0 0 1 1 0)) [i; j]) in let w := (fun i j => ex_en_val m (mkFa (4%nat, 0) (CELL2d 0 0 1 1 1)) [i; j]) in let c := (fun i j => ex_en_val m (mkFa (3%nat, 0) (CELL2d 0 0 1 1 1)) [i; j]) in let v0 := (fun i j => ex_en_val m (mkFa (0%nat, 0) (FACE2d0 0 0 1 1 0)) [i; j]) in let v1 := (fun i j => ex_en_val m (mkFa (1%nat, 0) (FACE2d1 0 0 1 1 0)) [j; i]) in let z := (fun i j => lit (1 * i * i + 2 * j * j + 1) : QcS) in
     (ex_en_ok mo (mkFa (8%nat, 0) (CELL2d 0 0 1 1 0)) [[0; 0]; [0; 1]; [1; 0]; [1; 1]] && ex_en_ok m (mkFa (4%nat, 0) (CELL2d 0 0 1 1 1)) [[-1; -1]; [-1; 0]; [-1; 1]; [-1; 2]; [0; -1]; [0; 0]; [0; 1]; [0; 2]; [1; -1]; [1; 0]; [1; 1]; [1; 2]; [2; -1]; [2; 0]; [2; 1]; [2; 2]] && ex_en_ok m (mkFa (3%nat, 0) (CELL2d 0 0 1 1 1)) [[0; 0]; [0; 1]; [1; 0]; [1; 1]] && ex_en_ok m (mkFa (0%nat, 0) (FACE2d0 0 0 1 1 0)) [[0; 0]; [0; 1]; [1; 0]; [1; 1]; [2; 0]; [2; 1]] && ex_en_ok m (mkFa (1%nat, 0) (FACE2d1 0 0 1 1 0)) [[0; 0]; [1; 0]; [2; 0]; [0; 1]; [1; 1]; [2; 1]],
      ex_en_num (total2 0 0 1 1 (fun i j => r i j * z i j))%T,
      ex_en_num ((lit 3) * (total 0 1 (fun j => line 0 1 (ex_st_h 0) (fun i => v0 i j) (fun i => w i j) (fun i => z i j)) + total 0 1 (fun i => line 0 1 (ex_st_h 1) (fun j => v1 i j) (fun j => w i j) (fun j => z i j))) + (lit 5) * total2 0 0 1 1 (fun i j => c i j * w i j * z i j))%T)
   | None => (false, (0, 0), (0, 0)) end) = (true, (8586047, 6), (8586047, 6)).
Proof. split; [repeat constructor; discriminate|]. split; [repeat constructor; discriminate|]. split; [repeat constructor; discriminate|]. vm_compute. reflexivity. Qed.

Theorem C59_weak_v2_2d : forall (S : Scalar), field_laws S ->
  forall i0 j0 i1 j1 dx beta b0 b1 gcw u f0 f1 alpha rgcw res (m mo : mem S) r w v0 v1 z,
  i0 <= i1 -> j0 <= j1 -> 0 <= gcw -> 0 <= rgcw ->
  apart f0 [f1; b0; b1; u] -> apart f1 [b0; b1; u] -> apart res [f0; f1; u] ->
  (m' <- cdf_2d_flux i0 j0 i1 j1 dx b0 b1 gcw u f0 f1 m ;;
   cd_apply_2d_diffusion_v2_apply i0 i1 j0 j1 alpha beta dx gcw u f0 f1 rgcw res m') = Some mo ->
  (forall i j, i0 <= i <= i1 -> j0 <= j <= j1 -> ((mkFa res (CELL2d i0 j0 i1 j1 rgcw))!(i, j))%F mo = Some (r i j)) ->
  (forall i j, i0 - 1 <= i <= i1 + 1 -> j0 - 1 <= j <= j1 + 1 -> ((mkFa u (CELL2d i0 j0 i1 j1 gcw))!(i, j))%F m = Some (w i j)) ->
  (forall i j, i0 <= i <= i1 + 1 -> j0 <= j <= j1 -> ((mkFa b0 (FACE2d0 i0 j0 i1 j1 0))!(i, j))%F m = Some (v0 i j)) ->
  (forall i j, i0 <= i <= i1 -> j0 <= j <= j1 + 1 -> ((mkFa b1 (FACE2d1 i0 j0 i1 j1 0))!(j, i))%F m = Some (v1 i j)) ->
  (total2 i0 j0 i1 j1 (fun i j => r i j * z i j))%T =
  (beta * (total j0 j1 (fun j => line i0 i1 (dx 0) (fun i => v0 i j) (fun i => w i j) (fun i => z i j)) + total i0 i1 (fun i => line j0 j1 (dx 1) (fun j => v1 i j) (fun j => w i j) (fun j => z i j))) + alpha * total2 i0 j0 i1 j1 (fun i j => w i j * z i j))%T.
Proof. exact @weak_v2_2d. Qed.
Print Assumptions C59_weak_v2_2d.

Example C59_weak_v2_2d_example :
  apart (5%nat, 0) [(6%nat, 0); (0%nat, 0); (1%nat, 0); (4%nat, 0)] /\
  apart (6%nat, 0) [(0%nat, 0); (1%nat, 0); (4%nat, 0)] /\
  apart (8%nat, 0) [(5%nat, 0); (6%nat, 0); (4%nat, 0)] /\
  (let m := ex_st_cells 40 in
   match (m' <- cdf_2d_flux 0 0 1 1 ex_st_h (0%nat, 0) (1%nat, 0) 1 (4%nat, 0) (5%nat, 0) (6%nat, 0) m ;; cd_apply_2d_diffusion_v2_apply 0 1 0 1 (lit 5) (lit 3) ex_st_h 1 (4%nat, 0) (5%nat, 0) (6%nat, 0) 0 (8%nat, 0) m') with
   | Some mo =>
     let r := (fun i j => ex_en_val mo (mkFa (8%nat, 0) (CELL2d 0 0 1 1 0)) [i; j]) in let w := (fun i j => ex_en_val m (mkFa (4%nat, 0) (CELL2d 0 0 1 1 1)) [i; j]) in let v0 := (fun i j => ex_en_val m (mkFa (0%nat, 0) (FACE2d0 0 0 1 1 0)) [i; j]) in let v1 := (fun i j => ex_en_val m (mkFa (1%nat, 0) (FACE2d1 0 0 1 1 0)) [j; i]) in let z := (fun i j => lit (1 * i * i + 2 * j * j + 1) : QcS) in
     (ex_en_ok mo (mkFa (8%nat, 0) (CELL2d 0 0 1 1 0)) [[0; 0]; [0; 1]; [1; 0]; [1; 1]] && ex_en_ok m (mkFa (4%nat, 0) (CELL2d 0 0 1 1 1)) [[-1; -1]; [-1; 0]; [-1; 1]; [-1; 2]; [0; -1]; [0; 0]; [0; 1]; [0; 2]; [1; -1]; [1; 0]; [1; 1]; [1; 2]; [2; -1]; [2; 0]; [2; 1]; [2; 2]] && ex_en_ok m (mkFa (0%nat, 0) (FACE2d0 0 0 1 1 0)) [[0; 0]; [0; 1]; [1; 0]; [1; 1]; [2; 0]; [2; 1]] && ex_en_ok m (mkFa (1%nat, 0) (FACE2d1 0 0 1 1 0)) [[0; 0]; [1; 0]; [2; 0]; [0; 1]; [1; 1]; [2; 1]],
      ex_en_num (total2 0 0 1 1 (fun i j => r i j * z i j))%T,
      ex_en_num ((lit 3) * (total 0 1 (fun j => line 0 1 (ex_st_h 0) (fun i => v0 i j) (fun i => w i j) (fun i => z i j)) + total 0 1 (fun i => line 0 1 (ex_st_h 1) (fun j => v1 i j) (fun j => w i j) (fun j => z i j))) + (lit 5) * total2 0 0 1 1 (fun i j => w i j * z i j))%T)
   | None => (false, (0, 0), (0, 0)) end) = (true, (7847, 6), (7847, 6)).
Proof. split; [repeat constructor; discriminate|]. split; [repeat constructor; discriminate|]. split; [repeat constructor; discriminate|]. vm_compute. reflexivity. Qed.

Theorem C59_weak_poisson_2d : forall (S : Scalar), field_laws S ->
  forall i0 j0 i1 j1 dx beta gcw u f0 f1 rgcw res (m mo : mem S) r w z,
  i0 <= i1 -> j0 <= j1 -> 0 <= gcw -> 0 <= rgcw ->
  apart f0 [f1; u] -> apart f1 [u] -> apart res [f0; f1; u] ->
  (m' <- cdf_2d_poisson_flux i0 j0 i1 j1 dx gcw u f0 f1 m ;;
   cd_apply_2d_poisson_v2_apply i0 i1 j0 j1 beta dx f0 f1 rgcw res m') = Some mo ->
  (forall i j, i0 <= i <= i1 -> j0 <= j <= j1 -> ((mkFa res (CELL2d i0 j0 i1 j1 rgcw))!(i, j))%F mo = Some (r i j)) ->
  (forall i j, i0 - 1 <= i <= i1 + 1 -> j0 - 1 <= j <= j1 + 1 -> ((mkFa u (CELL2d i0 j0 i1 j1 gcw))!(i, j))%F m = Some (w i j)) ->
  (total2 i0 j0 i1 j1 (fun i j => r i j * z i j))%T =
  (beta * (total j0 j1 (fun j => line i0 i1 (dx 0) (fun _ => lit 1) (fun i => w i j) (fun i => z i j)) + total i0 i1 (fun i => line j0 j1 (dx 1) (fun _ => lit 1) (fun j => w i j) (fun j => z i j))))%T.
Proof. exact @weak_poisson_2d. Qed.
Print Assumptions C59_weak_poisson_2d.

Example C59_weak_poisson_2d_example :
  apart (5%nat, 0) [(6%nat, 0); (4%nat, 0)] /\
  apart (6%nat, 0) [(4%nat, 0)] /\
  apart (8%nat, 0) [(5%nat, 0); (6%nat, 0); (4%nat, 0)] /\
  (let m := ex_st_cells 40 in
   match (m' <- cdf_2d_poisson_flux 0 0 1 1 ex_st_h 1 (4%nat, 0) (5%nat, 0) (6%nat, 0) m ;; cd_apply_2d_poisson_v2_apply 0 1 0 1 (lit 3) ex_st_h (5%nat, 0) (6%nat, 0) 0 (8%nat, 0) m') with
   | Some mo =>
     let r := (fun i j => ex_en_val mo (mkFa (8%nat, 0) (CELL2d 0 0 1 1 0)) [i; j]) in let w := (fun i j => ex_en_val m (mkFa (4%nat, 0) (CELL2d 0 0 1 1 1)) [i; j]) in let z := (fun i j => lit (1 * i * i + 2 * j * j + 1) : QcS) in
     (ex_en_ok mo (mkFa (8%nat, 0) (CELL2d 0 0 1 1 0)) [[0; 0]; [0; 1]; [1; 0]; [1; 1]] && ex_en_ok m (mkFa (4%nat, 0) (CELL2d 0 0 1 1 1)) [[-1; -1]; [-1; 0]; [-1; 1]; [-1; 2]; [0; -1]; [0; 0]; [0; 1]; [0; 2]; [1; -1]; [1; 0]; [1; 1]; [1; 2]; [2; -1]; [2; 0]; [2; 1]; [2; 2]],
      ex_en_num (total2 0 0 1 1 (fun i j => r i j * z i j))%T,
      ex_en_num ((lit 3) * (total 0 1 (fun j => line 0 1 (ex_st_h 0) (fun _ => lit 1) (fun i => w i j) (fun i => z i j)) + total 0 1 (fun i => line 0 1 (ex_st_h 1) (fun _ => lit 1) (fun j => w i j) (fun j => z i j))))%T)
   | None => (false, (0, 0), (0, 0)) end) = (true, (-365, 3), (-365, 3)).
Proof. split; [repeat constructor; discriminate|]. split; [repeat constructor; discriminate|]. split; [repeat constructor; discriminate|]. vm_compute. reflexivity. Qed.

Theorem C59_weak_v1_3d : forall (S : Scalar), field_laws S ->
  forall i0 j0 k0 i1 j1 k1 dx beta b0 b1 b2 gcw u f0 f1 f2 alpha agcw a rgcw res (m mo : mem S) r w c v0 v1 v2 z,
  i0 <= i1 -> j0 <= j1 -> k0 <= k1 -> 0 <= gcw -> 0 <= rgcw ->
  apart f0 [f1; f2; b0; b1; b2; a; u] -> apart f1 [f2; b0; b1; b2; a; u] -> apart f2 [b0; b1; b2; a; u] -> apart res [f0; f1; f2; a; u] ->
  (m' <- cdf_3d_flux i0 j0 k0 i1 j1 k1 dx b0 b1 b2 gcw u f0 f1 f2 m ;;
   cd_apply_3d_diffusion_v1_apply i0 i1 j0 j1 k0 k1 alpha beta dx agcw a gcw u f0 f1 f2 rgcw res m') = Some mo ->
  (forall i j k, i0 <= i <= i1 -> j0 <= j <= j1 -> k0 <= k <= k1 -> ((mkFa res (CELL3d i0 j0 k0 i1 j1 k1 rgcw))!(i, j, k))%F mo = Some (r i j k)) ->
  (forall i j k, i0 - 1 <= i <= i1 + 1 -> j0 - 1 <= j <= j1 + 1 -> k0 - 1 <= k <= k1 + 1 -> ((mkFa u (CELL3d i0 j0 k0 i1 j1 k1 gcw))!(i, j, k))%F m = Some (w i j k)) ->
  (forall i j k, i0 <= i <= i1 -> j0 <= j <= j1 -> k0 <= k <= k1 -> ((mkFa a (CELL3d i0 j0 k0 i1 j1 k1 agcw))!(i, j, k))%F m = Some (c i j k)) ->
  (forall i j k, i0 <= i <= i1 + 1 -> j0 <= j <= j1 -> k0 <= k <= k1 -> ((mkFa b0 (FACE3d0 i0 j0 k0 i1 j1 k1 0))!(i, j, k))%F m = Some (v0 i j k)) ->
  (forall i j k, i0 <= i <= i1 -> j0 <= j <= j1 + 1 -> k0 <= k <= k1 -> ((mkFa b1 (FACE3d1 i0 j0 k0 i1 j1 k1 0))!(j, k, i))%F m = Some (v1 i j k)) ->
  (forall i j k, i0 <= i <= i1 -> j0 <= j <= j1 -> k0 <= k <= k1 + 1 -> ((mkFa b2 (FACE3d2 i0 j0 k0 i1 j1 k1 0))!(k, i, j))%F m = Some (v2 i j k)) ->
  (total3 i0 j0 k0 i1 j1 k1 (fun i j k => r i j k * z i j k))%T =
  (beta * (total2 j0 k0 j1 k1 (fun j k => line i0 i1 (dx 0) (fun i => v0 i j k) (fun i => w i j k) (fun i => z i j k)) + total2 i0 k0 i1 k1 (fun i k => line j0 j1 (dx 1) (fun j => v1 i j k) (fun j => w i j k) (fun j => z i j k)) + total2 i0 j0 i1 j1 (fun i j => line k0 k1 (dx 2) (fun k => v2 i j k) (fun k => w i j k) (fun k => z i j k))) + alpha * total3 i0 j0 k0 i1 j1 k1 (fun i j k => c i j k * w i j k * z i j k))%T.
Proof. exact @weak_v1_3d. Qed.
Print Assumptions C59_weak_v1_3d.

Example C59_weak_v1_3d_example :
  apart (5%nat, 0) [(6%nat, 0); (7%nat, 0); (0%nat, 0); (1%nat, 0); (2%nat, 0); (3%nat, 0); (4%nat, 0)] /\
  apart (6%nat, 0) [(7%nat, 0); (0%nat, 0); (1%nat, 0); (2%nat, 0); (3%nat, 0); (4%nat, 0)] /\
  apart (7%nat, 0) [(0%nat, 0); (1%nat, 0); (2%nat, 0); (3%nat, 0); (4%nat, 0)] /\
  apart (8%nat, 0) [(5%nat, 0); (6%nat, 0); (7%nat, 0); (3%nat, 0); (4%nat, 0)] /\
  (let m := ex_st_cells 70 in
   match (m' <- cdf_3d_flux 0 0 0 1 1 1 ex_st_h (0%nat, 0) (1%nat, 0) (2%nat, 0) 1 (4%nat, 0) (5%nat, 0) (6%nat, 0) (7%nat, 0) m ;; cd_apply_3d_diffusion_v1_apply 0 1 0 1 0 1 (lit 5) (lit 3) ex_st_h 1 (3%nat, 0) 1 (4%nat, 0) (5%nat, 0) (6%nat, 0) (7%nat, 0) 0 (8%nat, 0) m') with
   | Some mo =>
     let r := (fun i j k => ex_en_val mo (mkFa (8%nat, 0) (CELL3d 0 0 0 1 1 1 0)) [i; j; k]) in let w := (fun i j k => ex_en_val m (mkFa (4%nat, 0) (CELL3d 0 0 0 1 1 1 1)) [i; j; k]) in let c := (fun i j k => ex_en_val m (mkFa (3%nat, 0) (CELL3d 0 0 0 1 1 1 1)) [i; j; k]) in let v0 := (fun i j k => ex_en_val m (mkFa (0%nat, 0) (FACE3d0 0 0 0 1 1 1 0)) [i; j; k]) in let v1 := (fun i j k => ex_en_val m (mkFa (1%nat, 0) (FACE3d1 0 0 0 1 1 1 0)) [j; k; i]) in let v2 := (fun i j k => ex_en_val m (mkFa (2%nat, 0) (FACE3d2 0 0 0 1 1 1 0)) [k; i; j]) in let z := (fun i j k => lit (1 * i * i + 2 * j * j + 3 * k * k + 1) : QcS) in
     (ex_en_ok mo (mkFa (8%nat, 0) (CELL3d 0 0 0 1 1 1 0)) [[0; 0; 0]; [0; 0; 1]; [0; 1; 0]; [0; 1; 1]; [1; 0; 0]; [1; 0; 1]; [1; 1; 0]; [1; 1; 1]] && ex_en_ok m (mkFa (4%nat, 0) (CELL3d 0 0 0 1 1 1 1)) [[-1; -1; -1]; [-1; -1; 0]; [-1; -1; 1]; [-1; -1; 2]; [-1; 0; -1]; [-1; 0; 0]; [-1; 0; 1]; [-1; 0; 2]; [-1; 1; -1]; [-1; 1; 0]; [-1; 1; 1]; [-1; 1; 2]; [-1; 2; -1]; [-1; 2; 0]; [-1; 2; 1]; [-1; 2; 2]; [0; -1; -1]; [0; -1; 0]; [0; -1; 1]; [0; -1; 2]; [0; 0; -1]; [0; 0; 0]; [0; 0; 1]; [0; 0; 2]; [0; 1; -1]; [0; 1; 0]; [0; 1; 1]; [0; 1; 2]; [0; 2; -1]; [0; 2; 0]; [0; 2; 1]; [0; 2; 2]; [1; -1; -1]; [1; -1; 0]; [1; -1; 1]; [1; -1; 2]; [1; 0; -1]; [1; 0; 0]; [1; 0; 1]; [1; 0; 2]; [1; 1; -1]; [1; 1; 0]; [1; 1; 1]; [1; 1; 2]; [1; 2; -1]; [1; 2; 0]; [1; 2; 1]; [1; 2; 2]; [2; -1; -1]; [2; -1; 0]; [2; -1; 1]; [2; -1; 2]; [2; 0; -1]; [2; 0; 0]; [2; 0; 1]; [2; 0; 2]; [2; 1; -1]; [2; 1; 0]; [2; 1; 1]; [2; 1; 2]; [2; 2; -1]; [2; 2; 0]; [2; 2; 1]; [2; 2; 2]] && ex_en_ok m (mkFa (3%nat, 0) (CELL3d 0 0 0 1 1 1 1)) [[0; 0; 0]; [0; 0; 1]; [0; 1; 0]; [0; 1; 1]; [1; 0; 0]; [1; 0; 1]; [1; 1; 0]; [1; 1; 1]] && ex_en_ok m (mkFa (0%nat, 0) (FACE3d0 0 0 0 1 1 1 0)) [[0; 0; 0]; [0; 0; 1]; [0; 1; 0]; [0; 1; 1]; [1; 0; 0]; [1; 0; 1]; [1; 1; 0]; [1; 1; 1]; [2; 0; 0]; [2; 0; 1]; [2; 1; 0]; [2; 1; 1]] && ex_en_ok m (mkFa (1%nat, 0) (FACE3d1 0 0 0 1 1 1 0)) [[0; 0; 0]; [0; 1; 0]; [1; 0; 0]; [1; 1; 0]; [2; 0; 0]; [2; 1; 0]; [0; 0; 1]; [0; 1; 1]; [1; 0; 1]; [1; 1; 1]; [2; 0; 1]; [2; 1; 1]] && ex_en_ok m (mkFa (2%nat, 0) (FACE3d2 0 0 0 1 1 1 0)) [[0; 0; 0]; [1; 0; 0]; [2; 0; 0]; [0; 0; 1]; [1; 0; 1]; [2; 0; 1]; [0; 1; 0]; [1; 1; 0]; [2; 1; 0]; [0; 1; 1]; [1; 1; 1]; [2; 1; 1]],
      ex_en_num (total3 0 0 0 1 1 1 (fun i j k => r i j k * z i j k))%T,
      ex_en_num ((lit 3) * (total2 0 0 1 1 (fun j k => line 0 1 (ex_st_h 0) (fun i => v0 i j k) (fun i => w i j k) (fun i => z i j k)) + total2 0 0 1 1 (fun i k => line 0 1 (ex_st_h 1) (fun j => v1 i j k) (fun j => w i j k) (fun j => z i j k)) + total2 0 0 1 1 (fun i j => line 0 1 (ex_st_h 2) (fun k => v2 i j k) (fun k => w i j k) (fun k => z i j k))) + (lit 5) * total3 0 0 0 1 1 1 (fun i j k => c i j k * w i j k * z i j k))%T)
   | None => (false, (0, 0), (0, 0)) end) = (true, (1461740045, 3), (1461740045, 3)).
Proof. split; [repeat constructor; discriminate|]. split; [repeat constructor; discriminate|]. split; [repeat constructor; discriminate|]. split; [repeat constructor; discriminate|]. vm_compute. reflexivity. Qed.

Theorem C59_weak_v2_3d : forall (S : Scalar), field_laws S ->
  forall i0 j0 k0 i1 j1 k1 dx beta b0 b1 b2 gcw u f0 f1 f2 alpha rgcw res (m mo : mem S) r w v0 v1 v2 z,
  i0 <= i1 -> j0 <= j1 -> k0 <= k1 -> 0 <= gcw -> 0 <= rgcw ->
  apart f0 [f1; f2; b0; b1; b2; u] -> apart f1 [f2; b0; b1; b2; u] -> apart f2 [b0; b1; b2; u] -> apart res [f0; f1; f2; u] ->
  (m' <- cdf_3d_flux i0 j0 k0 i1 j1 k1 dx b0 b1 b2 gcw u f0 f1 f2 m ;;
   cd_apply_3d_diffusion_v2_apply i0 i1 j0 j1 k0 k1 alpha beta dx gcw u f0 f1 f2 rgcw res m') = Some mo ->
  (forall i j k, i0 <= i <= i1 -> j0 <= j <= j1 -> k0 <= k <= k1 -> ((mkFa res (CELL3d i0 j0 k0 i1 j1 k1 rgcw))!(i, j, k))%F mo = Some (r i j k)) ->
  (forall i j k, i0 - 1 <= i <= i1 + 1 -> j0 - 1 <= j <= j1 + 1 -> k0 - 1 <= k <= k1 + 1 -> ((mkFa u (CELL3d i0 j0 k0 i1 j1 k1 gcw))!(i, j, k))%F m = Some (w i j k)) ->
  (forall i j k, i0 <= i <= i1 + 1 -> j0 <= j <= j1 -> k0 <= k <= k1 -> ((mkFa b0 (FACE3d0 i0 j0 k0 i1 j1 k1 0))!(i, j, k))%F m = Some (v0 i j k)) ->
  (forall i j k, i0 <= i <= i1 -> j0 <= j <= j1 + 1 -> k0 <= k <= k1 -> ((mkFa b1 (FACE3d1 i0 j0 k0 i1 j1 k1 0))!(j, k, i))%F m = Some (v1 i j k)) ->
  (forall i j k, i0 <= i <= i1 -> j0 <= j <= j1 -> k0 <= k <= k1 + 1 -> ((mkFa b2 (FACE3d2 i0 j0 k0 i1 j1 k1 0))!(k, i, j))%F m = Some (v2 i j k)) ->
  (total3 i0 j0 k0 i1 j1 k1 (fun i j k => r i j k * z i j k))%T =
  (beta * (total2 j0 k0 j1 k1 (fun j k => line i0 i1 (dx 0) (fun i => v0 i j k) (fun i => w i j k) (fun i => z i j k)) + total2 i0 k0 i1 k1 (fun i k => line j0 j1 (dx 1) (fun j => v1 i j k) (fun j => w i j k) (fun j => z i j k)) + total2 i0 j0 i1 j1 (fun i j => line k0 k1 (dx 2) (fun k => v2 i j k) (fun k => w i j k) (fun k => z i j k))) + alpha * total3 i0 j0 k0 i1 j1 k1 (fun i j k => w i j k * z i j k))%T.
Proof. exact @weak_v2_3d. Qed.
Print Assumptions C59_weak_v2_3d.

Example C59_weak_v2_3d_example :
  apart (5%nat, 0) [(6%nat, 0); (7%nat, 0); (0%nat, 0); (1%nat, 0); (2%nat, 0); (4%nat, 0)] /\
  apart (6%nat, 0) [(7%nat, 0); (0%nat, 0); (1%nat, 0); (2%nat, 0); (4%nat, 0)] /\
  apart (7%nat, 0) [(0%nat, 0); (1%nat, 0); (2%nat, 0); (4%nat, 0)] /\
  apart (8%nat, 0) [(5%nat, 0); (6%nat, 0); (7%nat, 0); (4%nat, 0)] /\
  (let m := ex_st_cells 70 in
   match (m' <- cdf_3d_flux 0 0 0 1 1 1 ex_st_h (0%nat, 0) (1%nat, 0) (2%nat, 0) 1 (4%nat, 0) (5%nat, 0) (6%nat, 0) (7%nat, 0) m ;; cd_apply_3d_diffusion_v2_apply 0 1 0 1 0 1 (lit 5) (lit 3) ex_st_h 1 (4%nat, 0) (5%nat, 0) (6%nat, 0) (7%nat, 0) 0 (8%nat, 0) m') with
   | Some mo =>
     let r := (fun i j k => ex_en_val mo (mkFa (8%nat, 0) (CELL3d 0 0 0 1 1 1 0)) [i; j; k]) in let w := (fun i j k => ex_en_val m (mkFa (4%nat, 0) (CELL3d 0 0 0 1 1 1 1)) [i; j; k]) in let v0 := (fun i j k => ex_en_val m (mkFa (0%nat, 0) (FACE3d0 0 0 0 1 1 1 0)) [i; j; k]) in let v1 := (fun i j k => ex_en_val m (mkFa (1%nat, 0) (FACE3d1 0 0 0 1 1 1 0)) [j; k; i]) in let v2 := (fun i j k => ex_en_val m (mkFa (2%nat, 0) (FACE3d2 0 0 0 1 1 1 0)) [k; i; j]) in let z := (fun i j k => lit (1 * i * i + 2 * j * j + 3 * k * k + 1) : QcS) in
     (ex_en_ok mo (mkFa (8%nat, 0) (CELL3d 0 0 0 1 1 1 0)) [[0; 0; 0]; [0; 0; 1]; [0; 1; 0]; [0; 1; 1]; [1; 0; 0]; [1; 0; 1]; [1; 1; 0]; [1; 1; 1]] && ex_en_ok m (mkFa (4%nat, 0) (CELL3d 0 0 0 1 1 1 1)) [[-1; -1; -1]; [-1; -1; 0]; [-1; -1; 1]; [-1; -1; 2]; [-1; 0; -1]; [-1; 0; 0]; [-1; 0; 1]; [-1; 0; 2]; [-1; 1; -1]; [-1; 1; 0]; [-1; 1; 1]; [-1; 1; 2]; [-1; 2; -1]; [-1; 2; 0]; [-1; 2; 1]; [-1; 2; 2]; [0; -1; -1]; [0; -1; 0]; [0; -1; 1]; [0; -1; 2]; [0; 0; -1]; [0; 0; 0]; [0; 0; 1]; [0; 0; 2]; [0; 1; -1]; [0; 1; 0]; [0; 1; 1]; [0; 1; 2]; [0; 2; -1]; [0; 2; 0]; [0; 2; 1]; [0; 2; 2]; [1; -1; -1]; [1; -1; 0]; [1; -1; 1]; [1; -1; 2]; [1; 0; -1]; [1; 0; 0]; [1; 0; 1]; [1; 0; 2]; [1; 1; -1]; [1; 1; 0]; [1; 1; 1]; [1; 1; 2]; [1; 2; -1]; [1; 2; 0]; [1; 2; 1]; [1; 2; 2]; [2; -1; -1]; [2; -1; 0]; [2; -1; 1]; [2; -1; 2]; [2; 0; -1]; [2; 0; 0]; [2; 0; 1]; [2; 0; 2]; [2; 1; -1]; [2; 1; 0]; [2; 1; 1]; [2; 1; 2]; [2; 2; -1]; [2; 2; 0]; [2; 2; 1]; [2; 2; 2]] && ex_en_ok m (mkFa (0%nat, 0) (FACE3d0 0 0 0 1 1 1 0)) [[0; 0; 0]; [0; 0; 1]; [0; 1; 0]; [0; 1; 1]; [1; 0; 0]; [1; 0; 1]; [1; 1; 0]; [1; 1; 1]; [2; 0; 0]; [2; 0; 1]; [2; 1; 0]; [2; 1; 1]] && ex_en_ok m (mkFa (1%nat, 0) (FACE3d1 0 0 0 1 1 1 0)) [[0; 0; 0]; [0; 1; 0]; [1; 0; 0]; [1; 1; 0]; [2; 0; 0]; [2; 1; 0]; [0; 0; 1]; [0; 1; 1]; [1; 0; 1]; [1; 1; 1]; [2; 0; 1]; [2; 1; 1]] && ex_en_ok m (mkFa (2%nat, 0) (FACE3d2 0 0 0 1 1 1 0)) [[0; 0; 0]; [1; 0; 0]; [2; 0; 0]; [0; 0; 1]; [1; 0; 1]; [2; 0; 1]; [0; 1; 0]; [1; 1; 0]; [2; 1; 0]; [0; 1; 1]; [1; 1; 1]; [2; 1; 1]],
      ex_en_num (total3 0 0 0 1 1 1 (fun i j k => r i j k * z i j k))%T,
      ex_en_num ((lit 3) * (total2 0 0 1 1 (fun j k => line 0 1 (ex_st_h 0) (fun i => v0 i j k) (fun i => w i j k) (fun i => z i j k)) + total2 0 0 1 1 (fun i k => line 0 1 (ex_st_h 1) (fun j => v1 i j k) (fun j => w i j k) (fun j => z i j k)) + total2 0 0 1 1 (fun i j => line 0 1 (ex_st_h 2) (fun k => v2 i j k) (fun k => w i j k) (fun k => z i j k))) + (lit 5) * total3 0 0 0 1 1 1 (fun i j k => w i j k * z i j k))%T)
   | None => (false, (0, 0), (0, 0)) end) = (true, (-870115, 3), (-870115, 3)).
Proof. split; [repeat constructor; discriminate|]. split; [repeat constructor; discriminate|]. split; [repeat constructor; discriminate|]. split; [repeat constructor; discriminate|]. vm_compute. reflexivity. Qed.

Theorem C59_weak_poisson_3d : forall (S : Scalar), field_laws S ->
  forall i0 j0 k0 i1 j1 k1 dx beta gcw u f0 f1 f2 rgcw res (m mo : mem S) r w z,
  i0 <= i1 -> j0 <= j1 -> k0 <= k1 -> 0 <= gcw -> 0 <= rgcw ->
  apart f0 [f1; f2; u] -> apart f1 [f2; u] -> apart f2 [u] -> apart res [f0; f1; f2; u] ->
  (m' <- cdf_3d_poisson_flux i0 j0 k0 i1 j1 k1 dx gcw u f0 f1 f2 m ;;
   cd_apply_3d_poisson_v2_apply i0 i1 j0 j1 k0 k1 beta dx f0 f1 f2 rgcw res m') = Some mo ->
  (forall i j k, i0 <= i <= i1 -> j0 <= j <= j1 -> k0 <= k <= k1 -> ((mkFa res (CELL3d i0 j0 k0 i1 j1 k1 rgcw))!(i, j, k))%F mo = Some (r i j k)) ->
  (forall i j k, i0 - 1 <= i <= i1 + 1 -> j0 - 1 <= j <= j1 + 1 -> k0 - 1 <= k <= k1 + 1 -> ((mkFa u (CELL3d i0 j0 k0 i1 j1 k1 gcw))!(i, j, k))%F m = Some (w i j k)) ->
  (total3 i0 j0 k0 i1 j1 k1 (fun i j k => r i j k * z i j k))%T =
  (beta * (total2 j0 k0 j1 k1 (fun j k => line i0 i1 (dx 0) (fun _ => lit 1) (fun i => w i j k) (fun i => z i j k)) + total2 i0 k0 i1 k1 (fun i k => line j0 j1 (dx 1) (fun _ => lit 1) (fun j => w i j k) (fun j => z i j k)) + total2 i0 j0 i1 j1 (fun i j => line k0 k1 (dx 2) (fun _ => lit 1) (fun k => w i j k) (fun k => z i j k))))%T.
Proof. exact @weak_poisson_3d. Qed.
Print Assumptions C59_weak_poisson_3d.

Example C59_weak_poisson_3d_example :
  apart (5%nat, 0) [(6%nat, 0); (7%nat, 0); (4%nat, 0)] /\
  apart (6%nat, 0) [(7%nat, 0); (4%nat, 0)] /\
  apart (7%nat, 0) [(4%nat, 0)] /\
  apart (8%nat, 0) [(5%nat, 0); (6%nat, 0); (7%nat, 0); (4%nat, 0)] /\
  (let m := ex_st_cells 70 in
   match (m' <- cdf_3d_poisson_flux 0 0 0 1 1 1 ex_st_h 1 (4%nat, 0) (5%nat, 0) (6%nat, 0) (7%nat, 0) m ;; cd_apply_3d_poisson_v2_apply 0 1 0 1 0 1 (lit 3) ex_st_h (5%nat, 0) (6%nat, 0) (7%nat, 0) 0 (8%nat, 0) m') with
   | Some mo =>
     let r := (fun i j k => ex_en_val mo (mkFa (8%nat, 0) (CELL3d 0 0 0 1 1 1 0)) [i; j; k]) in let w := (fun i j k => ex_en_val m (mkFa (4%nat, 0) (CELL3d 0 0 0 1 1 1 1)) [i; j; k]) in let z := (fun i j k => lit (1 * i * i + 2 * j * j + 3 * k * k + 1) : QcS) in
     (ex_en_ok mo (mkFa (8%nat, 0) (CELL3d 0 0 0 1 1 1 0)) [[0; 0; 0]; [0; 0; 1]; [0; 1; 0]; [0; 1; 1]; [1; 0; 0]; [1; 0; 1]; [1; 1; 0]; [1; 1; 1]] && ex_en_ok m (mkFa (4%nat, 0) (CELL3d 0 0 0 1 1 1 1)) [[-1; -1; -1]; [-1; -1; 0]; [-1; -1; 1]; [-1; -1; 2]; [-1; 0; -1]; [-1; 0; 0]; [-1; 0; 1]; [-1; 0; 2]; [-1; 1; -1]; [-1; 1; 0]; [-1; 1; 1]; [-1; 1; 2]; [-1; 2; -1]; [-1; 2; 0]; [-1; 2; 1]; [-1; 2; 2]; [0; -1; -1]; [0; -1; 0]; [0; -1; 1]; [0; -1; 2]; [0; 0; -1]; [0; 0; 0]; [0; 0; 1]; [0; 0; 2]; [0; 1; -1]; [0; 1; 0]; [0; 1; 1]; [0; 1; 2]; [0; 2; -1]; [0; 2; 0]; [0; 2; 1]; [0; 2; 2]; [1; -1; -1]; [1; -1; 0]; [1; -1; 1]; [1; -1; 2]; [1; 0; -1]; [1; 0; 0]; [1; 0; 1]; [1; 0; 2]; [1; 1; -1]; [1; 1; 0]; [1; 1; 1]; [1; 1; 2]; [1; 2; -1]; [1; 2; 0]; [1; 2; 1]; [1; 2; 2]; [2; -1; -1]; [2; -1; 0]; [2; -1; 1]; [2; -1; 2]; [2; 0; -1]; [2; 0; 0]; [2; 0; 1]; [2; 0; 2]; [2; 1; -1]; [2; 1; 0]; [2; 1; 1]; [2; 1; 2]; [2; 2; -1]; [2; 2; 0]; [2; 2; 1]; [2; 2; 2]],
      ex_en_num (total3 0 0 0 1 1 1 (fun i j k => r i j k * z i j k))%T,
      ex_en_num ((lit 3) * (total2 0 0 1 1 (fun j k => line 0 1 (ex_st_h 0) (fun _ => lit 1) (fun i => w i j k) (fun i => z i j k)) + total2 0 0 1 1 (fun i k => line 0 1 (ex_st_h 1) (fun _ => lit 1) (fun j => w i j k) (fun j => z i j k)) + total2 0 0 1 1 (fun i j => line 0 1 (ex_st_h 2) (fun _ => lit 1) (fun k => w i j k) (fun k => z i j k))))%T)
   | None => (false, (0, 0), (0, 0)) end) = (true, (-10384, 3), (-10384, 3)).
Proof. split; [repeat constructor; discriminate|]. split; [repeat constructor; discriminate|]. split; [repeat constructor; discriminate|]. split; [repeat constructor; discriminate|]. vm_compute. reflexivity. Qed.

(** ** Symmetry

    Two runs over the same coefficients, one on [w] and one on [z], whose ghost values
    are in the same ratio to their neighbours: the operator of [w] against [z] is the
    operator of [z] against [w]. *)

Theorem C59_selfadjoint_v1_1d : forall (S : Scalar), field_laws S ->
  forall i0 i1 dx beta b0 gcw u f0 alpha agcw a rgcw res (m mo n no : mem S) r w c v0 r' z,
  i0 <= i1 -> 0 <= gcw -> 0 <= rgcw ->
  apart f0 [b0; a; u] -> apart res [f0; a; u] ->
  (m' <- cdf_1d_flux i0 i1 dx b0 gcw u f0 m ;;
   cd_apply_1d_diffusion_v1_apply i0 i1 alpha beta dx agcw a gcw u f0 rgcw res m') = Some mo ->
  (forall i, i0 <= i <= i1 -> ((mkFa res (CELL1d i0 i1 rgcw))!(i))%F mo = Some (r i)) ->
  (forall i, i0 - 1 <= i <= i1 + 1 -> ((mkFa u (CELL1d i0 i1 gcw))!(i))%F m = Some (w i)) ->
  (forall i, i0 <= i <= i1 -> ((mkFa a (CELL1d i0 i1 agcw))!(i))%F m = Some (c i)) ->
  (forall i, i0 <= i <= i1 + 1 -> ((mkFa b0 (FACE1d i0 i1 0))!(i))%F m = Some (v0 i)) ->
  (n' <- cdf_1d_flux i0 i1 dx b0 gcw u f0 n ;;
   cd_apply_1d_diffusion_v1_apply i0 i1 alpha beta dx agcw a gcw u f0 rgcw res n') = Some no ->
  (forall i, i0 <= i <= i1 -> ((mkFa res (CELL1d i0 i1 rgcw))!(i))%F no = Some (r' i)) ->
  (forall i, i0 - 1 <= i <= i1 + 1 -> ((mkFa u (CELL1d i0 i1 gcw))!(i))%F n = Some (z i)) ->
  (forall i, i0 <= i <= i1 -> ((mkFa a (CELL1d i0 i1 agcw))!(i))%F n = Some (c i)) ->
  (forall i, i0 <= i <= i1 + 1 -> ((mkFa b0 (FACE1d i0 i1 0))!(i))%F n = Some (v0 i)) ->
  ((w (i0 - 1)%Z * z i0 = z (i0 - 1)%Z * w i0)%T /\ (w (i1 + 1)%Z * z i1 = z (i1 + 1)%Z * w i1)%T) ->
  (total i0 i1 (fun i => r i * z i))%T = (total i0 i1 (fun i => r' i * w i))%T.
Proof. exact @selfadjoint_v1_1d. Qed.
Print Assumptions C59_selfadjoint_v1_1d.

Example C59_selfadjoint_v1_1d_example :
  apart (5%nat, 0) [(0%nat, 0); (3%nat, 0); (4%nat, 0)] /\
  apart (8%nat, 0) [(5%nat, 0); (3%nat, 0); (4%nat, 0)] /\
  (let m := ex_en_cells 20 [0; 1; -1; 0] in let n := ex_en_cells 20 [0; 5; 4; 0] in
   match (m' <- cdf_1d_flux 0 1 ex_st_h (0%nat, 0) 1 (4%nat, 0) (5%nat, 0) m ;; cd_apply_1d_diffusion_v1_apply 0 1 (lit 5) (lit 3) ex_st_h 1 (3%nat, 0) 1 (4%nat, 0) (5%nat, 0) 0 (8%nat, 0) m'), (m' <- cdf_1d_flux 0 1 ex_st_h (0%nat, 0) 1 (4%nat, 0) (5%nat, 0) n ;; cd_apply_1d_diffusion_v1_apply 0 1 (lit 5) (lit 3) ex_st_h 1 (3%nat, 0) 1 (4%nat, 0) (5%nat, 0) 0 (8%nat, 0) m') with
   | Some mo, Some no =>
     let r := (fun i => ex_en_val mo (mkFa (8%nat, 0) (CELL1d 0 1 0)) [i]) in let w := (fun i => ex_en_val m (mkFa (4%nat, 0) (CELL1d 0 1 1)) [i]) in
     let r' := (fun i => ex_en_val no (mkFa (8%nat, 0) (CELL1d 0 1 0)) [i]) in let z := (fun i => ex_en_val n (mkFa (4%nat, 0) (CELL1d 0 1 1)) [i]) in
     (ex_en_ok mo (mkFa (8%nat, 0) (CELL1d 0 1 0)) [[0]; [1]] && ex_en_ok m (mkFa (4%nat, 0) (CELL1d 0 1 1)) [[-1]; [0]; [1]; [2]] && ex_en_ok m (mkFa (3%nat, 0) (CELL1d 0 1 1)) [[0]; [1]] && ex_en_ok m (mkFa (0%nat, 0) (FACE1d 0 1 0)) [[0]; [1]; [2]] && ex_en_ok no (mkFa (8%nat, 0) (CELL1d 0 1 0)) [[0]; [1]] && ex_en_ok n (mkFa (4%nat, 0) (CELL1d 0 1 1)) [[-1]; [0]; [1]; [2]],
      ex_en_num (total 0 1 (fun i => r i * z i))%T, ex_en_num (total 0 1 (fun i => r' i * w i))%T)
   | _, _ => (false, (0, 0), (0, 0)) end) = (true, (-773, 4), (-773, 4)).
Proof. split; [repeat constructor; discriminate|]. split; [repeat constructor; discriminate|]. vm_compute. reflexivity. Qed.

Theorem C59_selfadjoint_v2_1d : forall (S : Scalar), field_laws S ->
  forall i0 i1 dx beta b0 gcw u f0 alpha rgcw res (m mo n no : mem S) r w v0 r' z,
  i0 <= i1 -> 0 <= gcw -> 0 <= rgcw ->
  apart f0 [b0; u] -> apart res [f0; u] ->
  (m' <- cdf_1d_flux i0 i1 dx b0 gcw u f0 m ;;
   cd_apply_1d_diffusion_v2_apply i0 i1 alpha beta dx gcw u f0 rgcw res m') = Some mo ->
  (forall i, i0 <= i <= i1 -> ((mkFa res (CELL1d i0 i1 rgcw))!(i))%F mo = Some (r i)) ->
  (forall i, i0 - 1 <= i <= i1 + 1 -> ((mkFa u (CELL1d i0 i1 gcw))!(i))%F m = Some (w i)) ->
  (forall i, i0 <= i <= i1 + 1 -> ((mkFa b0 (FACE1d i0 i1 0))!(i))%F m = Some (v0 i)) ->
  (n' <- cdf_1d_flux i0 i1 dx b0 gcw u f0 n ;;
   cd_apply_1d_diffusion_v2_apply i0 i1 alpha beta dx gcw u f0 rgcw res n') = Some no ->
  (forall i, i0 <= i <= i1 -> ((mkFa res (CELL1d i0 i1 rgcw))!(i))%F no = Some (r' i)) ->
  (forall i, i0 - 1 <= i <= i1 + 1 -> ((mkFa u (CELL1d i0 i1 gcw))!(i))%F n = Some (z i)) ->
  (forall i, i0 <= i <= i1 + 1 -> ((mkFa b0 (FACE1d i0 i1 0))!(i))%F n = Some (v0 i)) ->
  ((w (i0 - 1)%Z * z i0 = z (i0 - 1)%Z * w i0)%T /\ (w (i1 + 1)%Z * z i1 = z (i1 + 1)%Z * w i1)%T) ->
  (total i0 i1 (fun i => r i * z i))%T = (total i0 i1 (fun i => r' i * w i))%T.
Proof. exact @selfadjoint_v2_1d. Qed.
Print Assumptions C59_selfadjoint_v2_1d.

Example C59_selfadjoint_v2_1d_example :
  apart (5%nat, 0) [(0%nat, 0); (4%nat, 0)] /\
  apart (8%nat, 0) [(5%nat, 0); (4%nat, 0)] /\
  (let m := ex_en_cells 20 [0; 1; -1; 0] in let n := ex_en_cells 20 [0; 5; 4; 0] in
   match (m' <- cdf_1d_flux 0 1 ex_st_h (0%nat, 0) 1 (4%nat, 0) (5%nat, 0) m ;; cd_apply_1d_diffusion_v2_apply 0 1 (lit 5) (lit 3) ex_st_h 1 (4%nat, 0) (5%nat, 0) 0 (8%nat, 0) m'), (m' <- cdf_1d_flux 0 1 ex_st_h (0%nat, 0) 1 (4%nat, 0) (5%nat, 0) n ;; cd_apply_1d_diffusion_v2_apply 0 1 (lit 5) (lit 3) ex_st_h 1 (4%nat, 0) (5%nat, 0) 0 (8%nat, 0) m') with
   | Some mo, Some no =>
     let r := (fun i => ex_en_val mo (mkFa (8%nat, 0) (CELL1d 0 1 0)) [i]) in let w := (fun i => ex_en_val m (mkFa (4%nat, 0) (CELL1d 0 1 1)) [i]) in
     let r' := (fun i => ex_en_val no (mkFa (8%nat, 0) (CELL1d 0 1 0)) [i]) in let z := (fun i => ex_en_val n (mkFa (4%nat, 0) (CELL1d 0 1 1)) [i]) in
     (ex_en_ok mo (mkFa (8%nat, 0) (CELL1d 0 1 0)) [[0]; [1]] && ex_en_ok m (mkFa (4%nat, 0) (CELL1d 0 1 1)) [[-1]; [0]; [1]; [2]] && ex_en_ok m (mkFa (0%nat, 0) (FACE1d 0 1 0)) [[0]; [1]; [2]] && ex_en_ok no (mkFa (8%nat, 0) (CELL1d 0 1 0)) [[0]; [1]] && ex_en_ok n (mkFa (4%nat, 0) (CELL1d 0 1 1)) [[-1]; [0]; [1]; [2]],
      ex_en_num (total 0 1 (fun i => r i * z i))%T, ex_en_num (total 0 1 (fun i => r' i * w i))%T)
   | _, _ => (false, (0, 0), (0, 0)) end) = (true, (-13, 4), (-13, 4)).
Proof. split; [repeat constructor; discriminate|]. split; [repeat constructor; discriminate|]. vm_compute. reflexivity. Qed.

Theorem C59_selfadjoint_poisson_1d : forall (S : Scalar), field_laws S ->
  forall i0 i1 dx beta gcw u f0 rgcw res (m mo n no : mem S) r w r' z,
  i0 <= i1 -> 0 <= gcw -> 0 <= rgcw ->
  apart f0 [u] -> apart res [f0; u] ->
  (m' <- cdf_1d_poisson_flux i0 i1 dx gcw u f0 m ;;
   cd_apply_1d_poisson_v2_apply i0 i1 beta dx f0 rgcw res m') = Some mo ->
  (forall i, i0 <= i <= i1 -> ((mkFa res (CELL1d i0 i1 rgcw))!(i))%F mo = Some (r i)) ->
  (forall i, i0 - 1 <= i <= i1 + 1 -> ((mkFa u (CELL1d i0 i1 gcw))!(i))%F m = Some (w i)) ->
  (n' <- cdf_1d_poisson_flux i0 i1 dx gcw u f0 n ;;
   cd_apply_1d_poisson_v2_apply i0 i1 beta dx f0 rgcw res n') = Some no ->
  (forall i, i0 <= i <= i1 -> ((mkFa res (CELL1d i0 i1 rgcw))!(i))%F no = Some (r' i)) ->
  (forall i, i0 - 1 <= i <= i1 + 1 -> ((mkFa u (CELL1d i0 i1 gcw))!(i))%F n = Some (z i)) ->
  ((w (i0 - 1)%Z * z i0 = z (i0 - 1)%Z * w i0)%T /\ (w (i1 + 1)%Z * z i1 = z (i1 + 1)%Z * w i1)%T) ->
  (total i0 i1 (fun i => r i * z i))%T = (total i0 i1 (fun i => r' i * w i))%T.
Proof. exact @selfadjoint_poisson_1d. Qed.
Print Assumptions C59_selfadjoint_poisson_1d.

Example C59_selfadjoint_poisson_1d_example :
  apart (5%nat, 0) [(4%nat, 0)] /\
  apart (8%nat, 0) [(5%nat, 0); (4%nat, 0)] /\
  (let m := ex_en_cells 20 [0; 1; -1; 0] in let n := ex_en_cells 20 [0; 5; 4; 0] in
   match (m' <- cdf_1d_poisson_flux 0 1 ex_st_h 1 (4%nat, 0) (5%nat, 0) m ;; cd_apply_1d_poisson_v2_apply 0 1 (lit 3) ex_st_h (5%nat, 0) 0 (8%nat, 0) m'), (m' <- cdf_1d_poisson_flux 0 1 ex_st_h 1 (4%nat, 0) (5%nat, 0) n ;; cd_apply_1d_poisson_v2_apply 0 1 (lit 3) ex_st_h (5%nat, 0) 0 (8%nat, 0) m') with
   | Some mo, Some no =>
     let r := (fun i => ex_en_val mo (mkFa (8%nat, 0) (CELL1d 0 1 0)) [i]) in let w := (fun i => ex_en_val m (mkFa (4%nat, 0) (CELL1d 0 1 1)) [i]) in
     let r' := (fun i => ex_en_val no (mkFa (8%nat, 0) (CELL1d 0 1 0)) [i]) in let z := (fun i => ex_en_val n (mkFa (4%nat, 0) (CELL1d 0 1 1)) [i]) in
     (ex_en_ok mo (mkFa (8%nat, 0) (CELL1d 0 1 0)) [[0]; [1]] && ex_en_ok m (mkFa (4%nat, 0) (CELL1d 0 1 1)) [[-1]; [0]; [1]; [2]] && ex_en_ok no (mkFa (8%nat, 0) (CELL1d 0 1 0)) [[0]; [1]] && ex_en_ok n (mkFa (4%nat, 0) (CELL1d 0 1 1)) [[-1]; [0]; [1]; [2]],
      ex_en_num (total 0 1 (fun i => r i * z i))%T, ex_en_num (total 0 1 (fun i => r' i * w i))%T)
   | _, _ => (false, (0, 0), (0, 0)) end) = (true, (9, 4), (9, 4)).
Proof. split; [repeat constructor; discriminate|]. split; [repeat constructor; discriminate|]. vm_compute. reflexivity. Qed.

Theorem C59_selfadjoint_v1_2d : forall (S : Scalar), field_laws S ->
  forall i0 j0 i1 j1 dx beta b0 b1 gcw u f0 f1 alpha agcw a rgcw res (m mo n no : mem S) r w c v0 v1 r' z,
  i0 <= i1 -> j0 <= j1 -> 0 <= gcw -> 0 <= rgcw ->
  apart f0 [f1; b0; b1; a; u] -> apart f1 [b0; b1; a; u] -> apart res [f0; f1; a; u] ->
  (m' <- cdf_2d_flux i0 j0 i1 j1 dx b0 b1 gcw u f0 f1 m ;;
   cd_apply_2d_diffusion_v1_apply i0 i1 j0 j1 alpha beta dx agcw a gcw u f0 f1 rgcw res m') = Some mo ->
  (forall i j, i0 <= i <= i1 -> j0 <= j <= j1 -> ((mkFa res (CELL2d i0 j0 i1 j1 rgcw))!(i, j))%F mo = Some (r i j)) ->
  (forall i j, i0 - 1 <= i <= i1 + 1 -> j0 - 1 <= j <= j1 + 1 -> ((mkFa u (CELL2d i0 j0 i1 j1 gcw))!(i, j))%F m = Some (w i j)) ->
  (forall i j, i0 <= i <= i1 -> j0 <= j <= j1 -> ((mkFa a (CELL2d i0 j0 i1 j1 agcw))!(i, j))%F m = Some (c i j)) ->
  (forall i j, i0 <= i <= i1 + 1 -> j0 <= j <= j1 -> ((mkFa b0 (FACE2d0 i0 j0 i1 j1 0))!(i, j))%F m = Some (v0 i j)) ->
  (forall i j, i0 <= i <= i1 -> j0 <= j <= j1 + 1 -> ((mkFa b1 (FACE2d1 i0 j0 i1 j1 0))!(j, i))%F m = Some (v1 i j)) ->
  (n' <- cdf_2d_flux i0 j0 i1 j1 dx b0 b1 gcw u f0 f1 n ;;
   cd_apply_2d_diffusion_v1_apply i0 i1 j0 j1 alpha beta dx agcw a gcw u f0 f1 rgcw res n') = Some no ->
  (forall i j, i0 <= i <= i1 -> j0 <= j <= j1 -> ((mkFa res (CELL2d i0 j0 i1 j1 rgcw))!(i, j))%F no = Some (r' i j)) ->
  (forall i j, i0 - 1 <= i <= i1 + 1 -> j0 - 1 <= j <= j1 + 1 -> ((mkFa u (CELL2d i0 j0 i1 j1 gcw))!(i, j))%F n = Some (z i j)) ->
  (forall i j, i0 <= i <= i1 -> j0 <= j <= j1 -> ((mkFa a (CELL2d i0 j0 i1 j1 agcw))!(i, j))%F n = Some (c i j)) ->
  (forall i j, i0 <= i <= i1 + 1 -> j0 <= j <= j1 -> ((mkFa b0 (FACE2d0 i0 j0 i1 j1 0))!(i, j))%F n = Some (v0 i j)) ->
  (forall i j, i0 <= i <= i1 -> j0 <= j <= j1 + 1 -> ((mkFa b1 (FACE2d1 i0 j0 i1 j1 0))!(j, i))%F n = Some (v1 i j)) ->
  (forall j, j0 <= j <= j1 -> (w (i0 - 1)%Z j * z i0 j = z (i0 - 1)%Z j * w i0 j)%T /\ (w (i1 + 1)%Z j * z i1 j = z (i1 + 1)%Z j * w i1 j)%T) ->
  (forall i, i0 <= i <= i1 -> (w i (j0 - 1)%Z * z i j0 = z i (j0 - 1)%Z * w i j0)%T /\ (w i (j1 + 1)%Z * z i j1 = z i (j1 + 1)%Z * w i j1)%T) ->
  (total2 i0 j0 i1 j1 (fun i j => r i j * z i j))%T = (total2 i0 j0 i1 j1 (fun i j => r' i j * w i j))%T.
Proof. exact @selfadjoint_v1_2d. Qed.
Print Assumptions C59_selfadjoint_v1_2d.

Example C59_selfadjoint_v1_2d_example :
  apart (5%nat, 0) [(6%nat, 0); (0%nat, 0); (1%nat, 0); (3%nat, 0); (4%nat, 0)] /\
  apart (6%nat, 0) [(0%nat, 0); (1%nat, 0); (3%nat, 0); (4%nat, 0)] /\
  apart (8%nat, 0) [(5%nat, 0); (6%nat, 0); (3%nat, 0); (4%nat, 0)] /\
  (let m := ex_en_cells 40 [0; 0; 0; 0; 0; 1; -1; 0; 0; -2; 6; 0; 0; 0; 0; 0] in let n := ex_en_cells 40 [0; 0; 0; 0; 0; 5; 4; 0; 0; 3; 2; 0; 0; 0; 0; 0] in
   match (m' <- cdf_2d_flux 0 0 1 1 ex_st_h (0%nat, 0) (1%nat, 0) 1 (4%nat, 0) (5%nat, 0) (6%nat, 0) m ;; cd_apply_2d_diffusion_v1_apply 0 1 0 1 (lit 5) (lit 3) ex_st_h 1 (3%nat, 0) 1 (4%nat, 0) (5%nat, 0) (6%nat, 0) 0 (8%nat, 0) m'), (m' <- cdf_2d_flux 0 0 1 1 ex_st_h (0%nat, 0) (1%nat, 0) 1 (4%nat, 0) (5%nat, 0) (6%nat, 0) n ;; cd_apply_2d_diffusion_v1_apply 0 1 0 1 (lit 5) (lit 3) ex_st_h 1 (3%nat, 0) 1 (4%nat, 0) (5%nat, 0) (6%nat, 0) 0 (8%nat, 0) m') with
   | Some mo, Some no =>
     let r := (fun i j => ex_en_val mo (mkFa (8%nat, 0) (CELL2d 0 0 1 1 0)) [i; j]) in let w := (fun i j => ex_en_val m (mkFa (4%nat, 0) (CELL2d 0 0 1 1 1)) [i; j]) in
     let r' := (fun i j => ex_en_val no (mkFa (8%nat, 0) (CELL2d 0 0 1 1 0)) [i; j]) in let z := (fun i j => ex_en_val n (mkFa (4%nat, 0) (CELL2d 0 0 1 1 1)) [i; j]) in
     (ex_en_ok mo (mkFa (8%nat, 0) (CELL2d 0 0 1 1 0)) [[0; 0]; [0; 1]; [1; 0]; [1; 1]] && ex_en_ok m (mkFa (4%nat, 0) (CELL2d 0 0 1 1 1)) [[-1; -1]; [-1; 0]; [-1; 1]; [-1; 2]; [0; -1]; [0; 0]; [0; 1]; [0; 2]; [1; -1]; [1; 0]; [1; 1]; [1; 2]; [2; -1]; [2; 0]; [2; 1]; [2; 2]] && ex_en_ok m (mkFa (3%nat, 0) (CELL2d 0 0 1 1 1)) [[0; 0]; [0; 1]; [1; 0]; [1; 1]] && ex_en_ok m (mkFa (0%nat, 0) (FACE2d0 0 0 1 1 0)) [[0; 0]; [0; 1]; [1; 0]; [1; 1]; [2; 0]; [2; 1]] && ex_en_ok m (mkFa (1%nat, 0) (FACE2d1 0 0 1 1 0)) [[0; 0]; [1; 0]; [2; 0]; [0; 1]; [1; 1]; [2; 1]] && ex_en_ok no (mkFa (8%nat, 0) (CELL2d 0 0 1 1 0)) [[0; 0]; [0; 1]; [1; 0]; [1; 1]] && ex_en_ok n (mkFa (4%nat, 0) (CELL2d 0 0 1 1 1)) [[-1; -1]; [-1; 0]; [-1; 1]; [-1; 2]; [0; -1]; [0; 0]; [0; 1]; [0; 2]; [1; -1]; [1; 0]; [1; 1]; [1; 2]; [2; -1]; [2; 0]; [2; 1]; [2; 2]],
      ex_en_num (total2 0 0 1 1 (fun i j => r i j * z i j))%T, ex_en_num (total2 0 0 1 1 (fun i j => r' i j * w i j))%T)
   | _, _ => (false, (0, 0), (0, 0)) end) = (true, (26387, 4), (26387, 4)).
Proof. split; [repeat constructor; discriminate|]. split; [repeat constructor; discriminate|]. split; [repeat constructor; discriminate|]. vm_compute. reflexivity. Qed.

Theorem C59_selfadjoint_v2_2d : forall (S : Scalar), field_laws S ->
  forall i0 j0 i1 j1 dx beta b0 b1 gcw u f0 f1 alpha rgcw res (m mo n no : mem S) r w v0 v1 r' z,
  i0 <= i1 -> j0 <= j1 -> 0 <= gcw -> 0 <= rgcw ->
  apart f0 [f1; b0; b1; u] -> apart f1 [b0; b1; u] -> apart res [f0; f1; u] ->
  (m' <- cdf_2d_flux i0 j0 i1 j1 dx b0 b1 gcw u f0 f1 m ;;
   cd_apply_2d_diffusion_v2_apply i0 i1 j0 j1 alpha beta dx gcw u f0 f1 rgcw res m') = Some mo ->
  (forall i j, i0 <= i <= i1 -> j0 <= j <= j1 -> ((mkFa res (CELL2d i0 j0 i1 j1 rgcw))!(i, j))%F mo = Some (r i j)) ->
  (forall i j, i0 - 1 <= i <= i1 + 1 -> j0 - 1 <= j <= j1 + 1 -> ((mkFa u (CELL2d i0 j0 i1 j1 gcw))!(i, j))%F m = Some (w i j)) ->
  (forall i j, i0 <= i <= i1 + 1 -> j0 <= j <= j1 -> ((mkFa b0 (FACE2d0 i0 j0 i1 j1 0))!(i, j))%F m = Some (v0 i j)) ->
  (forall i j, i0 <= i <= i1 -> j0 <= j <= j1 + 1 -> ((mkFa b1 (FACE2d1 i0 j0 i1 j1 0))!(j, i))%F m = Some (v1 i j)) ->
  (n' <- cdf_2d_flux i0 j0 i1 j1 dx b0 b1 gcw u f0 f1 n ;;
   cd_apply_2d_diffusion_v2_apply i0 i1 j0 j1 alpha beta dx gcw u f0 f1 rgcw res n') = Some no ->
  (forall i j, i0 <= i <= i1 -> j0 <= j <= j1 -> ((mkFa res (CELL2d i0 j0 i1 j1 rgcw))!(i, j))%F no = Some (r' i j)) ->
  (forall i j, i0 - 1 <= i <= i1 + 1 -> j0 - 1 <= j <= j1 + 1 -> ((mkFa u (CELL2d i0 j0 i1 j1 gcw))!(i, j))%F n = Some (z i j)) ->
  (forall i j, i0 <= i <= i1 + 1 -> j0 <= j <= j1 -> ((mkFa b0 (FACE2d0 i0 j0 i1 j1 0))!(i, j))%F n = Some (v0 i j)) ->
  (forall i j, i0 <= i <= i1 -> j0 <= j <= j1 + 1 -> ((mkFa b1 (FACE2d1 i0 j0 i1 j1 0))!(j, i))%F n = Some (v1 i j)) ->
  (forall j, j0 <= j <= j1 -> (w (i0 - 1)%Z j * z i0 j = z (i0 - 1)%Z j * w i0 j)%T /\ (w (i1 + 1)%Z j * z i1 j = z (i1 + 1)%Z j * w i1 j)%T) ->
  (forall i, i0 <= i <= i1 -> (w i (j0 - 1)%Z * z i j0 = z i (j0 - 1)%Z * w i j0)%T /\ (w i (j1 + 1)%Z * z i j1 = z i (j1 + 1)%Z * w i j1)%T) ->
  (total2 i0 j0 i1 j1 (fun i j => r i j * z i j))%T = (total2 i0 j0 i1 j1 (fun i j => r' i j * w i j))%T.
Proof. exact @selfadjoint_v2_2d. Qed.
Print Assumptions C59_selfadjoint_v2_2d.

Example C59_selfadjoint_v2_2d_example :
  apart (5%nat, 0) [(6%nat, 0); (0%nat, 0); (1%nat, 0); (4%nat, 0)] /\
  apart (6%nat, 0) [(0%nat, 0); (1%nat, 0); (4%nat, 0)] /\
  apart (8%nat, 0) [(5%nat, 0); (6%nat, 0); (4%nat, 0)] /\
  (let m := ex_en_cells 40 [0; 0; 0; 0; 0; 1; -1; 0; 0; -2; 6; 0; 0; 0; 0; 0] in let n := ex_en_cells 40 [0; 0; 0; 0; 0; 5; 4; 0; 0; 3; 2; 0; 0; 0; 0; 0] in
   match (m' <- cdf_2d_flux 0 0 1 1 ex_st_h (0%nat, 0) (1%nat, 0) 1 (4%nat, 0) (5%nat, 0) (6%nat, 0) m ;; cd_apply_2d_diffusion_v2_apply 0 1 0 1 (lit 5) (lit 3) ex_st_h 1 (4%nat, 0) (5%nat, 0) (6%nat, 0) 0 (8%nat, 0) m'), (m' <- cdf_2d_flux 0 0 1 1 ex_st_h (0%nat, 0) (1%nat, 0) 1 (4%nat, 0) (5%nat, 0) (6%nat, 0) n ;; cd_apply_2d_diffusion_v2_apply 0 1 0 1 (lit 5) (lit 3) ex_st_h 1 (4%nat, 0) (5%nat, 0) (6%nat, 0) 0 (8%nat, 0) m') with
   | Some mo, Some no =>
     let r := (fun i j => ex_en_val mo (mkFa (8%nat, 0) (CELL2d 0 0 1 1 0)) [i; j]) in let w := (fun i j => ex_en_val m (mkFa (4%nat, 0) (CELL2d 0 0 1 1 1)) [i; j]) in
     let r' := (fun i j => ex_en_val no (mkFa (8%nat, 0) (CELL2d 0 0 1 1 0)) [i; j]) in let z := (fun i j => ex_en_val n (mkFa (4%nat, 0) (CELL2d 0 0 1 1 1)) [i; j]) in
     (ex_en_ok mo (mkFa (8%nat, 0) (CELL2d 0 0 1 1 0)) [[0; 0]; [0; 1]; [1; 0]; [1; 1]] && ex_en_ok m (mkFa (4%nat, 0) (CELL2d 0 0 1 1 1)) [[-1; -1]; [-1; 0]; [-1; 1]; [-1; 2]; [0; -1]; [0; 0]; [0; 1]; [0; 2]; [1; -1]; [1; 0]; [1; 1]; [1; 2]; [2; -1]; [2; 0]; [2; 1]; [2; 2]] && ex_en_ok m (mkFa (0%nat, 0) (FACE2d0 0 0 1 1 0)) [[0; 0]; [0; 1]; [1; 0]; [1; 1]; [2; 0]; [2; 1]] && ex_en_ok m (mkFa (1%nat, 0) (FACE2d1 0 0 1 1 0)) [[0; 0]; [1; 0]; [2; 0]; [0; 1]; [1; 1]; [2; 1]] && ex_en_ok no (mkFa (8%nat, 0) (CELL2d 0 0 1 1 0)) [[0; 0]; [0; 1]; [1; 0]; [1; 1]] && ex_en_ok n (mkFa (4%nat, 0) (CELL2d 0 0 1 1 1)) [[-1; -1]; [-1; 0]; [-1; 1]; [-1; 2]; [0; -1]; [0; 0]; [0; 1]; [0; 2]; [1; -1]; [1; 0]; [1; 1]; [1; 2]; [2; -1]; [2; 0]; [2; 1]; [2; 2]],
      ex_en_num (total2 0 0 1 1 (fun i j => r i j * z i j))%T, ex_en_num (total2 0 0 1 1 (fun i j => r' i j * w i j))%T)
   | _, _ => (false, (0, 0), (0, 0)) end) = (true, (427, 4), (427, 4)).
Proof. split; [repeat constructor; discriminate|]. split; [repeat constructor; discriminate|]. split; [repeat constructor; discriminate|]. vm_compute. reflexivity. Qed.

Theorem C59_selfadjoint_poisson_2d : forall (S : Scalar), field_laws S ->
  forall i0 j0 i1 j1 dx beta gcw u f0 f1 rgcw res (m mo n no : mem S) r w r' z,
  i0 <= i1 -> j0 <= j1 -> 0 <= gcw -> 0 <= rgcw ->
  apart f0 [f1; u] -> apart f1 [u] -> apart res [f0; f1; u] ->
  (m' <- cdf_2d_poisson_flux i0 j0 i1 j1 dx gcw u f0 f1 m ;;
   cd_apply_2d_poisson_v2_apply i0 i1 j0 j1 beta dx f0 f1 rgcw res m') = Some mo ->
  (forall i j, i0 <= i <= i1 -> j0 <= j <= j1 -> ((mkFa res (CELL2d i0 j0 i1 j1 rgcw))!(i, j))%F mo = Some (r i j)) ->
  (forall i j, i0 - 1 <= i <= i1 + 1 -> j0 - 1 <= j <= j1 + 1 -> ((mkFa u (CELL2d i0 j0 i1 j1 gcw))!(i, j))%F m = Some (w i j)) ->
  (n' <- cdf_2d_poisson_flux i0 j0 i1 j1 dx gcw u f0 f1 n ;;
   cd_apply_2d_poisson_v2_apply i0 i1 j0 j1 beta dx f0 f1 rgcw res n') = Some no ->
  (forall i j, i0 <= i <= i1 -> j0 <= j <= j1 -> ((mkFa res (CELL2d i0 j0 i1 j1 rgcw))!(i, j))%F no = Some (r' i j)) ->
  (forall i j, i0 - 1 <= i <= i1 + 1 -> j0 - 1 <= j <= j1 + 1 -> ((mkFa u (CELL2d i0 j0 i1 j1 gcw))!(i, j))%F n = Some (z i j)) ->
  (forall j, j0 <= j <= j1 -> (w (i0 - 1)%Z j * z i0 j = z (i0 - 1)%Z j * w i0 j)%T /\ (w (i1 + 1)%Z j * z i1 j = z (i1 + 1)%Z j * w i1 j)%T) ->
  (forall i, i0 <= i <= i1 -> (w i (j0 - 1)%Z * z i j0 = z i (j0 - 1)%Z * w i j0)%T /\ (w i (j1 + 1)%Z * z i j1 = z i (j1 + 1)%Z * w i j1)%T) ->
  (total2 i0 j0 i1 j1 (fun i j => r i j * z i j))%T = (total2 i0 j0 i1 j1 (fun i j => r' i j * w i j))%T.
Proof. exact @selfadjoint_poisson_2d. Qed.
Print Assumptions C59_selfadjoint_poisson_2d.

Example C59_selfadjoint_poisson_2d_example :
  apart (5%nat, 0) [(6%nat, 0); (4%nat, 0)] /\
  apart (6%nat, 0) [(4%nat, 0)] /\
  apart (8%nat, 0) [(5%nat, 0); (6%nat, 0); (4%nat, 0)] /\
  (let m := ex_en_cells 40 [0; 0; 0; 0; 0; 1; -1; 0; 0; -2; 6; 0; 0; 0; 0; 0] in let n := ex_en_cells 40 [0; 0; 0; 0; 0; 5; 4; 0; 0; 3; 2; 0; 0; 0; 0; 0] in
   match (m' <- cdf_2d_poisson_flux 0 0 1 1 ex_st_h 1 (4%nat, 0) (5%nat, 0) (6%nat, 0) m ;; cd_apply_2d_poisson_v2_apply 0 1 0 1 (lit 3) ex_st_h (5%nat, 0) (6%nat, 0) 0 (8%nat, 0) m'), (m' <- cdf_2d_poisson_flux 0 0 1 1 ex_st_h 1 (4%nat, 0) (5%nat, 0) (6%nat, 0) n ;; cd_apply_2d_poisson_v2_apply 0 1 0 1 (lit 3) ex_st_h (5%nat, 0) (6%nat, 0) 0 (8%nat, 0) m') with
   | Some mo, Some no =>
     let r := (fun i j => ex_en_val mo (mkFa (8%nat, 0) (CELL2d 0 0 1 1 0)) [i; j]) in let w := (fun i j => ex_en_val m (mkFa (4%nat, 0) (CELL2d 0 0 1 1 1)) [i; j]) in
     let r' := (fun i j => ex_en_val no (mkFa (8%nat, 0) (CELL2d 0 0 1 1 0)) [i; j]) in let z := (fun i j => ex_en_val n (mkFa (4%nat, 0) (CELL2d 0 0 1 1 1)) [i; j]) in
     (ex_en_ok mo (mkFa (8%nat, 0) (CELL2d 0 0 1 1 0)) [[0; 0]; [0; 1]; [1; 0]; [1; 1]] && ex_en_ok m (mkFa (4%nat, 0) (CELL2d 0 0 1 1 1)) [[-1; -1]; [-1; 0]; [-1; 1]; [-1; 2]; [0; -1]; [0; 0]; [0; 1]; [0; 2]; [1; -1]; [1; 0]; [1; 1]; [1; 2]; [2; -1]; [2; 0]; [2; 1]; [2; 2]] && ex_en_ok no (mkFa (8%nat, 0) (CELL2d 0 0 1 1 0)) [[0; 0]; [0; 1]; [1; 0]; [1; 1]] && ex_en_ok n (mkFa (4%nat, 0) (CELL2d 0 0 1 1 1)) [[-1; -1]; [-1; 0]; [-1; 1]; [-1; 2]; [0; -1]; [0; 0]; [0; 1]; [0; 2]; [1; -1]; [1; 0]; [1; 1]; [1; 2]; [2; -1]; [2; 0]; [2; 1]; [2; 2]],
      ex_en_num (total2 0 0 1 1 (fun i j => r i j * z i j))%T, ex_en_num (total2 0 0 1 1 (fun i j => r' i j * w i j))%T)
   | _, _ => (false, (0, 0), (0, 0)) end) = (true, (5, 12), (5, 12)).
Proof. split; [repeat constructor; discriminate|]. split; [repeat constructor; discriminate|]. split; [repeat constructor; discriminate|]. vm_compute. reflexivity. Qed.

Theorem C59_selfadjoint_v1_3d : forall (S : Scalar), field_laws S ->
  forall i0 j0 k0 i1 j1 k1 dx beta b0 b1 b2 gcw u f0 f1 f2 alpha agcw a rgcw res (m mo n no : mem S) r w c v0 v1 v2 r' z,
  i0 <= i1 -> j0 <= j1 -> k0 <= k1 -> 0 <= gcw -> 0 <= rgcw ->
  apart f0 [f1; f2; b0; b1; b2; a; u] -> apart f1 [f2; b0; b1; b2; a; u] -> apart f2 [b0; b1; b2; a; u] -> apart res [f0; f1; f2; a; u] ->
  (m' <- cdf_3d_flux i0 j0 k0 i1 j1 k1 dx b0 b1 b2 gcw u f0 f1 f2 m ;;
   cd_apply_3d_diffusion_v1_apply i0 i1 j0 j1 k0 k1 alpha beta dx agcw a gcw u f0 f1 f2 rgcw res m') = Some mo ->
  (forall i j k, i0 <= i <= i1 -> j0 <= j <= j1 -> k0 <= k <= k1 -> ((mkFa res (CELL3d i0 j0 k0 i1 j1 k1 rgcw))!(i, j, k))%F mo = Some (r i j k)) ->
  (forall i j k, i0 - 1 <= i <= i1 + 1 -> j0 - 1 <= j <= j1 + 1 -> k0 - 1 <= k <= k1 + 1 -> ((mkFa u (CELL3d i0 j0 k0 i1 j1 k1 gcw))!(i, j, k))%F m = Some (w i j k)) ->
  (forall i j k, i0 <= i <= i1 -> j0 <= j <= j1 -> k0 <= k <= k1 -> ((mkFa a (CELL3d i0 j0 k0 i1 j1 k1 agcw))!(i, j, k))%F m = Some (c i j k)) ->
  (forall i j k, i0 <= i <= i1 + 1 -> j0 <= j <= j1 -> k0 <= k <= k1 -> ((mkFa b0 (FACE3d0 i0 j0 k0 i1 j1 k1 0))!(i, j, k))%F m = Some (v0 i j k)) ->
  (forall i j k, i0 <= i <= i1 -> j0 <= j <= j1 + 1 -> k0 <= k <= k1 -> ((mkFa b1 (FACE3d1 i0 j0 k0 i1 j1 k1 0))!(j, k, i))%F m = Some (v1 i j k)) ->
  (forall i j k, i0 <= i <= i1 -> j0 <= j <= j1 -> k0 <= k <= k1 + 1 -> ((mkFa b2 (FACE3d2 i0 j0 k0 i1 j1 k1 0))!(k, i, j))%F m = Some (v2 i j k)) ->
  (n' <- cdf_3d_flux i0 j0 k0 i1 j1 k1 dx b0 b1 b2 gcw u f0 f1 f2 n ;;
   cd_apply_3d_diffusion_v1_apply i0 i1 j0 j1 k0 k1 alpha beta dx agcw a gcw u f0 f1 f2 rgcw res n') = Some no ->
  (forall i j k, i0 <= i <= i1 -> j0 <= j <= j1 -> k0 <= k <= k1 -> ((mkFa res (CELL3d i0 j0 k0 i1 j1 k1 rgcw))!(i, j, k))%F no = Some (r' i j k)) ->
  (forall i j k, i0 - 1 <= i <= i1 + 1 -> j0 - 1 <= j <= j1 + 1 -> k0 - 1 <= k <= k1 + 1 -> ((mkFa u (CELL3d i0 j0 k0 i1 j1 k1 gcw))!(i, j, k))%F n = Some (z i j k)) ->
  (forall i j k, i0 <= i <= i1 -> j0 <= j <= j1 -> k0 <= k <= k1 -> ((mkFa a (CELL3d i0 j0 k0 i1 j1 k1 agcw))!(i, j, k))%F n = Some (c i j k)) ->
  (forall i j k, i0 <= i <= i1 + 1 -> j0 <= j <= j1 -> k0 <= k <= k1 -> ((mkFa b0 (FACE3d0 i0 j0 k0 i1 j1 k1 0))!(i, j, k))%F n = Some (v0 i j k)) ->
  (forall i j k, i0 <= i <= i1 -> j0 <= j <= j1 + 1 -> k0 <= k <= k1 -> ((mkFa b1 (FACE3d1 i0 j0 k0 i1 j1 k1 0))!(j, k, i))%F n = Some (v1 i j k)) ->
  (forall i j k, i0 <= i <= i1 -> j0 <= j <= j1 -> k0 <= k <= k1 + 1 -> ((mkFa b2 (FACE3d2 i0 j0 k0 i1 j1 k1 0))!(k, i, j))%F n = Some (v2 i j k)) ->
  (forall j k, j0 <= j <= j1 -> k0 <= k <= k1 -> (w (i0 - 1)%Z j k * z i0 j k = z (i0 - 1)%Z j k * w i0 j k)%T /\ (w (i1 + 1)%Z j k * z i1 j k = z (i1 + 1)%Z j k * w i1 j k)%T) ->
  (forall i k, i0 <= i <= i1 -> k0 <= k <= k1 -> (w i (j0 - 1)%Z k * z i j0 k = z i (j0 - 1)%Z k * w i j0 k)%T /\ (w i (j1 + 1)%Z k * z i j1 k = z i (j1 + 1)%Z k * w i j1 k)%T) ->
  (forall i j, i0 <= i <= i1 -> j0 <= j <= j1 -> (w i j (k0 - 1)%Z * z i j k0 = z i j (k0 - 1)%Z * w i j k0)%T /\ (w i j (k1 + 1)%Z * z i j k1 = z i j (k1 + 1)%Z * w i j k1)%T) ->
  (total3 i0 j0 k0 i1 j1 k1 (fun i j k => r i j k * z i j k))%T = (total3 i0 j0 k0 i1 j1 k1 (fun i j k => r' i j k * w i j k))%T.
Proof. exact @selfadjoint_v1_3d. Qed.
Print Assumptions C59_selfadjoint_v1_3d.

Example C59_selfadjoint_v1_3d_example :
  apart (5%nat, 0) [(6%nat, 0); (7%nat, 0); (0%nat, 0); (1%nat, 0); (2%nat, 0); (3%nat, 0); (4%nat, 0)] /\
  apart (6%nat, 0) [(7%nat, 0); (0%nat, 0); (1%nat, 0); (2%nat, 0); (3%nat, 0); (4%nat, 0)] /\
  apart (7%nat, 0) [(0%nat, 0); (1%nat, 0); (2%nat, 0); (3%nat, 0); (4%nat, 0)] /\
  apart (8%nat, 0) [(5%nat, 0); (6%nat, 0); (7%nat, 0); (3%nat, 0); (4%nat, 0)] /\
  (let m := ex_en_cells 70 [0; 0; 0; 0; 0; 0; 0; 0; 0; 0; 0; 0; 0; 0; 0; 0; 0; 0; 0; 0; 0; 1; -1; 0; 0; -2; 6; 0; 0; 0; 0; 0; 0; 0; 0; 0; 0; -3; 7; 0; 0; 8; -8; 0; 0; 0; 0; 0; 0; 0; 0; 0; 0; 0; 0; 0; 0; 0; 0; 0; 0; 0; 0; 0] in let n := ex_en_cells 70 [0; 0; 0; 0; 0; 0; 0; 0; 0; 0; 0; 0; 0; 0; 0; 0; 0; 0; 0; 0; 0; 5; 4; 0; 0; 3; 2; 0; 0; 0; 0; 0; 0; 0; 0; 0; 0; 2; 1; 0; 0; 0; -1; 0; 0; 0; 0; 0; 0; 0; 0; 0; 0; 0; 0; 0; 0; 0; 0; 0; 0; 0; 0; 0] in
   match (m' <- cdf_3d_flux 0 0 0 1 1 1 ex_st_h (0%nat, 0) (1%nat, 0) (2%nat, 0) 1 (4%nat, 0) (5%nat, 0) (6%nat, 0) (7%nat, 0) m ;; cd_apply_3d_diffusion_v1_apply 0 1 0 1 0 1 (lit 5) (lit 3) ex_st_h 1 (3%nat, 0) 1 (4%nat, 0) (5%nat, 0) (6%nat, 0) (7%nat, 0) 0 (8%nat, 0) m'), (m' <- cdf_3d_flux 0 0 0 1 1 1 ex_st_h (0%nat, 0) (1%nat, 0) (2%nat, 0) 1 (4%nat, 0) (5%nat, 0) (6%nat, 0) (7%nat, 0) n ;; cd_apply_3d_diffusion_v1_apply 0 1 0 1 0 1 (lit 5) (lit 3) ex_st_h 1 (3%nat, 0) 1 (4%nat, 0) (5%nat, 0) (6%nat, 0) (7%nat, 0) 0 (8%nat, 0) m') with
   | Some mo, Some no =>
     let r := (fun i j k => ex_en_val mo (mkFa (8%nat, 0) (CELL3d 0 0 0 1 1 1 0)) [i; j; k]) in let w := (fun i j k => ex_en_val m (mkFa (4%nat, 0) (CELL3d 0 0 0 1 1 1 1)) [i; j; k]) in
     let r' := (fun i j k => ex_en_val no (mkFa (8%nat, 0) (CELL3d 0 0 0 1 1 1 0)) [i; j; k]) in let z := (fun i j k => ex_en_val n (mkFa (4%nat, 0) (CELL3d 0 0 0 1 1 1 1)) [i; j; k]) in
     (ex_en_ok mo (mkFa (8%nat, 0) (CELL3d 0 0 0 1 1 1 0)) [[0; 0; 0]; [0; 0; 1]; [0; 1; 0]; [0; 1; 1]; [1; 0; 0]; [1; 0; 1]; [1; 1; 0]; [1; 1; 1]] && ex_en_ok m (mkFa (4%nat, 0) (CELL3d 0 0 0 1 1 1 1)) [[-1; -1; -1]; [-1; -1; 0]; [-1; -1; 1]; [-1; -1; 2]; [-1; 0; -1]; [-1; 0; 0]; [-1; 0; 1]; [-1; 0; 2]; [-1; 1; -1]; [-1; 1; 0]; [-1; 1; 1]; [-1; 1; 2]; [-1; 2; -1]; [-1; 2; 0]; [-1; 2; 1]; [-1; 2; 2]; [0; -1; -1]; [0; -1; 0]; [0; -1; 1]; [0; -1; 2]; [0; 0; -1]; [0; 0; 0]; [0; 0; 1]; [0; 0; 2]; [0; 1; -1]; [0; 1; 0]; [0; 1; 1]; [0; 1; 2]; [0; 2; -1]; [0; 2; 0]; [0; 2; 1]; [0; 2; 2]; [1; -1; -1]; [1; -1; 0]; [1; -1; 1]; [1; -1; 2]; [1; 0; -1]; [1; 0; 0]; [1; 0; 1]; [1; 0; 2]; [1; 1; -1]; [1; 1; 0]; [1; 1; 1]; [1; 1; 2]; [1; 2; -1]; [1; 2; 0]; [1; 2; 1]; [1; 2; 2]; [2; -1; -1]; [2; -1; 0]; [2; -1; 1]; [2; -1; 2]; [2; 0; -1]; [2; 0; 0]; [2; 0; 1]; [2; 0; 2]; [2; 1; -1]; [2; 1; 0]; [2; 1; 1]; [2; 1; 2]; [2; 2; -1]; [2; 2; 0]; [2; 2; 1]; [2; 2; 2]] && ex_en_ok m (mkFa (3%nat, 0) (CELL3d 0 0 0 1 1 1 1)) [[0; 0; 0]; [0; 0; 1]; [0; 1; 0]; [0; 1; 1]; [1; 0; 0]; [1; 0; 1]; [1; 1; 0]; [1; 1; 1]] && ex_en_ok m (mkFa (0%nat, 0) (FACE3d0 0 0 0 1 1 1 0)) [[0; 0; 0]; [0; 0; 1]; [0; 1; 0]; [0; 1; 1]; [1; 0; 0]; [1; 0; 1]; [1; 1; 0]; [1; 1; 1]; [2; 0; 0]; [2; 0; 1]; [2; 1; 0]; [2; 1; 1]] && ex_en_ok m (mkFa (1%nat, 0) (FACE3d1 0 0 0 1 1 1 0)) [[0; 0; 0]; [0; 1; 0]; [1; 0; 0]; [1; 1; 0]; [2; 0; 0]; [2; 1; 0]; [0; 0; 1]; [0; 1; 1]; [1; 0; 1]; [1; 1; 1]; [2; 0; 1]; [2; 1; 1]] && ex_en_ok m (mkFa (2%nat, 0) (FACE3d2 0 0 0 1 1 1 0)) [[0; 0; 0]; [1; 0; 0]; [2; 0; 0]; [0; 0; 1]; [1; 0; 1]; [2; 0; 1]; [0; 1; 0]; [1; 1; 0]; [2; 1; 0]; [0; 1; 1]; [1; 1; 1]; [2; 1; 1]] && ex_en_ok no (mkFa (8%nat, 0) (CELL3d 0 0 0 1 1 1 0)) [[0; 0; 0]; [0; 0; 1]; [0; 1; 0]; [0; 1; 1]; [1; 0; 0]; [1; 0; 1]; [1; 1; 0]; [1; 1; 1]] && ex_en_ok n (mkFa (4%nat, 0) (CELL3d 0 0 0 1 1 1 1)) [[-1; -1; -1]; [-1; -1; 0]; [-1; -1; 1]; [-1; -1; 2]; [-1; 0; -1]; [-1; 0; 0]; [-1; 0; 1]; [-1; 0; 2]; [-1; 1; -1]; [-1; 1; 0]; [-1; 1; 1]; [-1; 1; 2]; [-1; 2; -1]; [-1; 2; 0]; [-1; 2; 1]; [-1; 2; 2]; [0; -1; -1]; [0; -1; 0]; [0; -1; 1]; [0; -1; 2]; [0; 0; -1]; [0; 0; 0]; [0; 0; 1]; [0; 0; 2]; [0; 1; -1]; [0; 1; 0]; [0; 1; 1]; [0; 1; 2]; [0; 2; -1]; [0; 2; 0]; [0; 2; 1]; [0; 2; 2]; [1; -1; -1]; [1; -1; 0]; [1; -1; 1]; [1; -1; 2]; [1; 0; -1]; [1; 0; 0]; [1; 0; 1]; [1; 0; 2]; [1; 1; -1]; [1; 1; 0]; [1; 1; 1]; [1; 1; 2]; [1; 2; -1]; [1; 2; 0]; [1; 2; 1]; [1; 2; 2]; [2; -1; -1]; [2; -1; 0]; [2; -1; 1]; [2; -1; 2]; [2; 0; -1]; [2; 0; 0]; [2; 0; 1]; [2; 0; 2]; [2; 1; -1]; [2; 1; 0]; [2; 1; 1]; [2; 1; 2]; [2; 2; -1]; [2; 2; 0]; [2; 2; 1]; [2; 2; 2]],
      ex_en_num (total3 0 0 0 1 1 1 (fun i j k => r i j k * z i j k))%T, ex_en_num (total3 0 0 0 1 1 1 (fun i j k => r' i j k * w i j k))%T)
   | _, _ => (false, (0, 0), (0, 0)) end) = (true, (2128553, 16), (2128553, 16)).
Proof. split; [repeat constructor; discriminate|]. split; [repeat constructor; discriminate|]. split; [repeat constructor; discriminate|]. split; [repeat constructor; discriminate|]. vm_compute. reflexivity. Qed.

Theorem C59_selfadjoint_v2_3d : forall (S : Scalar), field_laws S ->
  forall i0 j0 k0 i1 j1 k1 dx beta b0 b1 b2 gcw u f0 f1 f2 alpha rgcw res (m mo n no : mem S) r w v0 v1 v2 r' z,
  i0 <= i1 -> j0 <= j1 -> k0 <= k1 -> 0 <= gcw -> 0 <= rgcw ->
  apart f0 [f1; f2; b0; b1; b2; u] -> apart f1 [f2; b0; b1; b2; u] -> apart f2 [b0; b1; b2; u] -> apart res [f0; f1; f2; u] ->
  (m' <- cdf_3d_flux i0 j0 k0 i1 j1 k1 dx b0 b1 b2 gcw u f0 f1 f2 m ;;
   cd_apply_3d_diffusion_v2_apply i0 i1 j0 j1 k0 k1 alpha beta dx gcw u f0 f1 f2 rgcw res m') = Some mo ->
  (forall i j k, i0 <= i <= i1 -> j0 <= j <= j1 -> k0 <= k <= k1 -> ((mkFa res (CELL3d i0 j0 k0 i1 j1 k1 rgcw))!(i, j, k))%F mo = Some (r i j k)) ->
  (forall i j k, i0 - 1 <= i <= i1 + 1 -> j0 - 1 <= j <= j1 + 1 -> k0 - 1 <= k <= k1 + 1 -> ((mkFa u (CELL3d i0 j0 k0 i1 j1 k1 gcw))!(i, j, k))%F m = Some (w i j k)) ->
  (forall i j k, i0 <= i <= i1 + 1 -> j0 <= j <= j1 -> k0 <= k <= k1 -> ((mkFa b0 (FACE3d0 i0 j0 k0 i1 j1 k1 0))!(i, j, k))%F m = Some (v0 i j k)) ->
  (forall i j k, i0 <= i <= i1 -> j0 <= j <= j1 + 1 -> k0 <= k <= k1 -> ((mkFa b1 (FACE3d1 i0 j0 k0 i1 j1 k1 0))!(j, k, i))%F m = Some (v1 i j k)) ->
  (forall i j k, i0 <= i <= i1 -> j0 <= j <= j1 -> k0 <= k <= k1 + 1 -> ((mkFa b2 (FACE3d2 i0 j0 k0 i1 j1 k1 0))!(k, i, j))%F m = Some (v2 i j k)) ->
  (n' <- cdf_3d_flux i0 j0 k0 i1 j1 k1 dx b0 b1 b2 gcw u f0 f1 f2 n ;;
   cd_apply_3d_diffusion_v2_apply i0 i1 j0 j1 k0 k1 alpha beta dx gcw u f0 f1 f2 rgcw res n') = Some no ->
  (forall i j k, i0 <= i <= i1 -> j0 <= j <= j1 -> k0 <= k <= k1 -> ((mkFa res (CELL3d i0 j0 k0 i1 j1 k1 rgcw))!(i, j, k))%F no = Some (r' i j k)) ->
  (forall i j k, i0 - 1 <= i <= i1 + 1 -> j0 - 1 <= j <= j1 + 1 -> k0 - 1 <= k <= k1 + 1 -> ((mkFa u (CELL3d i0 j0 k0 i1 j1 k1 gcw))!(i, j, k))%F n = Some (z i j k)) ->
  (forall i j k, i0 <= i <= i1 + 1 -> j0 <= j <= j1 -> k0 <= k <= k1 -> ((mkFa b0 (FACE3d0 i0 j0 k0 i1 j1 k1 0))!(i, j, k))%F n = Some (v0 i j k)) ->
  (forall i j k, i0 <= i <= i1 -> j0 <= j <= j1 + 1 -> k0 <= k <= k1 -> ((mkFa b1 (FACE3d1 i0 j0 k0 i1 j1 k1 0))!(j, k, i))%F n = Some (v1 i j k)) ->
  (forall i j k, i0 <= i <= i1 -> j0 <= j <= j1 -> k0 <= k <= k1 + 1 -> ((mkFa b2 (FACE3d2 i0 j0 k0 i1 j1 k1 0))!(k, i, j))%F n = Some (v2 i j k)) ->
  (forall j k, j0 <= j <= j1 -> k0 <= k <= k1 -> (w (i0 - 1)%Z j k * z i0 j k = z (i0 - 1)%Z j k * w i0 j k)%T /\ (w (i1 + 1)%Z j k * z i1 j k = z (i1 + 1)%Z j k * w i1 j k)%T) ->
  (forall i k, i0 <= i <= i1 -> k0 <= k <= k1 -> (w i (j0 - 1)%Z k * z i j0 k = z i (j0 - 1)%Z k * w i j0 k)%T /\ (w i (j1 + 1)%Z k * z i j1 k = z i (j1 + 1)%Z k * w i j1 k)%T) ->
  (forall i j, i0 <= i <= i1 -> j0 <= j <= j1 -> (w i j (k0 - 1)%Z * z i j k0 = z i j (k0 - 1)%Z * w i j k0)%T /\ (w i j (k1 + 1)%Z * z i j k1 = z i j (k1 + 1)%Z * w i j k1)%T) ->
  (total3 i0 j0 k0 i1 j1 k1 (fun i j k => r i j k * z i j k))%T = (total3 i0 j0 k0 i1 j1 k1 (fun i j k => r' i j k * w i j k))%T.
Proof. exact @selfadjoint_v2_3d. Qed.
Print Assumptions C59_selfadjoint_v2_3d.

Example C59_selfadjoint_v2_3d_example :
  apart (5%nat, 0) [(6%nat, 0); (7%nat, 0); (0%nat, 0); (1%nat, 0); (2%nat, 0); (4%nat, 0)] /\
  apart (6%nat, 0) [(7%nat, 0); (0%nat, 0); (1%nat, 0); (2%nat, 0); (4%nat, 0)] /\
  apart (7%nat, 0) [(0%nat, 0); (1%nat, 0); (2%nat, 0); (4%nat, 0)] /\
  apart (8%nat, 0) [(5%nat, 0); (6%nat, 0); (7%nat, 0); (4%nat, 0)] /\
  (let m := ex_en_cells 70 [0; 0; 0; 0; 0; 0; 0; 0; 0; 0; 0; 0; 0; 0; 0; 0; 0; 0; 0; 0; 0; 1; -1; 0; 0; -2; 6; 0; 0; 0; 0; 0; 0; 0; 0; 0; 0; -3; 7; 0; 0; 8; -8; 0; 0; 0; 0; 0; 0; 0; 0; 0; 0; 0; 0; 0; 0; 0; 0; 0; 0; 0; 0; 0] in let n := ex_en_cells 70 [0; 0; 0; 0; 0; 0; 0; 0; 0; 0; 0; 0; 0; 0; 0; 0; 0; 0; 0; 0; 0; 5; 4; 0; 0; 3; 2; 0; 0; 0; 0; 0; 0; 0; 0; 0; 0; 2; 1; 0; 0; 0; -1; 0; 0; 0; 0; 0; 0; 0; 0; 0; 0; 0; 0; 0; 0; 0; 0; 0; 0; 0; 0; 0] in
   match (m' <- cdf_3d_flux 0 0 0 1 1 1 ex_st_h (0%nat, 0) (1%nat, 0) (2%nat, 0) 1 (4%nat, 0) (5%nat, 0) (6%nat, 0) (7%nat, 0) m ;; cd_apply_3d_diffusion_v2_apply 0 1 0 1 0 1 (lit 5) (lit 3) ex_st_h 1 (4%nat, 0) (5%nat, 0) (6%nat, 0) (7%nat, 0) 0 (8%nat, 0) m'), (m' <- cdf_3d_flux 0 0 0 1 1 1 ex_st_h (0%nat, 0) (1%nat, 0) (2%nat, 0) 1 (4%nat, 0) (5%nat, 0) (6%nat, 0) (7%nat, 0) n ;; cd_apply_3d_diffusion_v2_apply 0 1 0 1 0 1 (lit 5) (lit 3) ex_st_h 1 (4%nat, 0) (5%nat, 0) (6%nat, 0) (7%nat, 0) 0 (8%nat, 0) m') with
   | Some mo, Some no =>
     let r := (fun i j k => ex_en_val mo (mkFa (8%nat, 0) (CELL3d 0 0 0 1 1 1 0)) [i; j; k]) in let w := (fun i j k => ex_en_val m (mkFa (4%nat, 0) (CELL3d 0 0 0 1 1 1 1)) [i; j; k]) in
     let r' := (fun i j k => ex_en_val no (mkFa (8%nat, 0) (CELL3d 0 0 0 1 1 1 0)) [i; j; k]) in let z := (fun i j k => ex_en_val n (mkFa (4%nat, 0) (CELL3d 0 0 0 1 1 1 1)) [i; j; k]) in
     (ex_en_ok mo (mkFa (8%nat, 0) (CELL3d 0 0 0 1 1 1 0)) [[0; 0; 0]; [0; 0; 1]; [0; 1; 0]; [0; 1; 1]; [1; 0; 0]; [1; 0; 1]; [1; 1; 0]; [1; 1; 1]] && ex_en_ok m (mkFa (4%nat, 0) (CELL3d 0 0 0 1 1 1 1)) [[-1; -1; -1]; [-1; -1; 0]; [-1; -1; 1]; [-1; -1; 2]; [-1; 0; -1]; [-1; 0; 0]; [-1; 0; 1]; [-1; 0; 2]; [-1; 1; -1]; [-1; 1; 0]; [-1; 1; 1]; [-1; 1; 2]; [-1; 2; -1]; [-1; 2; 0]; [-1; 2; 1]; [-1; 2; 2]; [0; -1; -1]; [0; -1; 0]; [0; -1; 1]; [0; -1; 2]; [0; 0; -1]; [0; 0; 0]; [0; 0; 1]; [0; 0; 2]; [0; 1; -1]; [0; 1; 0]; [0; 1; 1]; [0; 1; 2]; [0; 2; -1]; [0; 2; 0]; [0; 2; 1]; [0; 2; 2]; [1; -1; -1]; [1; -1; 0]; [1; -1; 1]; [1; -1; 2]; [1; 0; -1]; [1; 0; 0]; [1; 0; 1]; [1; 0; 2]; [1; 1; -1]; [1; 1; 0]; [1; 1; 1]; [1; 1; 2]; [1; 2; -1]; [1; 2; 0]; [1; 2; 1]; [1; 2; 2]; [2; -1; -1]; [2; -1; 0]; [2; -1; 1]; [2; -1; 2]; [2; 0; -1]; [2; 0; 0]; [2; 0; 1]; [2; 0; 2]; [2; 1; -1]; [2; 1; 0]; [2; 1; 1]; [2; 1; 2]; [2; 2; -1]; [2; 2; 0]; [2; 2; 1]; [2; 2; 2]] && ex_en_ok m (mkFa (0%nat, 0) (FACE3d0 0 0 0 1 1 1 0)) [[0; 0; 0]; [0; 0; 1]; [0; 1; 0]; [0; 1; 1]; [1; 0; 0]; [1; 0; 1]; [1; 1; 0]; [1; 1; 1]; [2; 0; 0]; [2; 0; 1]; [2; 1; 0]; [2; 1; 1]] && ex_en_ok m (mkFa (1%nat, 0) (FACE3d1 0 0 0 1 1 1 0)) [[0; 0; 0]; [0; 1; 0]; [1; 0; 0]; [1; 1; 0]; [2; 0; 0]; [2; 1; 0]; [0; 0; 1]; [0; 1; 1]; [1; 0; 1]; [1; 1; 1]; [2; 0; 1]; [2; 1; 1]] && ex_en_ok m (mkFa (2%nat, 0) (FACE3d2 0 0 0 1 1 1 0)) [[0; 0; 0]; [1; 0; 0]; [2; 0; 0]; [0; 0; 1]; [1; 0; 1]; [2; 0; 1]; [0; 1; 0]; [1; 1; 0]; [2; 1; 0]; [0; 1; 1]; [1; 1; 1]; [2; 1; 1]] && ex_en_ok no (mkFa (8%nat, 0) (CELL3d 0 0 0 1 1 1 0)) [[0; 0; 0]; [0; 0; 1]; [0; 1; 0]; [0; 1; 1]; [1; 0; 0]; [1; 0; 1]; [1; 1; 0]; [1; 1; 1]] && ex_en_ok n (mkFa (4%nat, 0) (CELL3d 0 0 0 1 1 1 1)) [[-1; -1; -1]; [-1; -1; 0]; [-1; -1; 1]; [-1; -1; 2]; [-1; 0; -1]; [-1; 0; 0]; [-1; 0; 1]; [-1; 0; 2]; [-1; 1; -1]; [-1; 1; 0]; [-1; 1; 1]; [-1; 1; 2]; [-1; 2; -1]; [-1; 2; 0]; [-1; 2; 1]; [-1; 2; 2]; [0; -1; -1]; [0; -1; 0]; [0; -1; 1]; [0; -1; 2]; [0; 0; -1]; [0; 0; 0]; [0; 0; 1]; [0; 0; 2]; [0; 1; -1]; [0; 1; 0]; [0; 1; 1]; [0; 1; 2]; [0; 2; -1]; [0; 2; 0]; [0; 2; 1]; [0; 2; 2]; [1; -1; -1]; [1; -1; 0]; [1; -1; 1]; [1; -1; 2]; [1; 0; -1]; [1; 0; 0]; [1; 0; 1]; [1; 0; 2]; [1; 1; -1]; [1; 1; 0]; [1; 1; 1]; [1; 1; 2]; [1; 2; -1]; [1; 2; 0]; [1; 2; 1]; [1; 2; 2]; [2; -1; -1]; [2; -1; 0]; [2; -1; 1]; [2; -1; 2]; [2; 0; -1]; [2; 0; 0]; [2; 0; 1]; [2; 0; 2]; [2; 1; -1]; [2; 1; 0]; [2; 1; 1]; [2; 1; 2]; [2; 2; -1]; [2; 2; 0]; [2; 2; 1]; [2; 2; 2]],
      ex_en_num (total3 0 0 0 1 1 1 (fun i j k => r i j k * z i j k))%T, ex_en_num (total3 0 0 0 1 1 1 (fun i j k => r' i j k * w i j k))%T)
   | _, _ => (false, (0, 0), (0, 0)) end) = (true, (75113, 16), (75113, 16)).
Proof. split; [repeat constructor; discriminate|]. split; [repeat constructor; discriminate|]. split; [repeat constructor; discriminate|]. split; [repeat constructor; discriminate|]. vm_compute. reflexivity. Qed.

Theorem C59_selfadjoint_poisson_3d : forall (S : Scalar), field_laws S ->
  forall i0 j0 k0 i1 j1 k1 dx beta gcw u f0 f1 f2 rgcw res (m mo n no : mem S) r w r' z,
  i0 <= i1 -> j0 <= j1 -> k0 <= k1 -> 0 <= gcw -> 0 <= rgcw ->
  apart f0 [f1; f2; u] -> apart f1 [f2; u] -> apart f2 [u] -> apart res [f0; f1; f2; u] ->
  (m' <- cdf_3d_poisson_flux i0 j0 k0 i1 j1 k1 dx gcw u f0 f1 f2 m ;;
   cd_apply_3d_poisson_v2_apply i0 i1 j0 j1 k0 k1 beta dx f0 f1 f2 rgcw res m') = Some mo ->
  (forall i j k, i0 <= i <= i1 -> j0 <= j <= j1 -> k0 <= k <= k1 -> ((mkFa res (CELL3d i0 j0 k0 i1 j1 k1 rgcw))!(i, j, k))%F mo = Some (r i j k)) ->
  (forall i j k, i0 - 1 <= i <= i1 + 1 -> j0 - 1 <= j <= j1 + 1 -> k0 - 1 <= k <= k1 + 1 -> ((mkFa u (CELL3d i0 j0 k0 i1 j1 k1 gcw))!(i, j, k))%F m = Some (w i j k)) ->
  (n' <- cdf_3d_poisson_flux i0 j0 k0 i1 j1 k1 dx gcw u f0 f1 f2 n ;;
   cd_apply_3d_poisson_v2_apply i0 i1 j0 j1 k0 k1 beta dx f0 f1 f2 rgcw res n') = Some no ->
  (forall i j k, i0 <= i <= i1 -> j0 <= j <= j1 -> k0 <= k <= k1 -> ((mkFa res (CELL3d i0 j0 k0 i1 j1 k1 rgcw))!(i, j, k))%F no = Some (r' i j k)) ->
  (forall i j k, i0 - 1 <= i <= i1 + 1 -> j0 - 1 <= j <= j1 + 1 -> k0 - 1 <= k <= k1 + 1 -> ((mkFa u (CELL3d i0 j0 k0 i1 j1 k1 gcw))!(i, j, k))%F n = Some (z i j k)) ->
  (forall j k, j0 <= j <= j1 -> k0 <= k <= k1 -> (w (i0 - 1)%Z j k * z i0 j k = z (i0 - 1)%Z j k * w i0 j k)%T /\ (w (i1 + 1)%Z j k * z i1 j k = z (i1 + 1)%Z j k * w i1 j k)%T) ->
  (forall i k, i0 <= i <= i1 -> k0 <= k <= k1 -> (w i (j0 - 1)%Z k * z i j0 k = z i (j0 - 1)%Z k * w i j0 k)%T /\ (w i (j1 + 1)%Z k * z i j1 k = z i (j1 + 1)%Z k * w i j1 k)%T) ->
  (forall i j, i0 <= i <= i1 -> j0 <= j <= j1 -> (w i j (k0 - 1)%Z * z i j k0 = z i j (k0 - 1)%Z * w i j k0)%T /\ (w i j (k1 + 1)%Z * z i j k1 = z i j (k1 + 1)%Z * w i j k1)%T) ->
  (total3 i0 j0 k0 i1 j1 k1 (fun i j k => r i j k * z i j k))%T = (total3 i0 j0 k0 i1 j1 k1 (fun i j k => r' i j k * w i j k))%T.
Proof. exact @selfadjoint_poisson_3d. Qed.
Print Assumptions C59_selfadjoint_poisson_3d.

Example C59_selfadjoint_poisson_3d_example :
  apart (5%nat, 0) [(6%nat, 0); (7%nat, 0); (4%nat, 0)] /\
  apart (6%nat, 0) [(7%nat, 0); (4%nat, 0)] /\
  apart (7%nat, 0) [(4%nat, 0)] /\
  apart (8%nat, 0) [(5%nat, 0); (6%nat, 0); (7%nat, 0); (4%nat, 0)] /\
  (let m := ex_en_cells 70 [0; 0; 0; 0; 0; 0; 0; 0; 0; 0; 0; 0; 0; 0; 0; 0; 0; 0; 0; 0; 0; 1; -1; 0; 0; -2; 6; 0; 0; 0; 0; 0; 0; 0; 0; 0; 0; -3; 7; 0; 0; 8; -8; 0; 0; 0; 0; 0; 0; 0; 0; 0; 0; 0; 0; 0; 0; 0; 0; 0; 0; 0; 0; 0] in let n := ex_en_cells 70 [0; 0; 0; 0; 0; 0; 0; 0; 0; 0; 0; 0; 0; 0; 0; 0; 0; 0; 0; 0; 0; 5; 4; 0; 0; 3; 2; 0; 0; 0; 0; 0; 0; 0; 0; 0; 0; 2; 1; 0; 0; 0; -1; 0; 0; 0; 0; 0; 0; 0; 0; 0; 0; 0; 0; 0; 0; 0; 0; 0; 0; 0; 0; 0] in
   match (m' <- cdf_3d_poisson_flux 0 0 0 1 1 1 ex_st_h 1 (4%nat, 0) (5%nat, 0) (6%nat, 0) (7%nat, 0) m ;; cd_apply_3d_poisson_v2_apply 0 1 0 1 0 1 (lit 3) ex_st_h (5%nat, 0) (6%nat, 0) (7%nat, 0) 0 (8%nat, 0) m'), (m' <- cdf_3d_poisson_flux 0 0 0 1 1 1 ex_st_h 1 (4%nat, 0) (5%nat, 0) (6%nat, 0) (7%nat, 0) n ;; cd_apply_3d_poisson_v2_apply 0 1 0 1 0 1 (lit 3) ex_st_h (5%nat, 0) (6%nat, 0) (7%nat, 0) 0 (8%nat, 0) m') with
   | Some mo, Some no =>
     let r := (fun i j k => ex_en_val mo (mkFa (8%nat, 0) (CELL3d 0 0 0 1 1 1 0)) [i; j; k]) in let w := (fun i j k => ex_en_val m (mkFa (4%nat, 0) (CELL3d 0 0 0 1 1 1 1)) [i; j; k]) in
     let r' := (fun i j k => ex_en_val no (mkFa (8%nat, 0) (CELL3d 0 0 0 1 1 1 0)) [i; j; k]) in let z := (fun i j k => ex_en_val n (mkFa (4%nat, 0) (CELL3d 0 0 0 1 1 1 1)) [i; j; k]) in
     (ex_en_ok mo (mkFa (8%nat, 0) (CELL3d 0 0 0 1 1 1 0)) [[0; 0; 0]; [0; 0; 1]; [0; 1; 0]; [0; 1; 1]; [1; 0; 0]; [1; 0; 1]; [1; 1; 0]; [1; 1; 1]] && ex_en_ok m (mkFa (4%nat, 0) (CELL3d 0 0 0 1 1 1 1)) [[-1; -1; -1]; [-1; -1; 0]; [-1; -1; 1]; [-1; -1; 2]; [-1; 0; -1]; [-1; 0; 0]; [-1; 0; 1]; [-1; 0; 2]; [-1; 1; -1]; [-1; 1; 0]; [-1; 1; 1]; [-1; 1; 2]; [-1; 2; -1]; [-1; 2; 0]; [-1; 2; 1]; [-1; 2; 2]; [0; -1; -1]; [0; -1; 0]; [0; -1; 1]; [0; -1; 2]; [0; 0; -1]; [0; 0; 0]; [0; 0; 1]; [0; 0; 2]; [0; 1; -1]; [0; 1; 0]; [0; 1; 1]; [0; 1; 2]; [0; 2; -1]; [0; 2; 0]; [0; 2; 1]; [0; 2; 2]; [1; -1; -1]; [1; -1; 0]; [1; -1; 1]; [1; -1; 2]; [1; 0; -1]; [1; 0; 0]; [1; 0; 1]; [1; 0; 2]; [1; 1; -1]; [1; 1; 0]; [1; 1; 1]; [1; 1; 2]; [1; 2; -1]; [1; 2; 0]; [1; 2; 1]; [1; 2; 2]; [2; -1; -1]; [2; -1; 0]; [2; -1; 1]; [2; -1; 2]; [2; 0; -1]; [2; 0; 0]; [2; 0; 1]; [2; 0; 2]; [2; 1; -1]; [2; 1; 0]; [2; 1; 1]; [2; 1; 2]; [2; 2; -1]; [2; 2; 0]; [2; 2; 1]; [2; 2; 2]] && ex_en_ok no (mkFa (8%nat, 0) (CELL3d 0 0 0 1 1 1 0)) [[0; 0; 0]; [0; 0; 1]; [0; 1; 0]; [0; 1; 1]; [1; 0; 0]; [1; 0; 1]; [1; 1; 0]; [1; 1; 1]] && ex_en_ok n (mkFa (4%nat, 0) (CELL3d 0 0 0 1 1 1 1)) [[-1; -1; -1]; [-1; -1; 0]; [-1; -1; 1]; [-1; -1; 2]; [-1; 0; -1]; [-1; 0; 0]; [-1; 0; 1]; [-1; 0; 2]; [-1; 1; -1]; [-1; 1; 0]; [-1; 1; 1]; [-1; 1; 2]; [-1; 2; -1]; [-1; 2; 0]; [-1; 2; 1]; [-1; 2; 2]; [0; -1; -1]; [0; -1; 0]; [0; -1; 1]; [0; -1; 2]; [0; 0; -1]; [0; 0; 0]; [0; 0; 1]; [0; 0; 2]; [0; 1; -1]; [0; 1; 0]; [0; 1; 1]; [0; 1; 2]; [0; 2; -1]; [0; 2; 0]; [0; 2; 1]; [0; 2; 2]; [1; -1; -1]; [1; -1; 0]; [1; -1; 1]; [1; -1; 2]; [1; 0; -1]; [1; 0; 0]; [1; 0; 1]; [1; 0; 2]; [1; 1; -1]; [1; 1; 0]; [1; 1; 1]; [1; 1; 2]; [1; 2; -1]; [1; 2; 0]; [1; 2; 1]; [1; 2; 2]; [2; -1; -1]; [2; -1; 0]; [2; -1; 1]; [2; -1; 2]; [2; 0; -1]; [2; 0; 0]; [2; 0; 1]; [2; 0; 2]; [2; 1; -1]; [2; 1; 0]; [2; 1; 1]; [2; 1; 2]; [2; 2; -1]; [2; 2; 0]; [2; 2; 1]; [2; 2; 2]],
      ex_en_num (total3 0 0 0 1 1 1 (fun i j k => r i j k * z i j k))%T, ex_en_num (total3 0 0 0 1 1 1 (fun i j k => r' i j k * w i j k))%T)
   | _, _ => (false, (0, 0), (0, 0)) end) = (true, (61, 3), (61, 3)).
Proof. split; [repeat constructor; discriminate|]. split; [repeat constructor; discriminate|]. split; [repeat constructor; discriminate|]. split; [repeat constructor; discriminate|]. vm_compute. reflexivity. Qed.

(** ** Sign

    Over the rationals, with non-negative coefficients: the form is non-negative when
    every ghost value times its neighbour is at most the square of the neighbour, as
    with a ghost that is zero (a prescribed zero), the neighbour itself (no flux) or
    its negative (a zero on the face). *)

Theorem C59_nonneg_v1_1d :
  forall i0 i1 dx beta b0 gcw u f0 alpha agcw a rgcw res (m mo : mem QcS) r w c v0,
  i0 <= i1 -> 0 <= gcw -> 0 <= rgcw ->
  apart f0 [b0; a; u] -> apart res [f0; a; u] ->
  (m' <- cdf_1d_flux i0 i1 dx b0 gcw u f0 m ;;
   cd_apply_1d_diffusion_v1_apply i0 i1 alpha beta dx agcw a gcw u f0 rgcw res m') = Some mo ->
  (forall i, i0 <= i <= i1 -> ((mkFa res (CELL1d i0 i1 rgcw))!(i))%F mo = Some (r i)) ->
  (forall i, i0 - 1 <= i <= i1 + 1 -> ((mkFa u (CELL1d i0 i1 gcw))!(i))%F m = Some (w i)) ->
  (forall i, i0 <= i <= i1 -> ((mkFa a (CELL1d i0 i1 agcw))!(i))%F m = Some (c i)) ->
  (forall i, i0 <= i <= i1 + 1 -> ((mkFa b0 (FACE1d i0 i1 0))!(i))%F m = Some (v0 i)) ->
  (0 <= beta)%Qc ->
  (0 <= alpha)%Qc ->
  (forall i, i0 <= i <= i1 -> (0 <= c i)%Qc) ->
  (forall i, i0 <= i <= i1 + 1 -> (0 <= v0 i)%Qc) ->
  (w (i0 - 1)%Z * w i0 <= w i0 * w i0 /\ w (i1 + 1)%Z * w i1 <= w i1 * w i1)%Qc ->
  (0 <= (total i0 i1 (fun i => r i * w i))%T)%Qc.
Proof. exact @nonneg_v1_1d. Qed.
Print Assumptions C59_nonneg_v1_1d.

Example C59_nonneg_v1_1d_example :
  apart (5%nat, 0) [(0%nat, 0); (3%nat, 0); (4%nat, 0)] /\
  apart (8%nat, 0) [(5%nat, 0); (3%nat, 0); (4%nat, 0)] /\
  (let m := ex_en_cells 20 [0; 1; -1; 0] in
   match (m' <- cdf_1d_flux 0 1 ex_st_h (0%nat, 0) 1 (4%nat, 0) (5%nat, 0) m ;; cd_apply_1d_diffusion_v1_apply 0 1 (lit 5) (lit 3) ex_st_h 1 (3%nat, 0) 1 (4%nat, 0) (5%nat, 0) 0 (8%nat, 0) m') with
   | Some mo =>
     let r := (fun i => ex_en_val mo (mkFa (8%nat, 0) (CELL1d 0 1 0)) [i]) in let w := (fun i => ex_en_val m (mkFa (4%nat, 0) (CELL1d 0 1 1)) [i]) in let c := (fun i => ex_en_val m (mkFa (3%nat, 0) (CELL1d 0 1 1)) [i]) in let v0 := (fun i => ex_en_val m (mkFa (0%nat, 0) (FACE1d 0 1 0)) [i]) in
     (ex_en_ok mo (mkFa (8%nat, 0) (CELL1d 0 1 0)) [[0]; [1]] && ex_en_ok m (mkFa (4%nat, 0) (CELL1d 0 1 1)) [[-1]; [0]; [1]; [2]] && ex_en_ok m (mkFa (3%nat, 0) (CELL1d 0 1 1)) [[0]; [1]] && ex_en_ok m (mkFa (0%nat, 0) (FACE1d 0 1 0)) [[0]; [1]; [2]] && ex_en_nonneg m,
      forallb (fun gx : QcS * QcS => Qle_bool (this (fst gx * snd gx)%T) (this (snd gx * snd gx)%T)) [(w (-1), w (0)); (w (2), w (1))],
      ex_en_num (total 0 1 (fun i => r i * w i))%T)
   | None => (false, false, (0, 0)) end) = (true, true, (361, 2)).
Proof. split; [repeat constructor; discriminate|]. split; [repeat constructor; discriminate|]. vm_compute. reflexivity. Qed.

Theorem C59_nonneg_v2_1d :
  forall i0 i1 dx beta b0 gcw u f0 alpha rgcw res (m mo : mem QcS) r w v0,
  i0 <= i1 -> 0 <= gcw -> 0 <= rgcw ->
  apart f0 [b0; u] -> apart res [f0; u] ->
  (m' <- cdf_1d_flux i0 i1 dx b0 gcw u f0 m ;;
   cd_apply_1d_diffusion_v2_apply i0 i1 alpha beta dx gcw u f0 rgcw res m') = Some mo ->
  (forall i, i0 <= i <= i1 -> ((mkFa res (CELL1d i0 i1 rgcw))!(i))%F mo = Some (r i)) ->
  (forall i, i0 - 1 <= i <= i1 + 1 -> ((mkFa u (CELL1d i0 i1 gcw))!(i))%F m = Some (w i)) ->
  (forall i, i0 <= i <= i1 + 1 -> ((mkFa b0 (FACE1d i0 i1 0))!(i))%F m = Some (v0 i)) ->
  (0 <= beta)%Qc ->
  (0 <= alpha)%Qc ->
  (forall i, i0 <= i <= i1 + 1 -> (0 <= v0 i)%Qc) ->
  (w (i0 - 1)%Z * w i0 <= w i0 * w i0 /\ w (i1 + 1)%Z * w i1 <= w i1 * w i1)%Qc ->
  (0 <= (total i0 i1 (fun i => r i * w i))%T)%Qc.
Proof. exact @nonneg_v2_1d. Qed.
Print Assumptions C59_nonneg_v2_1d.

Example C59_nonneg_v2_1d_example :
  apart (5%nat, 0) [(0%nat, 0); (4%nat, 0)] /\
  apart (8%nat, 0) [(5%nat, 0); (4%nat, 0)] /\
  (let m := ex_en_cells 20 [0; 1; -1; 0] in
   match (m' <- cdf_1d_flux 0 1 ex_st_h (0%nat, 0) 1 (4%nat, 0) (5%nat, 0) m ;; cd_apply_1d_diffusion_v2_apply 0 1 (lit 5) (lit 3) ex_st_h 1 (4%nat, 0) (5%nat, 0) 0 (8%nat, 0) m') with
   | Some mo =>
     let r := (fun i => ex_en_val mo (mkFa (8%nat, 0) (CELL1d 0 1 0)) [i]) in let w := (fun i => ex_en_val m (mkFa (4%nat, 0) (CELL1d 0 1 1)) [i]) in let v0 := (fun i => ex_en_val m (mkFa (0%nat, 0) (FACE1d 0 1 0)) [i]) in
     (ex_en_ok mo (mkFa (8%nat, 0) (CELL1d 0 1 0)) [[0]; [1]] && ex_en_ok m (mkFa (4%nat, 0) (CELL1d 0 1 1)) [[-1]; [0]; [1]; [2]] && ex_en_ok m (mkFa (0%nat, 0) (FACE1d 0 1 0)) [[0]; [1]; [2]] && ex_en_nonneg m,
      forallb (fun gx : QcS * QcS => Qle_bool (this (fst gx * snd gx)%T) (this (snd gx * snd gx)%T)) [(w (-1), w (0)); (w (2), w (1))],
      ex_en_num (total 0 1 (fun i => r i * w i))%T)
   | None => (false, false, (0, 0)) end) = (true, true, (41, 2)).
Proof. split; [repeat constructor; discriminate|]. split; [repeat constructor; discriminate|]. vm_compute. reflexivity. Qed.

Theorem C59_nonneg_poisson_1d :
  forall i0 i1 dx beta gcw u f0 rgcw res (m mo : mem QcS) r w,
  i0 <= i1 -> 0 <= gcw -> 0 <= rgcw ->
  apart f0 [u] -> apart res [f0; u] ->
  (m' <- cdf_1d_poisson_flux i0 i1 dx gcw u f0 m ;;
   cd_apply_1d_poisson_v2_apply i0 i1 beta dx f0 rgcw res m') = Some mo ->
  (forall i, i0 <= i <= i1 -> ((mkFa res (CELL1d i0 i1 rgcw))!(i))%F mo = Some (r i)) ->
  (forall i, i0 - 1 <= i <= i1 + 1 -> ((mkFa u (CELL1d i0 i1 gcw))!(i))%F m = Some (w i)) ->
  (0 <= beta)%Qc ->
  (w (i0 - 1)%Z * w i0 <= w i0 * w i0 /\ w (i1 + 1)%Z * w i1 <= w i1 * w i1)%Qc ->
  (0 <= (total i0 i1 (fun i => r i * w i))%T)%Qc.
Proof. exact @nonneg_poisson_1d. Qed.
Print Assumptions C59_nonneg_poisson_1d.

Example C59_nonneg_poisson_1d_example :
  apart (5%nat, 0) [(4%nat, 0)] /\
  apart (8%nat, 0) [(5%nat, 0); (4%nat, 0)] /\
  (let m := ex_en_cells 20 [0; 1; -1; 0] in
   match (m' <- cdf_1d_poisson_flux 0 1 ex_st_h 1 (4%nat, 0) (5%nat, 0) m ;; cd_apply_1d_poisson_v2_apply 0 1 (lit 3) ex_st_h (5%nat, 0) 0 (8%nat, 0) m') with
   | Some mo =>
     let r := (fun i => ex_en_val mo (mkFa (8%nat, 0) (CELL1d 0 1 0)) [i]) in let w := (fun i => ex_en_val m (mkFa (4%nat, 0) (CELL1d 0 1 1)) [i]) in
     (ex_en_ok mo (mkFa (8%nat, 0) (CELL1d 0 1 0)) [[0]; [1]] && ex_en_ok m (mkFa (4%nat, 0) (CELL1d 0 1 1)) [[-1]; [0]; [1]; [2]] && ex_en_nonneg m,
      forallb (fun gx : QcS * QcS => Qle_bool (this (fst gx * snd gx)%T) (this (snd gx * snd gx)%T)) [(w (-1), w (0)); (w (2), w (1))],
      ex_en_num (total 0 1 (fun i => r i * w i))%T)
   | None => (false, false, (0, 0)) end) = (true, true, (9, 2)).
Proof. split; [repeat constructor; discriminate|]. split; [repeat constructor; discriminate|]. vm_compute. reflexivity. Qed.

Theorem C59_nonneg_v1_2d :
  forall i0 j0 i1 j1 dx beta b0 b1 gcw u f0 f1 alpha agcw a rgcw res (m mo : mem QcS) r w c v0 v1,
  i0 <= i1 -> j0 <= j1 -> 0 <= gcw -> 0 <= rgcw ->
  apart f0 [f1; b0; b1; a; u] -> apart f1 [b0; b1; a; u] -> apart res [f0; f1; a; u] ->
  (m' <- cdf_2d_flux i0 j0 i1 j1 dx b0 b1 gcw u f0 f1 m ;;
   cd_apply_2d_diffusion_v1_apply i0 i1 j0 j1 alpha beta dx agcw a gcw u f0 f1 rgcw res m') = Some mo ->
  (forall i j, i0 <= i <= i1 -> j0 <= j <= j1 -> ((mkFa res (CELL2d i0 j0 i1 j1 rgcw))!(i, j))%F mo = Some (r i j)) ->
  (forall i j, i0 - 1 <= i <= i1 + 1 -> j0 - 1 <= j <= j1 + 1 -> ((mkFa u (CELL2d i0 j0 i1 j1 gcw))!(i, j))%F m = Some (w i j)) ->
  (forall i j, i0 <= i <= i1 -> j0 <= j <= j1 -> ((mkFa a (CELL2d i0 j0 i1 j1 agcw))!(i, j))%F m = Some (c i j)) ->
  (forall i j, i0 <= i <= i1 + 1 -> j0 <= j <= j1 -> ((mkFa b0 (FACE2d0 i0 j0 i1 j1 0))!(i, j))%F m = Some (v0 i j)) ->
  (forall i j, i0 <= i <= i1 -> j0 <= j <= j1 + 1 -> ((mkFa b1 (FACE2d1 i0 j0 i1 j1 0))!(j, i))%F m = Some (v1 i j)) ->
  (0 <= beta)%Qc ->
  (0 <= alpha)%Qc ->
  (forall i j, i0 <= i <= i1 -> j0 <= j <= j1 -> (0 <= c i j)%Qc) ->
  (forall i j, i0 <= i <= i1 + 1 -> j0 <= j <= j1 -> (0 <= v0 i j)%Qc) ->
  (forall i j, i0 <= i <= i1 -> j0 <= j <= j1 + 1 -> (0 <= v1 i j)%Qc) ->
  (forall j, j0 <= j <= j1 -> (w (i0 - 1)%Z j * w i0 j <= w i0 j * w i0 j /\ w (i1 + 1)%Z j * w i1 j <= w i1 j * w i1 j)%Qc) ->
  (forall i, i0 <= i <= i1 -> (w i (j0 - 1)%Z * w i j0 <= w i j0 * w i j0 /\ w i (j1 + 1)%Z * w i j1 <= w i j1 * w i j1)%Qc) ->
  (0 <= (total2 i0 j0 i1 j1 (fun i j => r i j * w i j))%T)%Qc.
Proof. exact @nonneg_v1_2d. Qed.
Print Assumptions C59_nonneg_v1_2d.

Example C59_nonneg_v1_2d_example :
  apart (5%nat, 0) [(6%nat, 0); (0%nat, 0); (1%nat, 0); (3%nat, 0); (4%nat, 0)] /\
  apart (6%nat, 0) [(0%nat, 0); (1%nat, 0); (3%nat, 0); (4%nat, 0)] /\
  apart (8%nat, 0) [(5%nat, 0); (6%nat, 0); (3%nat, 0); (4%nat, 0)] /\
  (let m := ex_en_cells 40 [0; 0; 0; 0; 0; 1; -1; 0; 0; -2; 6; 0; 0; 0; 0; 0] in
   match (m' <- cdf_2d_flux 0 0 1 1 ex_st_h (0%nat, 0) (1%nat, 0) 1 (4%nat, 0) (5%nat, 0) (6%nat, 0) m ;; cd_apply_2d_diffusion_v1_apply 0 1 0 1 (lit 5) (lit 3) ex_st_h 1 (3%nat, 0) 1 (4%nat, 0) (5%nat, 0) (6%nat, 0) 0 (8%nat, 0) m') with
   | Some mo =>
     let r := (fun i j => ex_en_val mo (mkFa (8%nat, 0) (CELL2d 0 0 1 1 0)) [i; j]) in let w := (fun i j => ex_en_val m (mkFa (4%nat, 0) (CELL2d 0 0 1 1 1)) [i; j]) in let c := (fun i j => ex_en_val m (mkFa (3%nat, 0) (CELL2d 0 0 1 1 1)) [i; j]) in let v0 := (fun i j => ex_en_val m (mkFa (0%nat, 0) (FACE2d0 0 0 1 1 0)) [i; j]) in let v1 := (fun i j => ex_en_val m (mkFa (1%nat, 0) (FACE2d1 0 0 1 1 0)) [j; i]) in
     (ex_en_ok mo (mkFa (8%nat, 0) (CELL2d 0 0 1 1 0)) [[0; 0]; [0; 1]; [1; 0]; [1; 1]] && ex_en_ok m (mkFa (4%nat, 0) (CELL2d 0 0 1 1 1)) [[-1; -1]; [-1; 0]; [-1; 1]; [-1; 2]; [0; -1]; [0; 0]; [0; 1]; [0; 2]; [1; -1]; [1; 0]; [1; 1]; [1; 2]; [2; -1]; [2; 0]; [2; 1]; [2; 2]] && ex_en_ok m (mkFa (3%nat, 0) (CELL2d 0 0 1 1 1)) [[0; 0]; [0; 1]; [1; 0]; [1; 1]] && ex_en_ok m (mkFa (0%nat, 0) (FACE2d0 0 0 1 1 0)) [[0; 0]; [0; 1]; [1; 0]; [1; 1]; [2; 0]; [2; 1]] && ex_en_ok m (mkFa (1%nat, 0) (FACE2d1 0 0 1 1 0)) [[0; 0]; [1; 0]; [2; 0]; [0; 1]; [1; 1]; [2; 1]] && ex_en_nonneg m,
      forallb (fun gx : QcS * QcS => Qle_bool (this (fst gx * snd gx)%T) (this (snd gx * snd gx)%T)) [(w (-1) (0), w (0) (0)); (w (-1) (1), w (0) (1)); (w (2) (0), w (1) (0)); (w (2) (1), w (1) (1)); (w (0) (-1), w (0) (0)); (w (0) (2), w (0) (1)); (w (1) (-1), w (1) (0)); (w (1) (2), w (1) (1))],
      ex_en_num (total2 0 0 1 1 (fun i j => r i j * w i j))%T)
   | None => (false, false, (0, 0)) end) = (true, true, (82021, 2)).
Proof. split; [repeat constructor; discriminate|]. split; [repeat constructor; discriminate|]. split; [repeat constructor; discriminate|]. vm_compute. reflexivity. Qed.

Theorem C59_nonneg_v2_2d :
  forall i0 j0 i1 j1 dx beta b0 b1 gcw u f0 f1 alpha rgcw res (m mo : mem QcS) r w v0 v1,
  i0 <= i1 -> j0 <= j1 -> 0 <= gcw -> 0 <= rgcw ->
  apart f0 [f1; b0; b1; u] -> apart f1 [b0; b1; u] -> apart res [f0; f1; u] ->
  (m' <- cdf_2d_flux i0 j0 i1 j1 dx b0 b1 gcw u f0 f1 m ;;
   cd_apply_2d_diffusion_v2_apply i0 i1 j0 j1 alpha beta dx gcw u f0 f1 rgcw res m') = Some mo ->
  (forall i j, i0 <= i <= i1 -> j0 <= j <= j1 -> ((mkFa res (CELL2d i0 j0 i1 j1 rgcw))!(i, j))%F mo = Some (r i j)) ->
  (forall i j, i0 - 1 <= i <= i1 + 1 -> j0 - 1 <= j <= j1 + 1 -> ((mkFa u (CELL2d i0 j0 i1 j1 gcw))!(i, j))%F m = Some (w i j)) ->
  (forall i j, i0 <= i <= i1 + 1 -> j0 <= j <= j1 -> ((mkFa b0 (FACE2d0 i0 j0 i1 j1 0))!(i, j))%F m = Some (v0 i j)) ->
  (forall i j, i0 <= i <= i1 -> j0 <= j <= j1 + 1 -> ((mkFa b1 (FACE2d1 i0 j0 i1 j1 0))!(j, i))%F m = Some (v1 i j)) ->
  (0 <= beta)%Qc ->
  (0 <= alpha)%Qc ->
  (forall i j, i0 <= i <= i1 + 1 -> j0 <= j <= j1 -> (0 <= v0 i j)%Qc) ->
  (forall i j, i0 <= i <= i1 -> j0 <= j <= j1 + 1 -> (0 <= v1 i j)%Qc) ->
  (forall j, j0 <= j <= j1 -> (w (i0 - 1)%Z j * w i0 j <= w i0 j * w i0 j /\ w (i1 + 1)%Z j * w i1 j <= w i1 j * w i1 j)%Qc) ->
  (forall i, i0 <= i <= i1 -> (w i (j0 - 1)%Z * w i j0 <= w i j0 * w i j0 /\ w i (j1 + 1)%Z * w i j1 <= w i j1 * w i j1)%Qc) ->
  (0 <= (total2 i0 j0 i1 j1 (fun i j => r i j * w i j))%T)%Qc.
Proof. exact @nonneg_v2_2d. Qed.
Print Assumptions C59_nonneg_v2_2d.

Example C59_nonneg_v2_2d_example :
  apart (5%nat, 0) [(6%nat, 0); (0%nat, 0); (1%nat, 0); (4%nat, 0)] /\
  apart (6%nat, 0) [(0%nat, 0); (1%nat, 0); (4%nat, 0)] /\
  apart (8%nat, 0) [(5%nat, 0); (6%nat, 0); (4%nat, 0)] /\
  (let m := ex_en_cells 40 [0; 0; 0; 0; 0; 1; -1; 0; 0; -2; 6; 0; 0; 0; 0; 0] in
   match (m' <- cdf_2d_flux 0 0 1 1 ex_st_h (0%nat, 0) (1%nat, 0) 1 (4%nat, 0) (5%nat, 0) (6%nat, 0) m ;; cd_apply_2d_diffusion_v2_apply 0 1 0 1 (lit 5) (lit 3) ex_st_h 1 (4%nat, 0) (5%nat, 0) (6%nat, 0) 0 (8%nat, 0) m') with
   | Some mo =>
     let r := (fun i j => ex_en_val mo (mkFa (8%nat, 0) (CELL2d 0 0 1 1 0)) [i; j]) in let w := (fun i j => ex_en_val m (mkFa (4%nat, 0) (CELL2d 0 0 1 1 1)) [i; j]) in let v0 := (fun i j => ex_en_val m (mkFa (0%nat, 0) (FACE2d0 0 0 1 1 0)) [i; j]) in let v1 := (fun i j => ex_en_val m (mkFa (1%nat, 0) (FACE2d1 0 0 1 1 0)) [j; i]) in
     (ex_en_ok mo (mkFa (8%nat, 0) (CELL2d 0 0 1 1 0)) [[0; 0]; [0; 1]; [1; 0]; [1; 1]] && ex_en_ok m (mkFa (4%nat, 0) (CELL2d 0 0 1 1 1)) [[-1; -1]; [-1; 0]; [-1; 1]; [-1; 2]; [0; -1]; [0; 0]; [0; 1]; [0; 2]; [1; -1]; [1; 0]; [1; 1]; [1; 2]; [2; -1]; [2; 0]; [2; 1]; [2; 2]] && ex_en_ok m (mkFa (0%nat, 0) (FACE2d0 0 0 1 1 0)) [[0; 0]; [0; 1]; [1; 0]; [1; 1]; [2; 0]; [2; 1]] && ex_en_ok m (mkFa (1%nat, 0) (FACE2d1 0 0 1 1 0)) [[0; 0]; [1; 0]; [2; 0]; [0; 1]; [1; 1]; [2; 1]] && ex_en_nonneg m,
      forallb (fun gx : QcS * QcS => Qle_bool (this (fst gx * snd gx)%T) (this (snd gx * snd gx)%T)) [(w (-1) (0), w (0) (0)); (w (-1) (1), w (0) (1)); (w (2) (0), w (1) (0)); (w (2) (1), w (1) (1)); (w (0) (-1), w (0) (0)); (w (0) (2), w (0) (1)); (w (1) (-1), w (1) (0)); (w (1) (2), w (1) (1))],
      ex_en_num (total2 0 0 1 1 (fun i j => r i j * w i j))%T)
   | None => (false, false, (0, 0)) end) = (true, true, (5541, 2)).
Proof. split; [repeat constructor; discriminate|]. split; [repeat constructor; discriminate|]. split; [repeat constructor; discriminate|]. vm_compute. reflexivity. Qed.

Theorem C59_nonneg_poisson_2d :
  forall i0 j0 i1 j1 dx beta gcw u f0 f1 rgcw res (m mo : mem QcS) r w,
  i0 <= i1 -> j0 <= j1 -> 0 <= gcw -> 0 <= rgcw ->
  apart f0 [f1; u] -> apart f1 [u] -> apart res [f0; f1; u] ->
  (m' <- cdf_2d_poisson_flux i0 j0 i1 j1 dx gcw u f0 f1 m ;;
   cd_apply_2d_poisson_v2_apply i0 i1 j0 j1 beta dx f0 f1 rgcw res m') = Some mo ->
  (forall i j, i0 <= i <= i1 -> j0 <= j <= j1 -> ((mkFa res (CELL2d i0 j0 i1 j1 rgcw))!(i, j))%F mo = Some (r i j)) ->
  (forall i j, i0 - 1 <= i <= i1 + 1 -> j0 - 1 <= j <= j1 + 1 -> ((mkFa u (CELL2d i0 j0 i1 j1 gcw))!(i, j))%F m = Some (w i j)) ->
  (0 <= beta)%Qc ->
  (forall j, j0 <= j <= j1 -> (w (i0 - 1)%Z j * w i0 j <= w i0 j * w i0 j /\ w (i1 + 1)%Z j * w i1 j <= w i1 j * w i1 j)%Qc) ->
  (forall i, i0 <= i <= i1 -> (w i (j0 - 1)%Z * w i j0 <= w i j0 * w i j0 /\ w i (j1 + 1)%Z * w i j1 <= w i j1 * w i j1)%Qc) ->
  (0 <= (total2 i0 j0 i1 j1 (fun i j => r i j * w i j))%T)%Qc.
Proof. exact @nonneg_poisson_2d. Qed.
Print Assumptions C59_nonneg_poisson_2d.

Example C59_nonneg_poisson_2d_example :
  apart (5%nat, 0) [(6%nat, 0); (4%nat, 0)] /\
  apart (6%nat, 0) [(4%nat, 0)] /\
  apart (8%nat, 0) [(5%nat, 0); (6%nat, 0); (4%nat, 0)] /\
  (let m := ex_en_cells 40 [0; 0; 0; 0; 0; 1; -1; 0; 0; -2; 6; 0; 0; 0; 0; 0] in
   match (m' <- cdf_2d_poisson_flux 0 0 1 1 ex_st_h 1 (4%nat, 0) (5%nat, 0) (6%nat, 0) m ;; cd_apply_2d_poisson_v2_apply 0 1 0 1 (lit 3) ex_st_h (5%nat, 0) (6%nat, 0) 0 (8%nat, 0) m') with
   | Some mo =>
     let r := (fun i j => ex_en_val mo (mkFa (8%nat, 0) (CELL2d 0 0 1 1 0)) [i; j]) in let w := (fun i j => ex_en_val m (mkFa (4%nat, 0) (CELL2d 0 0 1 1 1)) [i; j]) in
     (ex_en_ok mo (mkFa (8%nat, 0) (CELL2d 0 0 1 1 0)) [[0; 0]; [0; 1]; [1; 0]; [1; 1]] && ex_en_ok m (mkFa (4%nat, 0) (CELL2d 0 0 1 1 1)) [[-1; -1]; [-1; 0]; [-1; 1]; [-1; 2]; [0; -1]; [0; 0]; [0; 1]; [0; 2]; [1; -1]; [1; 0]; [1; 1]; [1; 2]; [2; -1]; [2; 0]; [2; 1]; [2; 2]] && ex_en_nonneg m,
      forallb (fun gx : QcS * QcS => Qle_bool (this (fst gx * snd gx)%T) (this (snd gx * snd gx)%T)) [(w (-1) (0), w (0) (0)); (w (-1) (1), w (0) (1)); (w (2) (0), w (1) (0)); (w (2) (1), w (1) (1)); (w (0) (-1), w (0) (0)); (w (0) (2), w (0) (1)); (w (1) (-1), w (1) (0)); (w (1) (2), w (1) (1))],
      ex_en_num (total2 0 0 1 1 (fun i j => r i j * w i j))%T)
   | None => (false, false, (0, 0)) end) = (true, true, (695, 6)).
Proof. split; [repeat constructor; discriminate|]. split; [repeat constructor; discriminate|]. split; [repeat constructor; discriminate|]. vm_compute. reflexivity. Qed.

Theorem C59_nonneg_v1_3d :
  forall i0 j0 k0 i1 j1 k1 dx beta b0 b1 b2 gcw u f0 f1 f2 alpha agcw a rgcw res (m mo : mem QcS) r w c v0 v1 v2,
  i0 <= i1 -> j0 <= j1 -> k0 <= k1 -> 0 <= gcw -> 0 <= rgcw ->
  apart f0 [f1; f2; b0; b1; b2; a; u] -> apart f1 [f2; b0; b1; b2; a; u] -> apart f2 [b0; b1; b2; a; u] -> apart res [f0; f1; f2; a; u] ->
  (m' <- cdf_3d_flux i0 j0 k0 i1 j1 k1 dx b0 b1 b2 gcw u f0 f1 f2 m ;;
   cd_apply_3d_diffusion_v1_apply i0 i1 j0 j1 k0 k1 alpha beta dx agcw a gcw u f0 f1 f2 rgcw res m') = Some mo ->
  (forall i j k, i0 <= i <= i1 -> j0 <= j <= j1 -> k0 <= k <= k1 -> ((mkFa res (CELL3d i0 j0 k0 i1 j1 k1 rgcw))!(i, j, k))%F mo = Some (r i j k)) ->
  (forall i j k, i0 - 1 <= i <= i1 + 1 -> j0 - 1 <= j <= j1 + 1 -> k0 - 1 <= k <= k1 + 1 -> ((mkFa u (CELL3d i0 j0 k0 i1 j1 k1 gcw))!(i, j, k))%F m = Some (w i j k)) ->
  (forall i j k, i0 <= i <= i1 -> j0 <= j <= j1 -> k0 <= k <= k1 -> ((mkFa a (CELL3d i0 j0 k0 i1 j1 k1 agcw))!(i, j, k))%F m = Some (c i j k)) ->
  (forall i j k, i0 <= i <= i1 + 1 -> j0 <= j <= j1 -> k0 <= k <= k1 -> ((mkFa b0 (FACE3d0 i0 j0 k0 i1 j1 k1 0))!(i, j, k))%F m = Some (v0 i j k)) ->
  (forall i j k, i0 <= i <= i1 -> j0 <= j <= j1 + 1 -> k0 <= k <= k1 -> ((mkFa b1 (FACE3d1 i0 j0 k0 i1 j1 k1 0))!(j, k, i))%F m = Some (v1 i j k)) ->
  (forall i j k, i0 <= i <= i1 -> j0 <= j <= j1 -> k0 <= k <= k1 + 1 -> ((mkFa b2 (FACE3d2 i0 j0 k0 i1 j1 k1 0))!(k, i, j))%F m = Some (v2 i j k)) ->
  (0 <= beta)%Qc ->
  (0 <= alpha)%Qc ->
  (forall i j k, i0 <= i <= i1 -> j0 <= j <= j1 -> k0 <= k <= k1 -> (0 <= c i j k)%Qc) ->
  (forall i j k, i0 <= i <= i1 + 1 -> j0 <= j <= j1 -> k0 <= k <= k1 -> (0 <= v0 i j k)%Qc) ->
  (forall i j k, i0 <= i <= i1 -> j0 <= j <= j1 + 1 -> k0 <= k <= k1 -> (0 <= v1 i j k)%Qc) ->
  (forall i j k, i0 <= i <= i1 -> j0 <= j <= j1 -> k0 <= k <= k1 + 1 -> (0 <= v2 i j k)%Qc) ->
  (forall j k, j0 <= j <= j1 -> k0 <= k <= k1 -> (w (i0 - 1)%Z j k * w i0 j k <= w i0 j k * w i0 j k /\ w (i1 + 1)%Z j k * w i1 j k <= w i1 j k * w i1 j k)%Qc) ->
  (forall i k, i0 <= i <= i1 -> k0 <= k <= k1 -> (w i (j0 - 1)%Z k * w i j0 k <= w i j0 k * w i j0 k /\ w i (j1 + 1)%Z k * w i j1 k <= w i j1 k * w i j1 k)%Qc) ->
  (forall i j, i0 <= i <= i1 -> j0 <= j <= j1 -> (w i j (k0 - 1)%Z * w i j k0 <= w i j k0 * w i j k0 /\ w i j (k1 + 1)%Z * w i j k1 <= w i j k1 * w i j k1)%Qc) ->
  (0 <= (total3 i0 j0 k0 i1 j1 k1 (fun i j k => r i j k * w i j k))%T)%Qc.
Proof. exact @nonneg_v1_3d. Qed.
Print Assumptions C59_nonneg_v1_3d.

Example C59_nonneg_v1_3d_example :
  apart (5%nat, 0) [(6%nat, 0); (7%nat, 0); (0%nat, 0); (1%nat, 0); (2%nat, 0); (3%nat, 0); (4%nat, 0)] /\
  apart (6%nat, 0) [(7%nat, 0); (0%nat, 0); (1%nat, 0); (2%nat, 0); (3%nat, 0); (4%nat, 0)] /\
  apart (7%nat, 0) [(0%nat, 0); (1%nat, 0); (2%nat, 0); (3%nat, 0); (4%nat, 0)] /\
  apart (8%nat, 0) [(5%nat, 0); (6%nat, 0); (7%nat, 0); (3%nat, 0); (4%nat, 0)] /\
  (let m := ex_en_cells 70 [0; 0; 0; 0; 0; 0; 0; 0; 0; 0; 0; 0; 0; 0; 0; 0; 0; 0; 0; 0; 0; 1; -1; 0; 0; -2; 6; 0; 0; 0; 0; 0; 0; 0; 0; 0; 0; -3; 7; 0; 0; 8; -8; 0; 0; 0; 0; 0; 0; 0; 0; 0; 0; 0; 0; 0; 0; 0; 0; 0; 0; 0; 0; 0] in
   match (m' <- cdf_3d_flux 0 0 0 1 1 1 ex_st_h (0%nat, 0) (1%nat, 0) (2%nat, 0) 1 (4%nat, 0) (5%nat, 0) (6%nat, 0) (7%nat, 0) m ;; cd_apply_3d_diffusion_v1_apply 0 1 0 1 0 1 (lit 5) (lit 3) ex_st_h 1 (3%nat, 0) 1 (4%nat, 0) (5%nat, 0) (6%nat, 0) (7%nat, 0) 0 (8%nat, 0) m') with
   | Some mo =>
     let r := (fun i j k => ex_en_val mo (mkFa (8%nat, 0) (CELL3d 0 0 0 1 1 1 0)) [i; j; k]) in let w := (fun i j k => ex_en_val m (mkFa (4%nat, 0) (CELL3d 0 0 0 1 1 1 1)) [i; j; k]) in let c := (fun i j k => ex_en_val m (mkFa (3%nat, 0) (CELL3d 0 0 0 1 1 1 1)) [i; j; k]) in let v0 := (fun i j k => ex_en_val m (mkFa (0%nat, 0) (FACE3d0 0 0 0 1 1 1 0)) [i; j; k]) in let v1 := (fun i j k => ex_en_val m (mkFa (1%nat, 0) (FACE3d1 0 0 0 1 1 1 0)) [j; k; i]) in let v2 := (fun i j k => ex_en_val m (mkFa (2%nat, 0) (FACE3d2 0 0 0 1 1 1 0)) [k; i; j]) in
     (ex_en_ok mo (mkFa (8%nat, 0) (CELL3d 0 0 0 1 1 1 0)) [[0; 0; 0]; [0; 0; 1]; [0; 1; 0]; [0; 1; 1]; [1; 0; 0]; [1; 0; 1]; [1; 1; 0]; [1; 1; 1]] && ex_en_ok m (mkFa (4%nat, 0) (CELL3d 0 0 0 1 1 1 1)) [[-1; -1; -1]; [-1; -1; 0]; [-1; -1; 1]; [-1; -1; 2]; [-1; 0; -1]; [-1; 0; 0]; [-1; 0; 1]; [-1; 0; 2]; [-1; 1; -1]; [-1; 1; 0]; [-1; 1; 1]; [-1; 1; 2]; [-1; 2; -1]; [-1; 2; 0]; [-1; 2; 1]; [-1; 2; 2]; [0; -1; -1]; [0; -1; 0]; [0; -1; 1]; [0; -1; 2]; [0; 0; -1]; [0; 0; 0]; [0; 0; 1]; [0; 0; 2]; [0; 1; -1]; [0; 1; 0]; [0; 1; 1]; [0; 1; 2]; [0; 2; -1]; [0; 2; 0]; [0; 2; 1]; [0; 2; 2]; [1; -1; -1]; [1; -1; 0]; [1; -1; 1]; [1; -1; 2]; [1; 0; -1]; [1; 0; 0]; [1; 0; 1]; [1; 0; 2]; [1; 1; -1]; [1; 1; 0]; [1; 1; 1]; [1; 1; 2]; [1; 2; -1]; [1; 2; 0]; [1; 2; 1]; [1; 2; 2]; [2; -1; -1]; [2; -1; 0]; [2; -1; 1]; [2; -1; 2]; [2; 0; -1]; [2; 0; 0]; [2; 0; 1]; [2; 0; 2]; [2; 1; -1]; [2; 1; 0]; [2; 1; 1]; [2; 1; 2]; [2; 2; -1]; [2; 2; 0]; [2; 2; 1]; [2; 2; 2]] && ex_en_ok m (mkFa (3%nat, 0) (CELL3d 0 0 0 1 1 1 1)) [[0; 0; 0]; [0; 0; 1]; [0; 1; 0]; [0; 1; 1]; [1; 0; 0]; [1; 0; 1]; [1; 1; 0]; [1; 1; 1]] && ex_en_ok m (mkFa (0%nat, 0) (FACE3d0 0 0 0 1 1 1 0)) [[0; 0; 0]; [0; 0; 1]; [0; 1; 0]; [0; 1; 1]; [1; 0; 0]; [1; 0; 1]; [1; 1; 0]; [1; 1; 1]; [2; 0; 0]; [2; 0; 1]; [2; 1; 0]; [2; 1; 1]] && ex_en_ok m (mkFa (1%nat, 0) (FACE3d1 0 0 0 1 1 1 0)) [[0; 0; 0]; [0; 1; 0]; [1; 0; 0]; [1; 1; 0]; [2; 0; 0]; [2; 1; 0]; [0; 0; 1]; [0; 1; 1]; [1; 0; 1]; [1; 1; 1]; [2; 0; 1]; [2; 1; 1]] && ex_en_ok m (mkFa (2%nat, 0) (FACE3d2 0 0 0 1 1 1 0)) [[0; 0; 0]; [1; 0; 0]; [2; 0; 0]; [0; 0; 1]; [1; 0; 1]; [2; 0; 1]; [0; 1; 0]; [1; 1; 0]; [2; 1; 0]; [0; 1; 1]; [1; 1; 1]; [2; 1; 1]] && ex_en_nonneg m,
      forallb (fun gx : QcS * QcS => Qle_bool (this (fst gx * snd gx)%T) (this (snd gx * snd gx)%T)) [(w (-1) (0) (0), w (0) (0) (0)); (w (-1) (0) (1), w (0) (0) (1)); (w (-1) (1) (0), w (0) (1) (0)); (w (-1) (1) (1), w (0) (1) (1)); (w (2) (0) (0), w (1) (0) (0)); (w (2) (0) (1), w (1) (0) (1)); (w (2) (1) (0), w (1) (1) (0)); (w (2) (1) (1), w (1) (1) (1)); (w (0) (-1) (0), w (0) (0) (0)); (w (0) (-1) (1), w (0) (0) (1)); (w (0) (2) (0), w (0) (1) (0)); (w (0) (2) (1), w (0) (1) (1)); (w (1) (-1) (0), w (1) (0) (0)); (w (1) (-1) (1), w (1) (0) (1)); (w (1) (2) (0), w (1) (1) (0)); (w (1) (2) (1), w (1) (1) (1)); (w (0) (0) (-1), w (0) (0) (0)); (w (0) (0) (2), w (0) (0) (1)); (w (0) (1) (-1), w (0) (1) (0)); (w (0) (1) (2), w (0) (1) (1)); (w (1) (0) (-1), w (1) (0) (0)); (w (1) (0) (2), w (1) (0) (1)); (w (1) (1) (-1), w (1) (1) (0)); (w (1) (1) (2), w (1) (1) (1))],
      ex_en_num (total3 0 0 0 1 1 1 (fun i j k => r i j k * w i j k))%T)
   | None => (false, false, (0, 0)) end) = (true, true, (50731475, 24)).
Proof. split; [repeat constructor; discriminate|]. split; [repeat constructor; discriminate|]. split; [repeat constructor; discriminate|]. split; [repeat constructor; discriminate|]. vm_compute. reflexivity. Qed.

Theorem C59_nonneg_v2_3d :
  forall i0 j0 k0 i1 j1 k1 dx beta b0 b1 b2 gcw u f0 f1 f2 alpha rgcw res (m mo : mem QcS) r w v0 v1 v2,
  i0 <= i1 -> j0 <= j1 -> k0 <= k1 -> 0 <= gcw -> 0 <= rgcw ->
  apart f0 [f1; f2; b0; b1; b2; u] -> apart f1 [f2; b0; b1; b2; u] -> apart f2 [b0; b1; b2; u] -> apart res [f0; f1; f2; u] ->
  (m' <- cdf_3d_flux i0 j0 k0 i1 j1 k1 dx b0 b1 b2 gcw u f0 f1 f2 m ;;
   cd_apply_3d_diffusion_v2_apply i0 i1 j0 j1 k0 k1 alpha beta dx gcw u f0 f1 f2 rgcw res m') = Some mo ->
  (forall i j k, i0 <= i <= i1 -> j0 <= j <= j1 -> k0 <= k <= k1 -> ((mkFa res (CELL3d i0 j0 k0 i1 j1 k1 rgcw))!(i, j, k))%F mo = Some (r i j k)) ->
  (forall i j k, i0 - 1 <= i <= i1 + 1 -> j0 - 1 <= j <= j1 + 1 -> k0 - 1 <= k <= k1 + 1 -> ((mkFa u (CELL3d i0 j0 k0 i1 j1 k1 gcw))!(i, j, k))%F m = Some (w i j k)) ->
  (forall i j k, i0 <= i <= i1 + 1 -> j0 <= j <= j1 -> k0 <= k <= k1 -> ((mkFa b0 (FACE3d0 i0 j0 k0 i1 j1 k1 0))!(i, j, k))%F m = Some (v0 i j k)) ->
  (forall i j k, i0 <= i <= i1 -> j0 <= j <= j1 + 1 -> k0 <= k <= k1 -> ((mkFa b1 (FACE3d1 i0 j0 k0 i1 j1 k1 0))!(j, k, i))%F m = Some (v1 i j k)) ->
  (forall i j k, i0 <= i <= i1 -> j0 <= j <= j1 -> k0 <= k <= k1 + 1 -> ((mkFa b2 (FACE3d2 i0 j0 k0 i1 j1 k1 0))!(k, i, j))%F m = Some (v2 i j k)) ->
  (0 <= beta)%Qc ->
  (0 <= alpha)%Qc ->
  (forall i j k, i0 <= i <= i1 + 1 -> j0 <= j <= j1 -> k0 <= k <= k1 -> (0 <= v0 i j k)%Qc) ->
  (forall i j k, i0 <= i <= i1 -> j0 <= j <= j1 + 1 -> k0 <= k <= k1 -> (0 <= v1 i j k)%Qc) ->
  (forall i j k, i0 <= i <= i1 -> j0 <= j <= j1 -> k0 <= k <= k1 + 1 -> (0 <= v2 i j k)%Qc) ->
  (forall j k, j0 <= j <= j1 -> k0 <= k <= k1 -> (w (i0 - 1)%Z j k * w i0 j k <= w i0 j k * w i0 j k /\ w (i1 + 1)%Z j k * w i1 j k <= w i1 j k * w i1 j k)%Qc) ->
  (forall i k, i0 <= i <= i1 -> k0 <= k <= k1 -> (w i (j0 - 1)%Z k * w i j0 k <= w i j0 k * w i j0 k /\ w i (j1 + 1)%Z k * w i j1 k <= w i j1 k * w i j1 k)%Qc) ->
  (forall i j, i0 <= i <= i1 -> j0 <= j <= j1 -> (w i j (k0 - 1)%Z * w i j k0 <= w i j k0 * w i j k0 /\ w i j (k1 + 1)%Z * w i j k1 <= w i j k1 * w i j k1)%Qc) ->
  (0 <= (total3 i0 j0 k0 i1 j1 k1 (fun i j k => r i j k * w i j k))%T)%Qc.
Proof. exact @nonneg_v2_3d. Qed.
Print Assumptions C59_nonneg_v2_3d.

Example C59_nonneg_v2_3d_example :
  apart (5%nat, 0) [(6%nat, 0); (7%nat, 0); (0%nat, 0); (1%nat, 0); (2%nat, 0); (4%nat, 0)] /\
  apart (6%nat, 0) [(7%nat, 0); (0%nat, 0); (1%nat, 0); (2%nat, 0); (4%nat, 0)] /\
  apart (7%nat, 0) [(0%nat, 0); (1%nat, 0); (2%nat, 0); (4%nat, 0)] /\
  apart (8%nat, 0) [(5%nat, 0); (6%nat, 0); (7%nat, 0); (4%nat, 0)] /\
  (let m := ex_en_cells 70 [0; 0; 0; 0; 0; 0; 0; 0; 0; 0; 0; 0; 0; 0; 0; 0; 0; 0; 0; 0; 0; 1; -1; 0; 0; -2; 6; 0; 0; 0; 0; 0; 0; 0; 0; 0; 0; -3; 7; 0; 0; 8; -8; 0; 0; 0; 0; 0; 0; 0; 0; 0; 0; 0; 0; 0; 0; 0; 0; 0; 0; 0; 0; 0] in
   match (m' <- cdf_3d_flux 0 0 0 1 1 1 ex_st_h (0%nat, 0) (1%nat, 0) (2%nat, 0) 1 (4%nat, 0) (5%nat, 0) (6%nat, 0) (7%nat, 0) m ;; cd_apply_3d_diffusion_v2_apply 0 1 0 1 0 1 (lit 5) (lit 3) ex_st_h 1 (4%nat, 0) (5%nat, 0) (6%nat, 0) (7%nat, 0) 0 (8%nat, 0) m') with
   | Some mo =>
     let r := (fun i j k => ex_en_val mo (mkFa (8%nat, 0) (CELL3d 0 0 0 1 1 1 0)) [i; j; k]) in let w := (fun i j k => ex_en_val m (mkFa (4%nat, 0) (CELL3d 0 0 0 1 1 1 1)) [i; j; k]) in let v0 := (fun i j k => ex_en_val m (mkFa (0%nat, 0) (FACE3d0 0 0 0 1 1 1 0)) [i; j; k]) in let v1 := (fun i j k => ex_en_val m (mkFa (1%nat, 0) (FACE3d1 0 0 0 1 1 1 0)) [j; k; i]) in let v2 := (fun i j k => ex_en_val m (mkFa (2%nat, 0) (FACE3d2 0 0 0 1 1 1 0)) [k; i; j]) in
     (ex_en_ok mo (mkFa (8%nat, 0) (CELL3d 0 0 0 1 1 1 0)) [[0; 0; 0]; [0; 0; 1]; [0; 1; 0]; [0; 1; 1]; [1; 0; 0]; [1; 0; 1]; [1; 1; 0]; [1; 1; 1]] && ex_en_ok m (mkFa (4%nat, 0) (CELL3d 0 0 0 1 1 1 1)) [[-1; -1; -1]; [-1; -1; 0]; [-1; -1; 1]; [-1; -1; 2]; [-1; 0; -1]; [-1; 0; 0]; [-1; 0; 1]; [-1; 0; 2]; [-1; 1; -1]; [-1; 1; 0]; [-1; 1; 1]; [-1; 1; 2]; [-1; 2; -1]; [-1; 2; 0]; [-1; 2; 1]; [-1; 2; 2]; [0; -1; -1]; [0; -1; 0]; [0; -1; 1]; [0; -1; 2]; [0; 0; -1]; [0; 0; 0]; [0; 0; 1]; [0; 0; 2]; [0; 1; -1]; [0; 1; 0]; [0; 1; 1]; [0; 1; 2]; [0; 2; -1]; [0; 2; 0]; [0; 2; 1]; [0; 2; 2]; [1; -1; -1]; [1; -1; 0]; [1; -1; 1]; [1; -1; 2]; [1; 0; -1]; [1; 0; 0]; [1; 0; 1]; [1; 0; 2]; [1; 1; -1]; [1; 1; 0]; [1; 1; 1]; [1; 1; 2]; [1; 2; -1]; [1; 2; 0]; [1; 2; 1]; [1; 2; 2]; [2; -1; -1]; [2; -1; 0]; [2; -1; 1]; [2; -1; 2]; [2; 0; -1]; [2; 0; 0]; [2; 0; 1]; [2; 0; 2]; [2; 1; -1]; [2; 1; 0]; [2; 1; 1]; [2; 1; 2]; [2; 2; -1]; [2; 2; 0]; [2; 2; 1]; [2; 2; 2]] && ex_en_ok m (mkFa (0%nat, 0) (FACE3d0 0 0 0 1 1 1 0)) [[0; 0; 0]; [0; 0; 1]; [0; 1; 0]; [0; 1; 1]; [1; 0; 0]; [1; 0; 1]; [1; 1; 0]; [1; 1; 1]; [2; 0; 0]; [2; 0; 1]; [2; 1; 0]; [2; 1; 1]] && ex_en_ok m (mkFa (1%nat, 0) (FACE3d1 0 0 0 1 1 1 0)) [[0; 0; 0]; [0; 1; 0]; [1; 0; 0]; [1; 1; 0]; [2; 0; 0]; [2; 1; 0]; [0; 0; 1]; [0; 1; 1]; [1; 0; 1]; [1; 1; 1]; [2; 0; 1]; [2; 1; 1]] && ex_en_ok m (mkFa (2%nat, 0) (FACE3d2 0 0 0 1 1 1 0)) [[0; 0; 0]; [1; 0; 0]; [2; 0; 0]; [0; 0; 1]; [1; 0; 1]; [2; 0; 1]; [0; 1; 0]; [1; 1; 0]; [2; 1; 0]; [0; 1; 1]; [1; 1; 1]; [2; 1; 1]] && ex_en_nonneg m,
      forallb (fun gx : QcS * QcS => Qle_bool (this (fst gx * snd gx)%T) (this (snd gx * snd gx)%T)) [(w (-1) (0) (0), w (0) (0) (0)); (w (-1) (0) (1), w (0) (0) (1)); (w (-1) (1) (0), w (0) (1) (0)); (w (-1) (1) (1), w (0) (1) (1)); (w (2) (0) (0), w (1) (0) (0)); (w (2) (0) (1), w (1) (0) (1)); (w (2) (1) (0), w (1) (1) (0)); (w (2) (1) (1), w (1) (1) (1)); (w (0) (-1) (0), w (0) (0) (0)); (w (0) (-1) (1), w (0) (0) (1)); (w (0) (2) (0), w (0) (1) (0)); (w (0) (2) (1), w (0) (1) (1)); (w (1) (-1) (0), w (1) (0) (0)); (w (1) (-1) (1), w (1) (0) (1)); (w (1) (2) (0), w (1) (1) (0)); (w (1) (2) (1), w (1) (1) (1)); (w (0) (0) (-1), w (0) (0) (0)); (w (0) (0) (2), w (0) (0) (1)); (w (0) (1) (-1), w (0) (1) (0)); (w (0) (1) (2), w (0) (1) (1)); (w (1) (0) (-1), w (1) (0) (0)); (w (1) (0) (2), w (1) (0) (1)); (w (1) (1) (-1), w (1) (1) (0)); (w (1) (1) (2), w (1) (1) (1))],
      ex_en_num (total3 0 0 0 1 1 1 (fun i j k => r i j k * w i j k))%T)
   | None => (false, false, (0, 0)) end) = (true, true, (1700435, 24)).
Proof. split; [repeat constructor; discriminate|]. split; [repeat constructor; discriminate|]. split; [repeat constructor; discriminate|]. split; [repeat constructor; discriminate|]. vm_compute. reflexivity. Qed.

Theorem C59_nonneg_poisson_3d :
  forall i0 j0 k0 i1 j1 k1 dx beta gcw u f0 f1 f2 rgcw res (m mo : mem QcS) r w,
  i0 <= i1 -> j0 <= j1 -> k0 <= k1 -> 0 <= gcw -> 0 <= rgcw ->
  apart f0 [f1; f2; u] -> apart f1 [f2; u] -> apart f2 [u] -> apart res [f0; f1; f2; u] ->
  (m' <- cdf_3d_poisson_flux i0 j0 k0 i1 j1 k1 dx gcw u f0 f1 f2 m ;;
   cd_apply_3d_poisson_v2_apply i0 i1 j0 j1 k0 k1 beta dx f0 f1 f2 rgcw res m') = Some mo ->
  (forall i j k, i0 <= i <= i1 -> j0 <= j <= j1 -> k0 <= k <= k1 -> ((mkFa res (CELL3d i0 j0 k0 i1 j1 k1 rgcw))!(i, j, k))%F mo = Some (r i j k)) ->
  (forall i j k, i0 - 1 <= i <= i1 + 1 -> j0 - 1 <= j <= j1 + 1 -> k0 - 1 <= k <= k1 + 1 -> ((mkFa u (CELL3d i0 j0 k0 i1 j1 k1 gcw))!(i, j, k))%F m = Some (w i j k)) ->
  (0 <= beta)%Qc ->
  (forall j k, j0 <= j <= j1 -> k0 <= k <= k1 -> (w (i0 - 1)%Z j k * w i0 j k <= w i0 j k * w i0 j k /\ w (i1 + 1)%Z j k * w i1 j k <= w i1 j k * w i1 j k)%Qc) ->
  (forall i k, i0 <= i <= i1 -> k0 <= k <= k1 -> (w i (j0 - 1)%Z k * w i j0 k <= w i j0 k * w i j0 k /\ w i (j1 + 1)%Z k * w i j1 k <= w i j1 k * w i j1 k)%Qc) ->
  (forall i j, i0 <= i <= i1 -> j0 <= j <= j1 -> (w i j (k0 - 1)%Z * w i j k0 <= w i j k0 * w i j k0 /\ w i j (k1 + 1)%Z * w i j k1 <= w i j k1 * w i j k1)%Qc) ->
  (0 <= (total3 i0 j0 k0 i1 j1 k1 (fun i j k => r i j k * w i j k))%T)%Qc.
Proof. exact @nonneg_poisson_3d. Qed.
Print Assumptions C59_nonneg_poisson_3d.

Example C59_nonneg_poisson_3d_example :
  apart (5%nat, 0) [(6%nat, 0); (7%nat, 0); (4%nat, 0)] /\
  apart (6%nat, 0) [(7%nat, 0); (4%nat, 0)] /\
  apart (7%nat, 0) [(4%nat, 0)] /\
  apart (8%nat, 0) [(5%nat, 0); (6%nat, 0); (7%nat, 0); (4%nat, 0)] /\
  (let m := ex_en_cells 70 [0; 0; 0; 0; 0; 0; 0; 0; 0; 0; 0; 0; 0; 0; 0; 0; 0; 0; 0; 0; 0; 1; -1; 0; 0; -2; 6; 0; 0; 0; 0; 0; 0; 0; 0; 0; 0; -3; 7; 0; 0; 8; -8; 0; 0; 0; 0; 0; 0; 0; 0; 0; 0; 0; 0; 0; 0; 0; 0; 0; 0; 0; 0; 0] in
   match (m' <- cdf_3d_poisson_flux 0 0 0 1 1 1 ex_st_h 1 (4%nat, 0) (5%nat, 0) (6%nat, 0) (7%nat, 0) m ;; cd_apply_3d_poisson_v2_apply 0 1 0 1 0 1 (lit 3) ex_st_h (5%nat, 0) (6%nat, 0) (7%nat, 0) 0 (8%nat, 0) m') with
   | Some mo =>
     let r := (fun i j k => ex_en_val mo (mkFa (8%nat, 0) (CELL3d 0 0 0 1 1 1 0)) [i; j; k]) in let w := (fun i j k => ex_en_val m (mkFa (4%nat, 0) (CELL3d 0 0 0 1 1 1 1)) [i; j; k]) in
     (ex_en_ok mo (mkFa (8%nat, 0) (CELL3d 0 0 0 1 1 1 0)) [[0; 0; 0]; [0; 0; 1]; [0; 1; 0]; [0; 1; 1]; [1; 0; 0]; [1; 0; 1]; [1; 1; 0]; [1; 1; 1]] && ex_en_ok m (mkFa (4%nat, 0) (CELL3d 0 0 0 1 1 1 1)) [[-1; -1; -1]; [-1; -1; 0]; [-1; -1; 1]; [-1; -1; 2]; [-1; 0; -1]; [-1; 0; 0]; [-1; 0; 1]; [-1; 0; 2]; [-1; 1; -1]; [-1; 1; 0]; [-1; 1; 1]; [-1; 1; 2]; [-1; 2; -1]; [-1; 2; 0]; [-1; 2; 1]; [-1; 2; 2]; [0; -1; -1]; [0; -1; 0]; [0; -1; 1]; [0; -1; 2]; [0; 0; -1]; [0; 0; 0]; [0; 0; 1]; [0; 0; 2]; [0; 1; -1]; [0; 1; 0]; [0; 1; 1]; [0; 1; 2]; [0; 2; -1]; [0; 2; 0]; [0; 2; 1]; [0; 2; 2]; [1; -1; -1]; [1; -1; 0]; [1; -1; 1]; [1; -1; 2]; [1; 0; -1]; [1; 0; 0]; [1; 0; 1]; [1; 0; 2]; [1; 1; -1]; [1; 1; 0]; [1; 1; 1]; [1; 1; 2]; [1; 2; -1]; [1; 2; 0]; [1; 2; 1]; [1; 2; 2]; [2; -1; -1]; [2; -1; 0]; [2; -1; 1]; [2; -1; 2]; [2; 0; -1]; [2; 0; 0]; [2; 0; 1]; [2; 0; 2]; [2; 1; -1]; [2; 1; 0]; [2; 1; 1]; [2; 1; 2]; [2; 2; -1]; [2; 2; 0]; [2; 2; 1]; [2; 2; 2]] && ex_en_nonneg m,
      forallb (fun gx : QcS * QcS => Qle_bool (this (fst gx * snd gx)%T) (this (snd gx * snd gx)%T)) [(w (-1) (0) (0), w (0) (0) (0)); (w (-1) (0) (1), w (0) (0) (1)); (w (-1) (1) (0), w (0) (1) (0)); (w (-1) (1) (1), w (0) (1) (1)); (w (2) (0) (0), w (1) (0) (0)); (w (2) (0) (1), w (1) (0) (1)); (w (2) (1) (0), w (1) (1) (0)); (w (2) (1) (1), w (1) (1) (1)); (w (0) (-1) (0), w (0) (0) (0)); (w (0) (-1) (1), w (0) (0) (1)); (w (0) (2) (0), w (0) (1) (0)); (w (0) (2) (1), w (0) (1) (1)); (w (1) (-1) (0), w (1) (0) (0)); (w (1) (-1) (1), w (1) (0) (1)); (w (1) (2) (0), w (1) (1) (0)); (w (1) (2) (1), w (1) (1) (1)); (w (0) (0) (-1), w (0) (0) (0)); (w (0) (0) (2), w (0) (0) (1)); (w (0) (1) (-1), w (0) (1) (0)); (w (0) (1) (2), w (0) (1) (1)); (w (1) (0) (-1), w (1) (0) (0)); (w (1) (0) (2), w (1) (0) (1)); (w (1) (1) (-1), w (1) (1) (0)); (w (1) (1) (2), w (1) (1) (1))],
      ex_en_num (total3 0 0 0 1 1 1 (fun i j k => r i j k * w i j k))%T)
   | None => (false, false, (0, 0)) end) = (true, true, (9755, 12)).
Proof. split; [repeat constructor; discriminate|]. split; [repeat constructor; discriminate|]. split; [repeat constructor; discriminate|]. split; [repeat constructor; discriminate|]. vm_compute. reflexivity. Qed.
