(** * Specification: the Poisson problem in memory

    [poisson_system_…]: the kernels have stored the matrix of the operator without
    reaction in [st]; the table [offset] gives for every entry of a row the displacement
    of the cell it multiplies; and [f] holds the three-, five- or seven-point difference
    operator applied to the grid function [w].  [poisson_rate_…]: the factor by which a
    sweep makes the error smaller, computed from the number of cells in the first
    direction and the spacings. *)

From Coq Require Import QArith Qcanon.
From Verif Require Import Base FortranBase SpecKernel SpecAssign Instances KernelsStencil SpecRow SpecSmooth SpecRelax.
Import ListNotations.
Open Scope Z_scope.

(** One more than the number of cells from [a] to [b]. *)
Definition cells_in (a b : Z) : Qc := Q2Qc (inject_Z (b - a + 2)).

Definition laplace_1d (dx : Z -> Qc) (beta : Qc) (w : Z -> Qc) i : Qc := (beta * ((w i - w (i - 1)%Z + (w i - w (i + 1)%Z)) / (dx 0%Z * dx 0%Z)))%Qc.

Definition poisson_rate_1d i0 i1 : Qc := (1 - Q2Qc 4 / (cells_in i0 i1 * cells_in i0 i1))%Qc.

Definition poisson_system_1d i0 i1 (dx : Z -> Qc) (beta : Qc) sgcw st offset fgcw f (ms : mem QcS) (w : Z -> Qc) : Prop :=
  0 <= sgcw /\
  (exists m : mem QcS,
   (m' <- cd_stencil_1d_poisson_offdiag i0 i1 (dx : Z -> QcS) (beta : QcS) sgcw st m ;;
    cd_stencil_1d_poisson_diag i0 i1 sgcw st m') = Some ms) /\
  table_is ms (mkFa offset [(0, 0); (0, 2)]) [[0]; [-1]; [1]] /\
  (forall i, i0 <= i <= i1 -> ((mkFa f (CELL1d i0 i1 fgcw))!(i))%F ms = Some (laplace_1d dx beta w i : QcS)).

Definition laplace_2d (dx : Z -> Qc) (beta : Qc) (w : Z -> Z -> Qc) i j : Qc := (beta * ((w i j - w (i - 1)%Z j + (w i j - w (i + 1)%Z j)) / (dx 0%Z * dx 0%Z) + (w i j - w i (j - 1)%Z + (w i j - w i (j + 1)%Z)) / (dx 1%Z * dx 1%Z)))%Qc.

Definition poisson_rate_2d i0 i1 (dx : Z -> Qc) : Qc := (1 - Q2Qc 4 / (cells_in i0 i1 * cells_in i0 i1) * (1 / (dx 0%Z * dx 0%Z) / (1 / (dx 0%Z * dx 0%Z) + 1 / (dx 1%Z * dx 1%Z))))%Qc.

Definition poisson_system_2d i0 j0 i1 j1 (dx : Z -> Qc) (beta : Qc) sgcw st offset fgcw f (ms : mem QcS) (w : Z -> Z -> Qc) : Prop :=
  0 <= sgcw /\
  (exists m : mem QcS,
   (m' <- cd_stencil_2d_poisson_offdiag i0 j0 i1 j1 (dx : Z -> QcS) (beta : QcS) sgcw st m ;;
    cd_stencil_2d_poisson_diag i0 j0 i1 j1 sgcw st m') = Some ms) /\
  table_is ms (mkFa offset [(0, 1); (0, 4)]) [[0; 0]; [-1; 0]; [1; 0]; [0; -1]; [0; 1]] /\
  (forall i j, i0 <= i <= i1 -> j0 <= j <= j1 -> ((mkFa f (CELL2d i0 j0 i1 j1 fgcw))!(i, j))%F ms = Some (laplace_2d dx beta w i j : QcS)).

Definition laplace_3d (dx : Z -> Qc) (beta : Qc) (w : Z -> Z -> Z -> Qc) i j k : Qc := (beta * ((w i j k - w (i - 1)%Z j k + (w i j k - w (i + 1)%Z j k)) / (dx 0%Z * dx 0%Z) + (w i j k - w i (j - 1)%Z k + (w i j k - w i (j + 1)%Z k)) / (dx 1%Z * dx 1%Z) + (w i j k - w i j (k - 1)%Z + (w i j k - w i j (k + 1)%Z)) / (dx 2%Z * dx 2%Z)))%Qc.

Definition poisson_rate_3d i0 i1 (dx : Z -> Qc) : Qc := (1 - Q2Qc 4 / (cells_in i0 i1 * cells_in i0 i1) * (1 / (dx 0%Z * dx 0%Z) / (1 / (dx 0%Z * dx 0%Z) + 1 / (dx 1%Z * dx 1%Z) + 1 / (dx 2%Z * dx 2%Z))))%Qc.

Definition poisson_system_3d i0 j0 k0 i1 j1 k1 (dx : Z -> Qc) (beta : Qc) sgcw st offset fgcw f (ms : mem QcS) (w : Z -> Z -> Z -> Qc) : Prop :=
  0 <= sgcw /\
  (exists m : mem QcS,
   (m' <- cd_stencil_3d_poisson_offdiag i0 j0 k0 i1 j1 k1 (dx : Z -> QcS) (beta : QcS) sgcw st m ;;
    cd_stencil_3d_poisson_diag i0 j0 k0 i1 j1 k1 sgcw st m') = Some ms) /\
  table_is ms (mkFa offset [(0, 2); (0, 6)]) [[0; 0; 0]; [-1; 0; 0]; [1; 0; 0]; [0; -1; 0]; [0; 1; 0]; [0; 0; -1]; [0; 0; 1]] /\
  (forall i j k, i0 <= i <= i1 -> j0 <= j <= j1 -> k0 <= k <= k1 -> ((mkFa f (CELL3d i0 j0 k0 i1 j1 k1 fgcw))!(i, j, k))%F ms = Some (laplace_3d dx beta w i j k : QcS)).
