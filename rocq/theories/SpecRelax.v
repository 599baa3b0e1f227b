(** * Specification: the assembled system

    [assembled_…]: the kernels have stored the matrix of the operator in [st], from the
    coefficients [c], [v0], …; the table [offset] gives for every entry of a row the
    displacement of the cell it multiplies, and [f] holds [r] in the cells of the patch.
    The array written does not overlap those read.  [at1], [at2], [at3]: a grid function
    as a number for every index list. *)

From Coq Require Import Qcanon.
From Verif Require Import Base FortranBase SpecKernel SpecAssign Instances KernelsStencil SpecRow SpecSmooth.
Import ListNotations.
Open Scope Z_scope.

Definition at1 (w : Z -> Qc) (c : list Z) : Qc := match c with [i] => w i | _ => 0%Qc end.
Definition at2 (w : Z -> Z -> Qc) (c : list Z) : Qc := match c with [i; j] => w i j | _ => 0%Qc end.
Definition at3 (w : Z -> Z -> Z -> Qc) (c : list Z) : Qc := match c with [i; j; k] => w i j k | _ => 0%Qc end.

Definition assembled_v1_1d i0 i1 (dx : Z -> Qc) (beta : Qc) b0 (alpha : Qc) agcw a sgcw st offset fgcw f (ms : mem QcS) (r c v0 : Z -> Qc) : Prop :=
  0 <= sgcw /\ apart st [b0; a] /\
  exists m : mem QcS,
  (forall i, i0 <= i <= i1 + 1 -> ((mkFa b0 (FACE1d i0 i1 0))!(i))%F m = Some (v0 i : QcS)) /\
  (forall i, i0 <= i <= i1 -> ((mkFa a (CELL1d i0 i1 agcw))!(i))%F m = Some (c i : QcS)) /\
  (m' <- cd_stencil_1d_offdiag i0 i1 i0 i1 (dx : Z -> QcS) (beta : QcS) b0 sgcw st m ;;
   cd_stencil_1d_v1diag i0 i1 (i0 - agcw) (i1 + agcw) (alpha : QcS) a sgcw st m') = Some ms /\
  table_is ms (mkFa offset [(0, 0); (0, 2)]) [[0]; [-1]; [1]] /\
  (forall i, i0 <= i <= i1 -> ((mkFa f (CELL1d i0 i1 fgcw))!(i))%F ms = Some (r i : QcS)).

Definition assembled_v2_1d i0 i1 (dx : Z -> Qc) (beta : Qc) b0 (alpha : Qc) sgcw st offset fgcw f (ms : mem QcS) (r v0 : Z -> Qc) : Prop :=
  0 <= sgcw /\ apart st [b0] /\
  exists m : mem QcS,
  (forall i, i0 <= i <= i1 + 1 -> ((mkFa b0 (FACE1d i0 i1 0))!(i))%F m = Some (v0 i : QcS)) /\
  (m' <- cd_stencil_1d_offdiag i0 i1 i0 i1 (dx : Z -> QcS) (beta : QcS) b0 sgcw st m ;;
   cd_stencil_1d_v2diag i0 i1 (alpha : QcS) sgcw st m') = Some ms /\
  table_is ms (mkFa offset [(0, 0); (0, 2)]) [[0]; [-1]; [1]] /\
  (forall i, i0 <= i <= i1 -> ((mkFa f (CELL1d i0 i1 fgcw))!(i))%F ms = Some (r i : QcS)).

Definition assembled_v1_2d i0 j0 i1 j1 (dx : Z -> Qc) (beta : Qc) b0 b1 (alpha : Qc) agcw a sgcw st offset fgcw f (ms : mem QcS) (r c v0 v1 : Z -> Z -> Qc) : Prop :=
  0 <= sgcw /\ apart st [b0; b1; a] /\
  exists m : mem QcS,
  (forall i j, i0 <= i <= i1 + 1 -> j0 <= j <= j1 -> ((mkFa b0 (FACE2d0 i0 j0 i1 j1 0))!(i, j))%F m = Some (v0 i j : QcS)) /\
  (forall i j, i0 <= i <= i1 -> j0 <= j <= j1 + 1 -> ((mkFa b1 (FACE2d1 i0 j0 i1 j1 0))!(j, i))%F m = Some (v1 i j : QcS)) /\
  (forall i j, i0 <= i <= i1 -> j0 <= j <= j1 -> ((mkFa a (CELL2d i0 j0 i1 j1 agcw))!(i, j))%F m = Some (c i j : QcS)) /\
  (m' <- cd_stencil_2d_offdiag i0 j0 i1 j1 i0 j0 i1 j1 (dx : Z -> QcS) (beta : QcS) b0 b1 sgcw st m ;;
   cd_stencil_2d_v1diag i0 j0 i1 j1 (i0 - agcw) (j0 - agcw) (i1 + agcw) (j1 + agcw) (alpha : QcS) a sgcw st m') = Some ms /\
  table_is ms (mkFa offset [(0, 1); (0, 4)]) [[0; 0]; [-1; 0]; [1; 0]; [0; -1]; [0; 1]] /\
  (forall i j, i0 <= i <= i1 -> j0 <= j <= j1 -> ((mkFa f (CELL2d i0 j0 i1 j1 fgcw))!(i, j))%F ms = Some (r i j : QcS)).

Definition assembled_v2_2d i0 j0 i1 j1 (dx : Z -> Qc) (beta : Qc) b0 b1 (alpha : Qc) sgcw st offset fgcw f (ms : mem QcS) (r v0 v1 : Z -> Z -> Qc) : Prop :=
  0 <= sgcw /\ apart st [b0; b1] /\
  exists m : mem QcS,
  (forall i j, i0 <= i <= i1 + 1 -> j0 <= j <= j1 -> ((mkFa b0 (FACE2d0 i0 j0 i1 j1 0))!(i, j))%F m = Some (v0 i j : QcS)) /\
  (forall i j, i0 <= i <= i1 -> j0 <= j <= j1 + 1 -> ((mkFa b1 (FACE2d1 i0 j0 i1 j1 0))!(j, i))%F m = Some (v1 i j : QcS)) /\
  (m' <- cd_stencil_2d_offdiag i0 j0 i1 j1 i0 j0 i1 j1 (dx : Z -> QcS) (beta : QcS) b0 b1 sgcw st m ;;
   cd_stencil_2d_v2diag i0 j0 i1 j1 (alpha : QcS) sgcw st m') = Some ms /\
  table_is ms (mkFa offset [(0, 1); (0, 4)]) [[0; 0]; [-1; 0]; [1; 0]; [0; -1]; [0; 1]] /\
  (forall i j, i0 <= i <= i1 -> j0 <= j <= j1 -> ((mkFa f (CELL2d i0 j0 i1 j1 fgcw))!(i, j))%F ms = Some (r i j : QcS)).

Definition assembled_v1_3d i0 j0 k0 i1 j1 k1 (dx : Z -> Qc) (beta : Qc) b0 b1 b2 (alpha : Qc) agcw a sgcw st offset fgcw f (ms : mem QcS) (r c v0 v1 v2 : Z -> Z -> Z -> Qc) : Prop :=
  0 <= sgcw /\ apart st [b0; b1; b2; a] /\
  exists m : mem QcS,
  (forall i j k, i0 <= i <= i1 + 1 -> j0 <= j <= j1 -> k0 <= k <= k1 -> ((mkFa b0 (FACE3d0 i0 j0 k0 i1 j1 k1 0))!(i, j, k))%F m = Some (v0 i j k : QcS)) /\
  (forall i j k, i0 <= i <= i1 -> j0 <= j <= j1 + 1 -> k0 <= k <= k1 -> ((mkFa b1 (FACE3d1 i0 j0 k0 i1 j1 k1 0))!(j, k, i))%F m = Some (v1 i j k : QcS)) /\
  (forall i j k, i0 <= i <= i1 -> j0 <= j <= j1 -> k0 <= k <= k1 + 1 -> ((mkFa b2 (FACE3d2 i0 j0 k0 i1 j1 k1 0))!(k, i, j))%F m = Some (v2 i j k : QcS)) /\
  (forall i j k, i0 <= i <= i1 -> j0 <= j <= j1 -> k0 <= k <= k1 -> ((mkFa a (CELL3d i0 j0 k0 i1 j1 k1 agcw))!(i, j, k))%F m = Some (c i j k : QcS)) /\
  (m' <- cd_stencil_3d_offdiag i0 j0 k0 i1 j1 k1 i0 j0 k0 i1 j1 k1 (dx : Z -> QcS) (beta : QcS) b0 b1 b2 sgcw st m ;;
   cd_stencil_3d_v1diag i0 j0 k0 i1 j1 k1 (i0 - agcw) (j0 - agcw) (k0 - agcw) (i1 + agcw) (j1 + agcw) (k1 + agcw) (alpha : QcS) a sgcw st m') = Some ms /\
  table_is ms (mkFa offset [(0, 2); (0, 6)]) [[0; 0; 0]; [-1; 0; 0]; [1; 0; 0]; [0; -1; 0]; [0; 1; 0]; [0; 0; -1]; [0; 0; 1]] /\
  (forall i j k, i0 <= i <= i1 -> j0 <= j <= j1 -> k0 <= k <= k1 -> ((mkFa f (CELL3d i0 j0 k0 i1 j1 k1 fgcw))!(i, j, k))%F ms = Some (r i j k : QcS)).

Definition assembled_v2_3d i0 j0 k0 i1 j1 k1 (dx : Z -> Qc) (beta : Qc) b0 b1 b2 (alpha : Qc) sgcw st offset fgcw f (ms : mem QcS) (r v0 v1 v2 : Z -> Z -> Z -> Qc) : Prop :=
  0 <= sgcw /\ apart st [b0; b1; b2] /\
  exists m : mem QcS,
  (forall i j k, i0 <= i <= i1 + 1 -> j0 <= j <= j1 -> k0 <= k <= k1 -> ((mkFa b0 (FACE3d0 i0 j0 k0 i1 j1 k1 0))!(i, j, k))%F m = Some (v0 i j k : QcS)) /\
  (forall i j k, i0 <= i <= i1 -> j0 <= j <= j1 + 1 -> k0 <= k <= k1 -> ((mkFa b1 (FACE3d1 i0 j0 k0 i1 j1 k1 0))!(j, k, i))%F m = Some (v1 i j k : QcS)) /\
  (forall i j k, i0 <= i <= i1 -> j0 <= j <= j1 -> k0 <= k <= k1 + 1 -> ((mkFa b2 (FACE3d2 i0 j0 k0 i1 j1 k1 0))!(k, i, j))%F m = Some (v2 i j k : QcS)) /\
  (m' <- cd_stencil_3d_offdiag i0 j0 k0 i1 j1 k1 i0 j0 k0 i1 j1 k1 (dx : Z -> QcS) (beta : QcS) b0 b1 b2 sgcw st m ;;
   cd_stencil_3d_v2diag i0 j0 k0 i1 j1 k1 (alpha : QcS) sgcw st m') = Some ms /\
  table_is ms (mkFa offset [(0, 2); (0, 6)]) [[0; 0; 0]; [-1; 0; 0]; [1; 0; 0]; [0; -1; 0]; [0; 1; 0]; [0; 0; -1]; [0; 0; 1]] /\
  (forall i j k, i0 <= i <= i1 -> j0 <= j <= j1 -> k0 <= k <= k1 -> ((mkFa f (CELL3d i0 j0 k0 i1 j1 k1 fgcw))!(i, j, k))%F ms = Some (r i j k : QcS)).
