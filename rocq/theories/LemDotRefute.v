(** * A patch on which the two-dimensional subroutine differs from the library *)

From Verif Require Import Base FortranBase FortranSmooth KernelsDot Instances SpecNode LemNodeRefute.
Import ListNotations.
Open Scope Z_scope.

(** Arrays of unequal entries; the tables of a five-entry stencil in one, two and
    three dimensions. *)
Definition dot_mem : mem ZS := mkMem (map (fun k => ramp 400 (Z.of_nat k * 7 + 3)) (seq 0 4))
  [[0; -1; 1; -1; 1]; [0; 0; -1; 0; 1; 0; 0; -1; 0; 1]; [0; 0; 0; -1; 0; 0; 1; 0; 0; 0; -1; 0; 0; 1; 1]].

Lemma applystencilonpatch2d_differs :
  disagree (applystencilonpatch2d 0 3 1 2 5 (p 1) (p 0) (1 : ZS) (0 : ZS) 1 (p 2) 1 (p 1) 1 (p 2))
           (dot_offset_2d (p 0) 0 (p 1) 1 (p 2) 1 (p 1) 0 3 1 2 5) dot_mem.
Proof. apply differs_ok. vm_compute. reflexivity. Qed.
