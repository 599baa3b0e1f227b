(** * Property C60: the operator is exact on polynomials *)

From Coq Require Import QArith Qcanon.
From Verif Require Import Base ModelBounds ModelMatrix ModelIters ModelSpan ModelProxy Spec SpecAssign FortranBase SpecKernel SpecRow
  SpecPoly Instances KernelsFlux KernelsApply LemExact PropertiesStencilKernels PropertiesEnergy.
Import ListNotations.
Open Scope Z_scope.

(** For the examples: spacings, a row of whole numbers, whether an array entry is a
    given number. *)
Definition ex_po_h : Z -> QcS := fun d => lit (2 * (d + 1)).
Definition ex_po_o : Z -> QcS := fun d => lit (1 - 3 * d).
Definition ex_po_k : QcS := lit 7.
Definition ex_po_q1 : nat -> QcS := fun a => lit (Z.of_nat a * Z.of_nat a + 2).
Definition ex_po_e10 : QcS := (lit 2)%T.
Definition ex_po_l10 : QcS := (lit 3)%T.
Definition ex_po_q2 : nat -> nat -> QcS := fun a b => lit (Z.of_nat a * 2 + Z.of_nat b - 3).
Definition ex_po_e20 : QcS -> QcS := fun y => (y + lit 2)%T.
Definition ex_po_l20 : QcS -> QcS := fun y => (lit 1 * y - lit 1)%T.
Definition ex_po_e21 : QcS -> QcS := fun x => (x + lit 3)%T.
Definition ex_po_l21 : QcS -> QcS := fun x => (lit 2 * x - lit 1)%T.
Definition ex_po_q3 : nat -> nat -> nat -> QcS := fun a b c => lit (Z.of_nat a + 2 * Z.of_nat b - Z.of_nat c * Z.of_nat c).
Definition ex_po_e30 : QcS -> QcS -> QcS := fun y z => (y + z + lit 2)%T.
Definition ex_po_l30 : QcS -> QcS -> QcS := fun y z => (lit 1 * y - lit 1)%T.
Definition ex_po_e31 : QcS -> QcS -> QcS := fun x z => (x + z + lit 3)%T.
Definition ex_po_l31 : QcS -> QcS -> QcS := fun x z => (lit 2 * x - lit 1)%T.
Definition ex_po_e32 : QcS -> QcS -> QcS := fun x y => (x + y + lit 4)%T.
Definition ex_po_l32 : QcS -> QcS -> QcS := fun x y => (lit 3 * x - lit 1)%T.
Definition ex_po_row (l : list Z) : list QcS := map (fun x => lit x : QcS) l.
Definition ex_po_is (m : mem QcS) (a : farray) (ix : list Z) (x : QcS) : bool :=
  match load m (faddr a ix) with Some y => Qeq_bool (this x) (this y) | None => false end.

(** ** Constant coefficient

    The solution holds the values of a polynomial of degree three in each variable at
    the cell centres.  The operator is the differential operator, with no error. *)

Theorem C60_const_v1_1d : forall (S : Scalar), field_laws S ->
  forall i0 i1 dx beta b0 gcw u f0 alpha agcw a rgcw res o q kappa (m mo : mem S) r c,
  i0 <= i1 + 1 -> dx 0 <> lit 0 -> 0 <= gcw -> 0 <= rgcw ->
  apart f0 [b0; a; u] -> apart res [f0; a; u] ->
  (m' <- cdf_1d_flux i0 i1 dx b0 gcw u f0 m ;;
   cd_apply_1d_diffusion_v1_apply i0 i1 alpha beta dx agcw a gcw u f0 rgcw res m') = Some mo ->
  (forall i, i0 <= i <= i1 -> ((mkFa res (CELL1d i0 i1 rgcw))!(i))%F mo = Some (r i)) ->
  (forall i, i0 - 1 <= i <= i1 + 1 -> ((mkFa u (CELL1d i0 i1 gcw))!(i))%F m = Some (cubic q (centre (o 0) (dx 0) i))) ->
  (forall i, i0 <= i <= i1 -> ((mkFa a (CELL1d i0 i1 agcw))!(i))%F m = Some (c i)) ->
  (forall i, i0 <= i <= i1 + 1 -> ((mkFa b0 (FACE1d i0 i1 0))!(i))%F m = Some (kappa)%T) ->
  forall i, i0 <= i <= i1 ->
  let x := centre (o 0) (dx 0) i in
  r i = (- beta * (kappa * (cubic_dd q x)) + alpha * (c i * cubic q x))%T.
Proof. exact @exact_const_v1_1d. Qed.
Print Assumptions C60_const_v1_1d.

Example C60_const_v1_1d_example :
  ex_po_h 0 <> lit 0 /\ apart (5%nat, 0) [(0%nat, 0); (3%nat, 0); (4%nat, 0)] /\
  apart (8%nat, 0) [(5%nat, 0); (3%nat, 0); (4%nat, 0)] /\
  (let dx := ex_po_h in 
   let m := mkMem [(ex_po_row [7; 7; 7]); []; []; nth 3 (cells (ex_st_cells 20)) []; (ex_po_row [-6; 22; 362; 1542]); nth 5 (cells (ex_st_cells 20)) []; nth 5 (cells (ex_st_cells 20)) []; nth 5 (cells (ex_st_cells 20)) []; nth 5 (cells (ex_st_cells 20)) []] [] in
   match (m' <- cdf_1d_flux 0 1 dx (0%nat, 0) 1 (4%nat, 0) (5%nat, 0) m ;; cd_apply_1d_diffusion_v1_apply 0 1 (lit 5) (lit 3) dx 1 (3%nat, 0) 1 (4%nat, 0) (5%nat, 0) 0 (8%nat, 0) m') with
   | Some mo => let x := centre (ex_po_o 0) (dx 0) 1 in
     (ex_en_ok mo (mkFa (8%nat, 0) (CELL1d 0 1 0)) [[0]; [1]] && ex_en_ok m (mkFa (3%nat, 0) (CELL1d 0 1 1)) [[0]; [1]],
      forallb (fun i => ex_po_is m (mkFa (4%nat, 0) (CELL1d 0 1 1)) [i] (cubic ex_po_q1 (centre (ex_po_o 0) (dx 0) i))) [-1; 0; 1; 2] && forallb (fun i => ex_po_is m (mkFa (0%nat, 0) (FACE1d 0 1 0)) [i] (ex_po_k)%T) [0; 1; 2],
      ex_en_num (ex_en_val mo (mkFa (8%nat, 0) (CELL1d 0 1 0)) [1]),
      ex_en_num (- (lit 3) * (ex_po_k * (cubic_dd ex_po_q1 x)) + (lit 5) * (ex_en_val m (mkFa (3%nat, 0) (CELL1d 0 1 1)) [1] * cubic ex_po_q1 x))%T)
   | None => (false, false, (0, 0), (0, 0)) end) = (true, true, (37220, 1), (37220, 1)).
Proof. split; [intro C; apply (f_equal this) in C; vm_compute in C; discriminate C|]. split; [repeat constructor; discriminate|]. split; [repeat constructor; discriminate|]. vm_compute. reflexivity. Qed.

Theorem C60_const_v2_1d : forall (S : Scalar), field_laws S ->
  forall i0 i1 dx beta b0 gcw u f0 alpha rgcw res o q kappa (m mo : mem S) r,
  i0 <= i1 + 1 -> dx 0 <> lit 0 -> 0 <= gcw -> 0 <= rgcw ->
  apart f0 [b0; u] -> apart res [f0; u] ->
  (m' <- cdf_1d_flux i0 i1 dx b0 gcw u f0 m ;;
   cd_apply_1d_diffusion_v2_apply i0 i1 alpha beta dx gcw u f0 rgcw res m') = Some mo ->
  (forall i, i0 <= i <= i1 -> ((mkFa res (CELL1d i0 i1 rgcw))!(i))%F mo = Some (r i)) ->
  (forall i, i0 - 1 <= i <= i1 + 1 -> ((mkFa u (CELL1d i0 i1 gcw))!(i))%F m = Some (cubic q (centre (o 0) (dx 0) i))) ->
  (forall i, i0 <= i <= i1 + 1 -> ((mkFa b0 (FACE1d i0 i1 0))!(i))%F m = Some (kappa)%T) ->
  forall i, i0 <= i <= i1 ->
  let x := centre (o 0) (dx 0) i in
  r i = (- beta * (kappa * (cubic_dd q x)) + alpha * cubic q x)%T.
Proof. exact @exact_const_v2_1d. Qed.
Print Assumptions C60_const_v2_1d.

Example C60_const_v2_1d_example :
  ex_po_h 0 <> lit 0 /\ apart (5%nat, 0) [(0%nat, 0); (4%nat, 0)] /\
  apart (8%nat, 0) [(5%nat, 0); (4%nat, 0)] /\
  (let dx := ex_po_h in 
   let m := mkMem [(ex_po_row [7; 7; 7]); []; []; nth 3 (cells (ex_st_cells 20)) []; (ex_po_row [-6; 22; 362; 1542]); nth 5 (cells (ex_st_cells 20)) []; nth 5 (cells (ex_st_cells 20)) []; nth 5 (cells (ex_st_cells 20)) []; nth 5 (cells (ex_st_cells 20)) []] [] in
   match (m' <- cdf_1d_flux 0 1 dx (0%nat, 0) 1 (4%nat, 0) (5%nat, 0) m ;; cd_apply_1d_diffusion_v2_apply 0 1 (lit 5) (lit 3) dx 1 (4%nat, 0) (5%nat, 0) 0 (8%nat, 0) m') with
   | Some mo => let x := centre (ex_po_o 0) (dx 0) 1 in
     (ex_en_ok mo (mkFa (8%nat, 0) (CELL1d 0 1 0)) [[0]; [1]],
      forallb (fun i => ex_po_is m (mkFa (4%nat, 0) (CELL1d 0 1 1)) [i] (cubic ex_po_q1 (centre (ex_po_o 0) (dx 0) i))) [-1; 0; 1; 2] && forallb (fun i => ex_po_is m (mkFa (0%nat, 0) (FACE1d 0 1 0)) [i] (ex_po_k)%T) [0; 1; 2],
      ex_en_num (ex_en_val mo (mkFa (8%nat, 0) (CELL1d 0 1 0)) [1]),
      ex_en_num (- (lit 3) * (ex_po_k * (cubic_dd ex_po_q1 x)) + (lit 5) * cubic ex_po_q1 x)%T)
   | None => (false, false, (0, 0), (0, 0)) end) = (true, true, (-2600, 1), (-2600, 1)).
Proof. split; [intro C; apply (f_equal this) in C; vm_compute in C; discriminate C|]. split; [repeat constructor; discriminate|]. split; [repeat constructor; discriminate|]. vm_compute. reflexivity. Qed.

Theorem C60_const_poisson_1d : forall (S : Scalar), field_laws S ->
  forall i0 i1 dx beta gcw u f0 rgcw res o q (m mo : mem S) r,
  i0 <= i1 + 1 -> dx 0 <> lit 0 -> 0 <= gcw -> 0 <= rgcw ->
  apart f0 [u] -> apart res [f0; u] ->
  (m' <- cdf_1d_poisson_flux i0 i1 dx gcw u f0 m ;;
   cd_apply_1d_poisson_v2_apply i0 i1 beta dx f0 rgcw res m') = Some mo ->
  (forall i, i0 <= i <= i1 -> ((mkFa res (CELL1d i0 i1 rgcw))!(i))%F mo = Some (r i)) ->
  (forall i, i0 - 1 <= i <= i1 + 1 -> ((mkFa u (CELL1d i0 i1 gcw))!(i))%F m = Some (cubic q (centre (o 0) (dx 0) i))) ->
  forall i, i0 <= i <= i1 ->
  let x := centre (o 0) (dx 0) i in
  r i = (- beta * ((cubic_dd q x)))%T.
Proof. exact @exact_const_poisson_1d. Qed.
Print Assumptions C60_const_poisson_1d.

Example C60_const_poisson_1d_example :
  ex_po_h 0 <> lit 0 /\ apart (5%nat, 0) [(4%nat, 0)] /\
  apart (8%nat, 0) [(5%nat, 0); (4%nat, 0)] /\
  (let dx := ex_po_h in 
   let m := mkMem [[]; []; []; nth 3 (cells (ex_st_cells 20)) []; (ex_po_row [-6; 22; 362; 1542]); nth 5 (cells (ex_st_cells 20)) []; nth 5 (cells (ex_st_cells 20)) []; nth 5 (cells (ex_st_cells 20)) []; nth 5 (cells (ex_st_cells 20)) []] [] in
   match (m' <- cdf_1d_poisson_flux 0 1 dx 1 (4%nat, 0) (5%nat, 0) m ;; cd_apply_1d_poisson_v2_apply 0 1 (lit 3) dx (5%nat, 0) 0 (8%nat, 0) m') with
   | Some mo => let x := centre (ex_po_o 0) (dx 0) 1 in
     (ex_en_ok mo (mkFa (8%nat, 0) (CELL1d 0 1 0)) [[0]; [1]],
      forallb (fun i => ex_po_is m (mkFa (4%nat, 0) (CELL1d 0 1 1)) [i] (cubic ex_po_q1 (centre (ex_po_o 0) (dx 0) i))) [-1; 0; 1; 2],
      ex_en_num (ex_en_val mo (mkFa (8%nat, 0) (CELL1d 0 1 0)) [1]),
      ex_en_num (- (lit 3) * ((cubic_dd ex_po_q1 x)))%T)
   | None => (false, false, (0, 0), (0, 0)) end) = (true, true, (-630, 1), (-630, 1)).
Proof. split; [intro C; apply (f_equal this) in C; vm_compute in C; discriminate C|]. split; [repeat constructor; discriminate|]. split; [repeat constructor; discriminate|]. vm_compute. reflexivity. Qed.

Theorem C60_const_v1_2d : forall (S : Scalar), field_laws S ->
  forall i0 j0 i1 j1 dx beta b0 b1 gcw u f0 f1 alpha agcw a rgcw res o q kappa (m mo : mem S) r c,
  i0 <= i1 + 1 -> j0 <= j1 + 1 -> dx 0 <> lit 0 -> dx 1 <> lit 0 -> 0 <= gcw -> 0 <= rgcw ->
  apart f0 [f1; b0; b1; a; u] -> apart f1 [b0; b1; a; u] -> apart res [f0; f1; a; u] ->
  (m' <- cdf_2d_flux i0 j0 i1 j1 dx b0 b1 gcw u f0 f1 m ;;
   cd_apply_2d_diffusion_v1_apply i0 i1 j0 j1 alpha beta dx agcw a gcw u f0 f1 rgcw res m') = Some mo ->
  (forall i j, i0 <= i <= i1 -> j0 <= j <= j1 -> ((mkFa res (CELL2d i0 j0 i1 j1 rgcw))!(i, j))%F mo = Some (r i j)) ->
  (forall i j, i0 - 1 <= i <= i1 + 1 -> j0 - 1 <= j <= j1 + 1 -> ((mkFa u (CELL2d i0 j0 i1 j1 gcw))!(i, j))%F m = Some (cubic2 q (centre (o 0) (dx 0) i) (centre (o 1) (dx 1) j))) ->
  (forall i j, i0 <= i <= i1 -> j0 <= j <= j1 -> ((mkFa a (CELL2d i0 j0 i1 j1 agcw))!(i, j))%F m = Some (c i j)) ->
  (forall i j, i0 <= i <= i1 + 1 -> j0 <= j <= j1 -> ((mkFa b0 (FACE2d0 i0 j0 i1 j1 0))!(i, j))%F m = Some (kappa)%T) ->
  (forall i j, i0 <= i <= i1 -> j0 <= j <= j1 + 1 -> ((mkFa b1 (FACE2d1 i0 j0 i1 j1 0))!(j, i))%F m = Some (kappa)%T) ->
  forall i j, i0 <= i <= i1 -> j0 <= j <= j1 ->
  let x := centre (o 0) (dx 0) i in
  let y := centre (o 1) (dx 1) j in
  r i j = (- beta * (kappa * (cubic2_xx q x y + cubic2_yy q x y)) + alpha * (c i j * cubic2 q x y))%T.
Proof. exact @exact_const_v1_2d. Qed.
Print Assumptions C60_const_v1_2d.

Example C60_const_v1_2d_example :
  ex_po_h 0 <> lit 0 /\ ex_po_h 1 <> lit 0 /\ apart (5%nat, 0) [(6%nat, 0); (0%nat, 0); (1%nat, 0); (3%nat, 0); (4%nat, 0)] /\
  apart (6%nat, 0) [(0%nat, 0); (1%nat, 0); (3%nat, 0); (4%nat, 0)] /\
  apart (8%nat, 0) [(5%nat, 0); (6%nat, 0); (3%nat, 0); (4%nat, 0)] /\
  (let dx := ex_po_h in 
   let m := mkMem [(ex_po_row [7; 7; 7; 7; 7; 7]); (ex_po_row [7; 7; 7; 7; 7; 7]); []; nth 3 (cells (ex_st_cells 40)) []; (ex_po_row [740; -2328; -38820; -163312; 20; -72; -1140; -4768; -60; 136; 2620; 11184; -1036; 2904; 50796; 214784]); nth 5 (cells (ex_st_cells 40)) []; nth 5 (cells (ex_st_cells 40)) []; nth 5 (cells (ex_st_cells 40)) []; nth 5 (cells (ex_st_cells 40)) []] [] in
   match (m' <- cdf_2d_flux 0 0 1 1 dx (0%nat, 0) (1%nat, 0) 1 (4%nat, 0) (5%nat, 0) (6%nat, 0) m ;; cd_apply_2d_diffusion_v1_apply 0 1 0 1 (lit 5) (lit 3) dx 1 (3%nat, 0) 1 (4%nat, 0) (5%nat, 0) (6%nat, 0) 0 (8%nat, 0) m') with
   | Some mo => let x := centre (ex_po_o 0) (dx 0) 1 in let y := centre (ex_po_o 1) (dx 1) 1 in
     (ex_en_ok mo (mkFa (8%nat, 0) (CELL2d 0 0 1 1 0)) [[0; 0]; [0; 1]; [1; 0]; [1; 1]] && ex_en_ok m (mkFa (3%nat, 0) (CELL2d 0 0 1 1 1)) [[0; 0]; [0; 1]; [1; 0]; [1; 1]],
      forallb (fun i => forallb (fun j => ex_po_is m (mkFa (4%nat, 0) (CELL2d 0 0 1 1 1)) [i; j] (cubic2 ex_po_q2 (centre (ex_po_o 0) (dx 0) i) (centre (ex_po_o 1) (dx 1) j))) [-1; 0; 1; 2]) [-1; 0; 1; 2] && forallb (fun i => forallb (fun j => ex_po_is m (mkFa (0%nat, 0) (FACE2d0 0 0 1 1 0)) [i; j] (ex_po_k)%T) [0; 1]) [0; 1; 2] && forallb (fun i => forallb (fun j => ex_po_is m (mkFa (1%nat, 0) (FACE2d1 0 0 1 1 0)) [j; i] (ex_po_k)%T) [0; 1; 2]) [0; 1],
      ex_en_num (ex_en_val mo (mkFa (8%nat, 0) (CELL2d 0 0 1 1 0)) [1; 1]),
      ex_en_num (- (lit 3) * (ex_po_k * (cubic2_xx ex_po_q2 x y + cubic2_yy ex_po_q2 x y)) + (lit 5) * (ex_en_val m (mkFa (3%nat, 0) (CELL2d 0 0 1 1 1)) [1; 1] * cubic2 ex_po_q2 x y))%T)
   | None => (false, false, (0, 0), (0, 0)) end) = (true, true, (2411884, 1), (2411884, 1)).
Proof. split; [intro C; apply (f_equal this) in C; vm_compute in C; discriminate C|]. split; [intro C; apply (f_equal this) in C; vm_compute in C; discriminate C|]. split; [repeat constructor; discriminate|]. split; [repeat constructor; discriminate|]. split; [repeat constructor; discriminate|]. vm_compute. reflexivity. Qed.

Theorem C60_const_v2_2d : forall (S : Scalar), field_laws S ->
  forall i0 j0 i1 j1 dx beta b0 b1 gcw u f0 f1 alpha rgcw res o q kappa (m mo : mem S) r,
  i0 <= i1 + 1 -> j0 <= j1 + 1 -> dx 0 <> lit 0 -> dx 1 <> lit 0 -> 0 <= gcw -> 0 <= rgcw ->
  apart f0 [f1; b0; b1; u] -> apart f1 [b0; b1; u] -> apart res [f0; f1; u] ->
  (m' <- cdf_2d_flux i0 j0 i1 j1 dx b0 b1 gcw u f0 f1 m ;;
   cd_apply_2d_diffusion_v2_apply i0 i1 j0 j1 alpha beta dx gcw u f0 f1 rgcw res m') = Some mo ->
  (forall i j, i0 <= i <= i1 -> j0 <= j <= j1 -> ((mkFa res (CELL2d i0 j0 i1 j1 rgcw))!(i, j))%F mo = Some (r i j)) ->
  (forall i j, i0 - 1 <= i <= i1 + 1 -> j0 - 1 <= j <= j1 + 1 -> ((mkFa u (CELL2d i0 j0 i1 j1 gcw))!(i, j))%F m = Some (cubic2 q (centre (o 0) (dx 0) i) (centre (o 1) (dx 1) j))) ->
  (forall i j, i0 <= i <= i1 + 1 -> j0 <= j <= j1 -> ((mkFa b0 (FACE2d0 i0 j0 i1 j1 0))!(i, j))%F m = Some (kappa)%T) ->
  (forall i j, i0 <= i <= i1 -> j0 <= j <= j1 + 1 -> ((mkFa b1 (FACE2d1 i0 j0 i1 j1 0))!(j, i))%F m = Some (kappa)%T) ->
  forall i j, i0 <= i <= i1 -> j0 <= j <= j1 ->
  let x := centre (o 0) (dx 0) i in
  let y := centre (o 1) (dx 1) j in
  r i j = (- beta * (kappa * (cubic2_xx q x y + cubic2_yy q x y)) + alpha * cubic2 q x y)%T.
Proof. exact @exact_const_v2_2d. Qed.
Print Assumptions C60_const_v2_2d.

Example C60_const_v2_2d_example :
  ex_po_h 0 <> lit 0 /\ ex_po_h 1 <> lit 0 /\ apart (5%nat, 0) [(6%nat, 0); (0%nat, 0); (1%nat, 0); (4%nat, 0)] /\
  apart (6%nat, 0) [(0%nat, 0); (1%nat, 0); (4%nat, 0)] /\
  apart (8%nat, 0) [(5%nat, 0); (6%nat, 0); (4%nat, 0)] /\
  (let dx := ex_po_h in 
   let m := mkMem [(ex_po_row [7; 7; 7; 7; 7; 7]); (ex_po_row [7; 7; 7; 7; 7; 7]); []; nth 3 (cells (ex_st_cells 40)) []; (ex_po_row [740; -2328; -38820; -163312; 20; -72; -1140; -4768; -60; 136; 2620; 11184; -1036; 2904; 50796; 214784]); nth 5 (cells (ex_st_cells 40)) []; nth 5 (cells (ex_st_cells 40)) []; nth 5 (cells (ex_st_cells 40)) []; nth 5 (cells (ex_st_cells 40)) []] [] in
   match (m' <- cdf_2d_flux 0 0 1 1 dx (0%nat, 0) (1%nat, 0) 1 (4%nat, 0) (5%nat, 0) (6%nat, 0) m ;; cd_apply_2d_diffusion_v2_apply 0 1 0 1 (lit 5) (lit 3) dx 1 (4%nat, 0) (5%nat, 0) (6%nat, 0) 0 (8%nat, 0) m') with
   | Some mo => let x := centre (ex_po_o 0) (dx 0) 1 in let y := centre (ex_po_o 1) (dx 1) 1 in
     (ex_en_ok mo (mkFa (8%nat, 0) (CELL2d 0 0 1 1 0)) [[0; 0]; [0; 1]; [1; 0]; [1; 1]],
      forallb (fun i => forallb (fun j => ex_po_is m (mkFa (4%nat, 0) (CELL2d 0 0 1 1 1)) [i; j] (cubic2 ex_po_q2 (centre (ex_po_o 0) (dx 0) i) (centre (ex_po_o 1) (dx 1) j))) [-1; 0; 1; 2]) [-1; 0; 1; 2] && forallb (fun i => forallb (fun j => ex_po_is m (mkFa (0%nat, 0) (FACE2d0 0 0 1 1 0)) [i; j] (ex_po_k)%T) [0; 1]) [0; 1; 2] && forallb (fun i => forallb (fun j => ex_po_is m (mkFa (1%nat, 0) (FACE2d1 0 0 1 1 0)) [j; i] (ex_po_k)%T) [0; 1; 2]) [0; 1],
      ex_en_num (ex_en_val mo (mkFa (8%nat, 0) (CELL2d 0 0 1 1 0)) [1; 1]),
      ex_en_num (- (lit 3) * (ex_po_k * (cubic2_xx ex_po_q2 x y + cubic2_yy ex_po_q2 x y)) + (lit 5) * cubic2 ex_po_q2 x y)%T)
   | None => (false, false, (0, 0), (0, 0)) end) = (true, true, (-77116, 1), (-77116, 1)).
Proof. split; [intro C; apply (f_equal this) in C; vm_compute in C; discriminate C|]. split; [intro C; apply (f_equal this) in C; vm_compute in C; discriminate C|]. split; [repeat constructor; discriminate|]. split; [repeat constructor; discriminate|]. split; [repeat constructor; discriminate|]. vm_compute. reflexivity. Qed.

Theorem C60_const_poisson_2d : forall (S : Scalar), field_laws S ->
  forall i0 j0 i1 j1 dx beta gcw u f0 f1 rgcw res o q (m mo : mem S) r,
  i0 <= i1 + 1 -> j0 <= j1 + 1 -> dx 0 <> lit 0 -> dx 1 <> lit 0 -> 0 <= gcw -> 0 <= rgcw ->
  apart f0 [f1; u] -> apart f1 [u] -> apart res [f0; f1; u] ->
  (m' <- cdf_2d_poisson_flux i0 j0 i1 j1 dx gcw u f0 f1 m ;;
   cd_apply_2d_poisson_v2_apply i0 i1 j0 j1 beta dx f0 f1 rgcw res m') = Some mo ->
  (forall i j, i0 <= i <= i1 -> j0 <= j <= j1 -> ((mkFa res (CELL2d i0 j0 i1 j1 rgcw))!(i, j))%F mo = Some (r i j)) ->
  (forall i j, i0 - 1 <= i <= i1 + 1 -> j0 - 1 <= j <= j1 + 1 -> ((mkFa u (CELL2d i0 j0 i1 j1 gcw))!(i, j))%F m = Some (cubic2 q (centre (o 0) (dx 0) i) (centre (o 1) (dx 1) j))) ->
  forall i j, i0 <= i <= i1 -> j0 <= j <= j1 ->
  let x := centre (o 0) (dx 0) i in
  let y := centre (o 1) (dx 1) j in
  r i j = (- beta * ((cubic2_xx q x y + cubic2_yy q x y)))%T.
Proof. exact @exact_const_poisson_2d. Qed.
Print Assumptions C60_const_poisson_2d.

Example C60_const_poisson_2d_example :
  ex_po_h 0 <> lit 0 /\ ex_po_h 1 <> lit 0 /\ apart (5%nat, 0) [(6%nat, 0); (4%nat, 0)] /\
  apart (6%nat, 0) [(4%nat, 0)] /\
  apart (8%nat, 0) [(5%nat, 0); (6%nat, 0); (4%nat, 0)] /\
  (let dx := ex_po_h in 
   let m := mkMem [[]; []; []; nth 3 (cells (ex_st_cells 40)) []; (ex_po_row [740; -2328; -38820; -163312; 20; -72; -1140; -4768; -60; 136; 2620; 11184; -1036; 2904; 50796; 214784]); nth 5 (cells (ex_st_cells 40)) []; nth 5 (cells (ex_st_cells 40)) []; nth 5 (cells (ex_st_cells 40)) []; nth 5 (cells (ex_st_cells 40)) []] [] in
   match (m' <- cdf_2d_poisson_flux 0 0 1 1 dx 1 (4%nat, 0) (5%nat, 0) (6%nat, 0) m ;; cd_apply_2d_poisson_v2_apply 0 1 0 1 (lit 3) dx (5%nat, 0) (6%nat, 0) 0 (8%nat, 0) m') with
   | Some mo => let x := centre (ex_po_o 0) (dx 0) 1 in let y := centre (ex_po_o 1) (dx 1) 1 in
     (ex_en_ok mo (mkFa (8%nat, 0) (CELL2d 0 0 1 1 0)) [[0; 0]; [0; 1]; [1; 0]; [1; 1]],
      forallb (fun i => forallb (fun j => ex_po_is m (mkFa (4%nat, 0) (CELL2d 0 0 1 1 1)) [i; j] (cubic2 ex_po_q2 (centre (ex_po_o 0) (dx 0) i) (centre (ex_po_o 1) (dx 1) j))) [-1; 0; 1; 2]) [-1; 0; 1; 2],
      ex_en_num (ex_en_val mo (mkFa (8%nat, 0) (CELL2d 0 0 1 1 0)) [1; 1]),
      ex_en_num (- (lit 3) * ((cubic2_xx ex_po_q2 x y + cubic2_yy ex_po_q2 x y)))%T)
   | None => (false, false, (0, 0), (0, 0)) end) = (true, true, (-12888, 1), (-12888, 1)).
Proof. split; [intro C; apply (f_equal this) in C; vm_compute in C; discriminate C|]. split; [intro C; apply (f_equal this) in C; vm_compute in C; discriminate C|]. split; [repeat constructor; discriminate|]. split; [repeat constructor; discriminate|]. split; [repeat constructor; discriminate|]. vm_compute. reflexivity. Qed.

Theorem C60_const_v1_3d : forall (S : Scalar), field_laws S ->
  forall i0 j0 k0 i1 j1 k1 dx beta b0 b1 b2 gcw u f0 f1 f2 alpha agcw a rgcw res o q kappa (m mo : mem S) r c,
  i0 <= i1 + 1 -> j0 <= j1 + 1 -> k0 <= k1 + 1 -> dx 0 <> lit 0 -> dx 1 <> lit 0 -> dx 2 <> lit 0 -> 0 <= gcw -> 0 <= rgcw ->
  apart f0 [f1; f2; b0; b1; b2; a; u] -> apart f1 [f2; b0; b1; b2; a; u] -> apart f2 [b0; b1; b2; a; u] -> apart res [f0; f1; f2; a; u] ->
  (m' <- cdf_3d_flux i0 j0 k0 i1 j1 k1 dx b0 b1 b2 gcw u f0 f1 f2 m ;;
   cd_apply_3d_diffusion_v1_apply i0 i1 j0 j1 k0 k1 alpha beta dx agcw a gcw u f0 f1 f2 rgcw res m') = Some mo ->
  (forall i j k, i0 <= i <= i1 -> j0 <= j <= j1 -> k0 <= k <= k1 -> ((mkFa res (CELL3d i0 j0 k0 i1 j1 k1 rgcw))!(i, j, k))%F mo = Some (r i j k)) ->
  (forall i j k, i0 - 1 <= i <= i1 + 1 -> j0 - 1 <= j <= j1 + 1 -> k0 - 1 <= k <= k1 + 1 -> ((mkFa u (CELL3d i0 j0 k0 i1 j1 k1 gcw))!(i, j, k))%F m = Some (cubic3 q (centre (o 0) (dx 0) i) (centre (o 1) (dx 1) j) (centre (o 2) (dx 2) k))) ->
  (forall i j k, i0 <= i <= i1 -> j0 <= j <= j1 -> k0 <= k <= k1 -> ((mkFa a (CELL3d i0 j0 k0 i1 j1 k1 agcw))!(i, j, k))%F m = Some (c i j k)) ->
  (forall i j k, i0 <= i <= i1 + 1 -> j0 <= j <= j1 -> k0 <= k <= k1 -> ((mkFa b0 (FACE3d0 i0 j0 k0 i1 j1 k1 0))!(i, j, k))%F m = Some (kappa)%T) ->
  (forall i j k, i0 <= i <= i1 -> j0 <= j <= j1 + 1 -> k0 <= k <= k1 -> ((mkFa b1 (FACE3d1 i0 j0 k0 i1 j1 k1 0))!(j, k, i))%F m = Some (kappa)%T) ->
  (forall i j k, i0 <= i <= i1 -> j0 <= j <= j1 -> k0 <= k <= k1 + 1 -> ((mkFa b2 (FACE3d2 i0 j0 k0 i1 j1 k1 0))!(k, i, j))%F m = Some (kappa)%T) ->
  forall i j k, i0 <= i <= i1 -> j0 <= j <= j1 -> k0 <= k <= k1 ->
  let x := centre (o 0) (dx 0) i in
  let y := centre (o 1) (dx 1) j in
  let z := centre (o 2) (dx 2) k in
  r i j k = (- beta * (kappa * (cubic3_xx q x y z + cubic3_yy q x y z + cubic3_zz q x y z)) + alpha * (c i j k * cubic3 q x y z))%T.
Proof. exact @exact_const_v1_3d. Qed.
Print Assumptions C60_const_v1_3d.

Example C60_const_v1_3d_example :
  ex_po_h 0 <> lit 0 /\ ex_po_h 1 <> lit 0 /\ ex_po_h 2 <> lit 0 /\ apart (5%nat, 0) [(6%nat, 0); (7%nat, 0); (0%nat, 0); (1%nat, 0); (2%nat, 0); (3%nat, 0); (4%nat, 0)] /\
  apart (6%nat, 0) [(7%nat, 0); (0%nat, 0); (1%nat, 0); (2%nat, 0); (3%nat, 0); (4%nat, 0)] /\
  apart (7%nat, 0) [(0%nat, 0); (1%nat, 0); (2%nat, 0); (3%nat, 0); (4%nat, 0)] /\
  apart (8%nat, 0) [(5%nat, 0); (6%nat, 0); (7%nat, 0); (3%nat, 0); (4%nat, 0)] /\
  (let dx := ex_po_h in 
   let m := mkMem [(ex_po_row [7; 7; 7; 7; 7; 7; 7; 7; 7; 7; 7; 7]); (ex_po_row [7; 7; 7; 7; 7; 7; 7; 7; 7; 7; 7; 7]); (ex_po_row [7; 7; 7; 7; 7; 7; 7; 7; 7; 7; 7; 7]); nth 3 (cells (ex_st_cells 70)) []; (ex_po_row [-451400; -1479920; -5319800; -13479680; -12200; -17840; 77800; 499840; 36600; 248720; 1718600; 6113280; 631960; 2938576; 16114600; 52672384; -38480; -162536; -817280; -2567864; -1040; -2504; -3200; 4264; 3120; 24152; 176000; 636168; 53872; 301432; 1883008; 6476392; 1480; -12704; -158120; -640496; 40; -416; -5000; -20144; -120; 608; 8600; 35472; -2072; 14944; 192952; 785872; 148000; 128200; -1826000; -9504200; 4000; -3800; -122000; -540200; -12000; -52600; -274000; -875400; -207200; -463640; -285200; 2223640]); nth 5 (cells (ex_st_cells 70)) []; nth 5 (cells (ex_st_cells 70)) []; nth 5 (cells (ex_st_cells 70)) []; nth 5 (cells (ex_st_cells 70)) []] [] in
   match (m' <- cdf_3d_flux 0 0 0 1 1 1 dx (0%nat, 0) (1%nat, 0) (2%nat, 0) 1 (4%nat, 0) (5%nat, 0) (6%nat, 0) (7%nat, 0) m ;; cd_apply_3d_diffusion_v1_apply 0 1 0 1 0 1 (lit 5) (lit 3) dx 1 (3%nat, 0) 1 (4%nat, 0) (5%nat, 0) (6%nat, 0) (7%nat, 0) 0 (8%nat, 0) m') with
   | Some mo => let x := centre (ex_po_o 0) (dx 0) 1 in let y := centre (ex_po_o 1) (dx 1) 1 in let z := centre (ex_po_o 2) (dx 2) 1 in
     (ex_en_ok mo (mkFa (8%nat, 0) (CELL3d 0 0 0 1 1 1 0)) [[0; 0; 0]; [0; 0; 1]; [0; 1; 0]; [0; 1; 1]; [1; 0; 0]; [1; 0; 1]; [1; 1; 0]; [1; 1; 1]] && ex_en_ok m (mkFa (3%nat, 0) (CELL3d 0 0 0 1 1 1 1)) [[0; 0; 0]; [0; 0; 1]; [0; 1; 0]; [0; 1; 1]; [1; 0; 0]; [1; 0; 1]; [1; 1; 0]; [1; 1; 1]],
      forallb (fun i => forallb (fun j => forallb (fun k => ex_po_is m (mkFa (4%nat, 0) (CELL3d 0 0 0 1 1 1 1)) [i; j; k] (cubic3 ex_po_q3 (centre (ex_po_o 0) (dx 0) i) (centre (ex_po_o 1) (dx 1) j) (centre (ex_po_o 2) (dx 2) k))) [-1; 0; 1; 2]) [-1; 0; 1; 2]) [-1; 0; 1; 2] && forallb (fun i => forallb (fun j => forallb (fun k => ex_po_is m (mkFa (0%nat, 0) (FACE3d0 0 0 0 1 1 1 0)) [i; j; k] (ex_po_k)%T) [0; 1]) [0; 1]) [0; 1; 2] && forallb (fun i => forallb (fun j => forallb (fun k => ex_po_is m (mkFa (1%nat, 0) (FACE3d1 0 0 0 1 1 1 0)) [j; k; i] (ex_po_k)%T) [0; 1]) [0; 1; 2]) [0; 1] && forallb (fun i => forallb (fun j => forallb (fun k => ex_po_is m (mkFa (2%nat, 0) (FACE3d2 0 0 0 1 1 1 0)) [k; i; j] (ex_po_k)%T) [0; 1; 2]) [0; 1]) [0; 1],
      ex_en_num (ex_en_val mo (mkFa (8%nat, 0) (CELL3d 0 0 0 1 1 1 0)) [1; 1; 1]),
      ex_en_num (- (lit 3) * (ex_po_k * (cubic3_xx ex_po_q3 x y z + cubic3_yy ex_po_q3 x y z + cubic3_zz ex_po_q3 x y z)) + (lit 5) * (ex_en_val m (mkFa (3%nat, 0) (CELL3d 0 0 0 1 1 1 1)) [1; 1; 1] * cubic3 ex_po_q3 x y z))%T)
   | None => (false, false, (0, 0), (0, 0)) end) = (true, true, (91892968, 1), (91892968, 1)).
Proof. split; [intro C; apply (f_equal this) in C; vm_compute in C; discriminate C|]. split; [intro C; apply (f_equal this) in C; vm_compute in C; discriminate C|]. split; [intro C; apply (f_equal this) in C; vm_compute in C; discriminate C|]. split; [repeat constructor; discriminate|]. split; [repeat constructor; discriminate|]. split; [repeat constructor; discriminate|]. split; [repeat constructor; discriminate|]. vm_compute. reflexivity. Qed.

Theorem C60_const_v2_3d : forall (S : Scalar), field_laws S ->
  forall i0 j0 k0 i1 j1 k1 dx beta b0 b1 b2 gcw u f0 f1 f2 alpha rgcw res o q kappa (m mo : mem S) r,
  i0 <= i1 + 1 -> j0 <= j1 + 1 -> k0 <= k1 + 1 -> dx 0 <> lit 0 -> dx 1 <> lit 0 -> dx 2 <> lit 0 -> 0 <= gcw -> 0 <= rgcw ->
  apart f0 [f1; f2; b0; b1; b2; u] -> apart f1 [f2; b0; b1; b2; u] -> apart f2 [b0; b1; b2; u] -> apart res [f0; f1; f2; u] ->
  (m' <- cdf_3d_flux i0 j0 k0 i1 j1 k1 dx b0 b1 b2 gcw u f0 f1 f2 m ;;
   cd_apply_3d_diffusion_v2_apply i0 i1 j0 j1 k0 k1 alpha beta dx gcw u f0 f1 f2 rgcw res m') = Some mo ->
  (forall i j k, i0 <= i <= i1 -> j0 <= j <= j1 -> k0 <= k <= k1 -> ((mkFa res (CELL3d i0 j0 k0 i1 j1 k1 rgcw))!(i, j, k))%F mo = Some (r i j k)) ->
  (forall i j k, i0 - 1 <= i <= i1 + 1 -> j0 - 1 <= j <= j1 + 1 -> k0 - 1 <= k <= k1 + 1 -> ((mkFa u (CELL3d i0 j0 k0 i1 j1 k1 gcw))!(i, j, k))%F m = Some (cubic3 q (centre (o 0) (dx 0) i) (centre (o 1) (dx 1) j) (centre (o 2) (dx 2) k))) ->
  (forall i j k, i0 <= i <= i1 + 1 -> j0 <= j <= j1 -> k0 <= k <= k1 -> ((mkFa b0 (FACE3d0 i0 j0 k0 i1 j1 k1 0))!(i, j, k))%F m = Some (kappa)%T) ->
  (forall i j k, i0 <= i <= i1 -> j0 <= j <= j1 + 1 -> k0 <= k <= k1 -> ((mkFa b1 (FACE3d1 i0 j0 k0 i1 j1 k1 0))!(j, k, i))%F m = Some (kappa)%T) ->
  (forall i j k, i0 <= i <= i1 -> j0 <= j <= j1 -> k0 <= k <= k1 + 1 -> ((mkFa b2 (FACE3d2 i0 j0 k0 i1 j1 k1 0))!(k, i, j))%F m = Some (kappa)%T) ->
  forall i j k, i0 <= i <= i1 -> j0 <= j <= j1 -> k0 <= k <= k1 ->
  let x := centre (o 0) (dx 0) i in
  let y := centre (o 1) (dx 1) j in
  let z := centre (o 2) (dx 2) k in
  r i j k = (- beta * (kappa * (cubic3_xx q x y z + cubic3_yy q x y z + cubic3_zz q x y z)) + alpha * cubic3 q x y z)%T.
Proof. exact @exact_const_v2_3d. Qed.
Print Assumptions C60_const_v2_3d.

Example C60_const_v2_3d_example :
  ex_po_h 0 <> lit 0 /\ ex_po_h 1 <> lit 0 /\ ex_po_h 2 <> lit 0 /\ apart (5%nat, 0) [(6%nat, 0); (7%nat, 0); (0%nat, 0); (1%nat, 0); (2%nat, 0); (4%nat, 0)] /\
  apart (6%nat, 0) [(7%nat, 0); (0%nat, 0); (1%nat, 0); (2%nat, 0); (4%nat, 0)] /\
  apart (7%nat, 0) [(0%nat, 0); (1%nat, 0); (2%nat, 0); (4%nat, 0)] /\
  apart (8%nat, 0) [(5%nat, 0); (6%nat, 0); (7%nat, 0); (4%nat, 0)] /\
  (let dx := ex_po_h in 
   let m := mkMem [(ex_po_row [7; 7; 7; 7; 7; 7; 7; 7; 7; 7; 7; 7]); (ex_po_row [7; 7; 7; 7; 7; 7; 7; 7; 7; 7; 7; 7]); (ex_po_row [7; 7; 7; 7; 7; 7; 7; 7; 7; 7; 7; 7]); nth 3 (cells (ex_st_cells 70)) []; (ex_po_row [-451400; -1479920; -5319800; -13479680; -12200; -17840; 77800; 499840; 36600; 248720; 1718600; 6113280; 631960; 2938576; 16114600; 52672384; -38480; -162536; -817280; -2567864; -1040; -2504; -3200; 4264; 3120; 24152; 176000; 636168; 53872; 301432; 1883008; 6476392; 1480; -12704; -158120; -640496; 40; -416; -5000; -20144; -120; 608; 8600; 35472; -2072; 14944; 192952; 785872; 148000; 128200; -1826000; -9504200; 4000; -3800; -122000; -540200; -12000; -52600; -274000; -875400; -207200; -463640; -285200; 2223640]); nth 5 (cells (ex_st_cells 70)) []; nth 5 (cells (ex_st_cells 70)) []; nth 5 (cells (ex_st_cells 70)) []; nth 5 (cells (ex_st_cells 70)) []] [] in
   match (m' <- cdf_3d_flux 0 0 0 1 1 1 dx (0%nat, 0) (1%nat, 0) (2%nat, 0) 1 (4%nat, 0) (5%nat, 0) (6%nat, 0) (7%nat, 0) m ;; cd_apply_3d_diffusion_v2_apply 0 1 0 1 0 1 (lit 5) (lit 3) dx 1 (4%nat, 0) (5%nat, 0) (6%nat, 0) (7%nat, 0) 0 (8%nat, 0) m') with
   | Some mo => let x := centre (ex_po_o 0) (dx 0) 1 in let y := centre (ex_po_o 1) (dx 1) 1 in let z := centre (ex_po_o 2) (dx 2) 1 in
     (ex_en_ok mo (mkFa (8%nat, 0) (CELL3d 0 0 0 1 1 1 0)) [[0; 0; 0]; [0; 0; 1]; [0; 1; 0]; [0; 1; 1]; [1; 0; 0]; [1; 0; 1]; [1; 1; 0]; [1; 1; 1]],
      forallb (fun i => forallb (fun j => forallb (fun k => ex_po_is m (mkFa (4%nat, 0) (CELL3d 0 0 0 1 1 1 1)) [i; j; k] (cubic3 ex_po_q3 (centre (ex_po_o 0) (dx 0) i) (centre (ex_po_o 1) (dx 1) j) (centre (ex_po_o 2) (dx 2) k))) [-1; 0; 1; 2]) [-1; 0; 1; 2]) [-1; 0; 1; 2] && forallb (fun i => forallb (fun j => forallb (fun k => ex_po_is m (mkFa (0%nat, 0) (FACE3d0 0 0 0 1 1 1 0)) [i; j; k] (ex_po_k)%T) [0; 1]) [0; 1]) [0; 1; 2] && forallb (fun i => forallb (fun j => forallb (fun k => ex_po_is m (mkFa (1%nat, 0) (FACE3d1 0 0 0 1 1 1 0)) [j; k; i] (ex_po_k)%T) [0; 1]) [0; 1; 2]) [0; 1] && forallb (fun i => forallb (fun j => forallb (fun k => ex_po_is m (mkFa (2%nat, 0) (FACE3d2 0 0 0 1 1 1 0)) [k; i; j] (ex_po_k)%T) [0; 1; 2]) [0; 1]) [0; 1],
      ex_en_num (ex_en_val mo (mkFa (8%nat, 0) (CELL3d 0 0 0 1 1 1 0)) [1; 1; 1]),
      ex_en_num (- (lit 3) * (ex_po_k * (cubic3_xx ex_po_q3 x y z + cubic3_yy ex_po_q3 x y z + cubic3_zz ex_po_q3 x y z)) + (lit 5) * cubic3 ex_po_q3 x y z)%T)
   | None => (false, false, (0, 0), (0, 0)) end) = (true, true, (-213032, 1), (-213032, 1)).
Proof. split; [intro C; apply (f_equal this) in C; vm_compute in C; discriminate C|]. split; [intro C; apply (f_equal this) in C; vm_compute in C; discriminate C|]. split; [intro C; apply (f_equal this) in C; vm_compute in C; discriminate C|]. split; [repeat constructor; discriminate|]. split; [repeat constructor; discriminate|]. split; [repeat constructor; discriminate|]. split; [repeat constructor; discriminate|]. vm_compute. reflexivity. Qed.

Theorem C60_const_poisson_3d : forall (S : Scalar), field_laws S ->
  forall i0 j0 k0 i1 j1 k1 dx beta gcw u f0 f1 f2 rgcw res o q (m mo : mem S) r,
  i0 <= i1 + 1 -> j0 <= j1 + 1 -> k0 <= k1 + 1 -> dx 0 <> lit 0 -> dx 1 <> lit 0 -> dx 2 <> lit 0 -> 0 <= gcw -> 0 <= rgcw ->
  apart f0 [f1; f2; u] -> apart f1 [f2; u] -> apart f2 [u] -> apart res [f0; f1; f2; u] ->
  (m' <- cdf_3d_poisson_flux i0 j0 k0 i1 j1 k1 dx gcw u f0 f1 f2 m ;;
   cd_apply_3d_poisson_v2_apply i0 i1 j0 j1 k0 k1 beta dx f0 f1 f2 rgcw res m') = Some mo ->
  (forall i j k, i0 <= i <= i1 -> j0 <= j <= j1 -> k0 <= k <= k1 -> ((mkFa res (CELL3d i0 j0 k0 i1 j1 k1 rgcw))!(i, j, k))%F mo = Some (r i j k)) ->
  (forall i j k, i0 - 1 <= i <= i1 + 1 -> j0 - 1 <= j <= j1 + 1 -> k0 - 1 <= k <= k1 + 1 -> ((mkFa u (CELL3d i0 j0 k0 i1 j1 k1 gcw))!(i, j, k))%F m = Some (cubic3 q (centre (o 0) (dx 0) i) (centre (o 1) (dx 1) j) (centre (o 2) (dx 2) k))) ->
  forall i j k, i0 <= i <= i1 -> j0 <= j <= j1 -> k0 <= k <= k1 ->
  let x := centre (o 0) (dx 0) i in
  let y := centre (o 1) (dx 1) j in
  let z := centre (o 2) (dx 2) k in
  r i j k = (- beta * ((cubic3_xx q x y z + cubic3_yy q x y z + cubic3_zz q x y z)))%T.
Proof. exact @exact_const_poisson_3d. Qed.
Print Assumptions C60_const_poisson_3d.

Example C60_const_poisson_3d_example :
  ex_po_h 0 <> lit 0 /\ ex_po_h 1 <> lit 0 /\ ex_po_h 2 <> lit 0 /\ apart (5%nat, 0) [(6%nat, 0); (7%nat, 0); (4%nat, 0)] /\
  apart (6%nat, 0) [(7%nat, 0); (4%nat, 0)] /\
  apart (7%nat, 0) [(4%nat, 0)] /\
  apart (8%nat, 0) [(5%nat, 0); (6%nat, 0); (7%nat, 0); (4%nat, 0)] /\
  (let dx := ex_po_h in 
   let m := mkMem [[]; []; []; nth 3 (cells (ex_st_cells 70)) []; (ex_po_row [-451400; -1479920; -5319800; -13479680; -12200; -17840; 77800; 499840; 36600; 248720; 1718600; 6113280; 631960; 2938576; 16114600; 52672384; -38480; -162536; -817280; -2567864; -1040; -2504; -3200; 4264; 3120; 24152; 176000; 636168; 53872; 301432; 1883008; 6476392; 1480; -12704; -158120; -640496; 40; -416; -5000; -20144; -120; 608; 8600; 35472; -2072; 14944; 192952; 785872; 148000; 128200; -1826000; -9504200; 4000; -3800; -122000; -540200; -12000; -52600; -274000; -875400; -207200; -463640; -285200; 2223640]); nth 5 (cells (ex_st_cells 70)) []; nth 5 (cells (ex_st_cells 70)) []; nth 5 (cells (ex_st_cells 70)) []; nth 5 (cells (ex_st_cells 70)) []] [] in
   match (m' <- cdf_3d_poisson_flux 0 0 0 1 1 1 dx 1 (4%nat, 0) (5%nat, 0) (6%nat, 0) (7%nat, 0) m ;; cd_apply_3d_poisson_v2_apply 0 1 0 1 0 1 (lit 3) dx (5%nat, 0) (6%nat, 0) (7%nat, 0) 0 (8%nat, 0) m') with
   | Some mo => let x := centre (ex_po_o 0) (dx 0) 1 in let y := centre (ex_po_o 1) (dx 1) 1 in let z := centre (ex_po_o 2) (dx 2) 1 in
     (ex_en_ok mo (mkFa (8%nat, 0) (CELL3d 0 0 0 1 1 1 0)) [[0; 0; 0]; [0; 0; 1]; [0; 1; 0]; [0; 1; 1]; [1; 0; 0]; [1; 0; 1]; [1; 1; 0]; [1; 1; 1]],
      forallb (fun i => forallb (fun j => forallb (fun k => ex_po_is m (mkFa (4%nat, 0) (CELL3d 0 0 0 1 1 1 1)) [i; j; k] (cubic3 ex_po_q3 (centre (ex_po_o 0) (dx 0) i) (centre (ex_po_o 1) (dx 1) j) (centre (ex_po_o 2) (dx 2) k))) [-1; 0; 1; 2]) [-1; 0; 1; 2]) [-1; 0; 1; 2],
      ex_en_num (ex_en_val mo (mkFa (8%nat, 0) (CELL3d 0 0 0 1 1 1 0)) [1; 1; 1]),
      ex_en_num (- (lit 3) * ((cubic3_xx ex_po_q3 x y z + cubic3_yy ex_po_q3 x y z + cubic3_zz ex_po_q3 x y z)))%T)
   | None => (false, false, (0, 0), (0, 0)) end) = (true, true, (-36576, 1), (-36576, 1)).
Proof. split; [intro C; apply (f_equal this) in C; vm_compute in C; discriminate C|]. split; [intro C; apply (f_equal this) in C; vm_compute in C; discriminate C|]. split; [intro C; apply (f_equal this) in C; vm_compute in C; discriminate C|]. split; [repeat constructor; discriminate|]. split; [repeat constructor; discriminate|]. split; [repeat constructor; discriminate|]. split; [repeat constructor; discriminate|]. vm_compute. reflexivity. Qed.

(** ** Varying coefficient

    The solution has degree two in each variable, and the coefficient at the faces of
    direction [d] is linear along [d], with any dependence on the other coordinates. *)

Theorem C60_var_v1_1d : forall (S : Scalar), field_laws S ->
  forall i0 i1 dx beta b0 gcw u f0 alpha agcw a rgcw res o q e0 l0 (m mo : mem S) r c,
  i0 <= i1 + 1 -> dx 0 <> lit 0 -> 0 <= gcw -> 0 <= rgcw ->
  apart f0 [b0; a; u] -> apart res [f0; a; u] ->
  (m' <- cdf_1d_flux i0 i1 dx b0 gcw u f0 m ;;
   cd_apply_1d_diffusion_v1_apply i0 i1 alpha beta dx agcw a gcw u f0 rgcw res m') = Some mo ->
  (forall i, i0 <= i <= i1 -> ((mkFa res (CELL1d i0 i1 rgcw))!(i))%F mo = Some (r i)) ->
  (forall i, i0 - 1 <= i <= i1 + 1 -> ((mkFa u (CELL1d i0 i1 gcw))!(i))%F m = Some (quad q (centre (o 0) (dx 0) i))) ->
  (forall i, i0 <= i <= i1 -> ((mkFa a (CELL1d i0 i1 agcw))!(i))%F m = Some (c i)) ->
  (forall i, i0 <= i <= i1 + 1 -> ((mkFa b0 (FACE1d i0 i1 0))!(i))%F m = Some (e0 + l0 * faceat (o 0) (dx 0) i)%T) ->
  forall i, i0 <= i <= i1 ->
  let x := centre (o 0) (dx 0) i in
  r i = (- beta * ((l0 * quad_d q x + (e0 + l0 * x) * quad_dd q x)) + alpha * (c i * quad q x))%T.
Proof. exact @exact_var_v1_1d. Qed.
Print Assumptions C60_var_v1_1d.

Example C60_var_v1_1d_example :
  ex_po_h 0 <> lit 0 /\ apart (5%nat, 0) [(0%nat, 0); (3%nat, 0); (4%nat, 0)] /\
  apart (8%nat, 0) [(5%nat, 0); (3%nat, 0); (4%nat, 0)] /\
  (let dx := ex_po_h in 
   let m := mkMem [(ex_po_row [2; 8; 14]); []; []; nth 3 (cells (ex_st_cells 20)) []; (ex_po_row [5; 11; 65; 167]); nth 5 (cells (ex_st_cells 20)) []; nth 5 (cells (ex_st_cells 20)) []; nth 5 (cells (ex_st_cells 20)) []; nth 5 (cells (ex_st_cells 20)) []] [] in
   match (m' <- cdf_1d_flux 0 1 dx (0%nat, 0) 1 (4%nat, 0) (5%nat, 0) m ;; cd_apply_1d_diffusion_v1_apply 0 1 (lit 5) (lit 3) dx 1 (3%nat, 0) 1 (4%nat, 0) (5%nat, 0) 0 (8%nat, 0) m') with
   | Some mo => let x := centre (ex_po_o 0) (dx 0) 1 in
     (ex_en_ok mo (mkFa (8%nat, 0) (CELL1d 0 1 0)) [[0]; [1]] && ex_en_ok m (mkFa (3%nat, 0) (CELL1d 0 1 1)) [[0]; [1]],
      forallb (fun i => ex_po_is m (mkFa (4%nat, 0) (CELL1d 0 1 1)) [i] (quad ex_po_q1 (centre (ex_po_o 0) (dx 0) i))) [-1; 0; 1; 2] && forallb (fun i => ex_po_is m (mkFa (0%nat, 0) (FACE1d 0 1 0)) [i] (ex_po_e10 + ex_po_l10 * faceat (ex_po_o 0) (dx 0) i)%T) [0; 1; 2],
      ex_en_num (ex_en_val mo (mkFa (8%nat, 0) (CELL1d 0 1 0)) [1]),
      ex_en_num (- (lit 3) * ((ex_po_l10 * quad_d ex_po_q1 x + (ex_po_e10 + ex_po_l10 * x) * quad_dd ex_po_q1 x)) + (lit 5) * (ex_en_val m (mkFa (3%nat, 0) (CELL1d 0 1 1)) [1] * quad ex_po_q1 x))%T)
   | None => (false, false, (0, 0), (0, 0)) end) = (true, true, (6728, 1), (6728, 1)).
Proof. split; [intro C; apply (f_equal this) in C; vm_compute in C; discriminate C|]. split; [repeat constructor; discriminate|]. split; [repeat constructor; discriminate|]. vm_compute. reflexivity. Qed.

Theorem C60_var_v2_1d : forall (S : Scalar), field_laws S ->
  forall i0 i1 dx beta b0 gcw u f0 alpha rgcw res o q e0 l0 (m mo : mem S) r,
  i0 <= i1 + 1 -> dx 0 <> lit 0 -> 0 <= gcw -> 0 <= rgcw ->
  apart f0 [b0; u] -> apart res [f0; u] ->
  (m' <- cdf_1d_flux i0 i1 dx b0 gcw u f0 m ;;
   cd_apply_1d_diffusion_v2_apply i0 i1 alpha beta dx gcw u f0 rgcw res m') = Some mo ->
  (forall i, i0 <= i <= i1 -> ((mkFa res (CELL1d i0 i1 rgcw))!(i))%F mo = Some (r i)) ->
  (forall i, i0 - 1 <= i <= i1 + 1 -> ((mkFa u (CELL1d i0 i1 gcw))!(i))%F m = Some (quad q (centre (o 0) (dx 0) i))) ->
  (forall i, i0 <= i <= i1 + 1 -> ((mkFa b0 (FACE1d i0 i1 0))!(i))%F m = Some (e0 + l0 * faceat (o 0) (dx 0) i)%T) ->
  forall i, i0 <= i <= i1 ->
  let x := centre (o 0) (dx 0) i in
  r i = (- beta * ((l0 * quad_d q x + (e0 + l0 * x) * quad_dd q x)) + alpha * quad q x)%T.
Proof. exact @exact_var_v2_1d. Qed.
Print Assumptions C60_var_v2_1d.

Example C60_var_v2_1d_example :
  ex_po_h 0 <> lit 0 /\ apart (5%nat, 0) [(0%nat, 0); (4%nat, 0)] /\
  apart (8%nat, 0) [(5%nat, 0); (4%nat, 0)] /\
  (let dx := ex_po_h in 
   let m := mkMem [(ex_po_row [2; 8; 14]); []; []; nth 3 (cells (ex_st_cells 20)) []; (ex_po_row [5; 11; 65; 167]); nth 5 (cells (ex_st_cells 20)) []; nth 5 (cells (ex_st_cells 20)) []; nth 5 (cells (ex_st_cells 20)) []; nth 5 (cells (ex_st_cells 20)) []] [] in
   match (m' <- cdf_1d_flux 0 1 dx (0%nat, 0) 1 (4%nat, 0) (5%nat, 0) m ;; cd_apply_1d_diffusion_v2_apply 0 1 (lit 5) (lit 3) dx 1 (4%nat, 0) (5%nat, 0) 0 (8%nat, 0) m') with
   | Some mo => let x := centre (ex_po_o 0) (dx 0) 1 in
     (ex_en_ok mo (mkFa (8%nat, 0) (CELL1d 0 1 0)) [[0]; [1]],
      forallb (fun i => ex_po_is m (mkFa (4%nat, 0) (CELL1d 0 1 1)) [i] (quad ex_po_q1 (centre (ex_po_o 0) (dx 0) i))) [-1; 0; 1; 2] && forallb (fun i => ex_po_is m (mkFa (0%nat, 0) (FACE1d 0 1 0)) [i] (ex_po_e10 + ex_po_l10 * faceat (ex_po_o 0) (dx 0) i)%T) [0; 1; 2],
      ex_en_num (ex_en_val mo (mkFa (8%nat, 0) (CELL1d 0 1 0)) [1]),
      ex_en_num (- (lit 3) * ((ex_po_l10 * quad_d ex_po_q1 x + (ex_po_e10 + ex_po_l10 * x) * quad_dd ex_po_q1 x)) + (lit 5) * quad ex_po_q1 x)%T)
   | None => (false, false, (0, 0), (0, 0)) end) = (true, true, (-422, 1), (-422, 1)).
Proof. split; [intro C; apply (f_equal this) in C; vm_compute in C; discriminate C|]. split; [repeat constructor; discriminate|]. split; [repeat constructor; discriminate|]. vm_compute. reflexivity. Qed.

Theorem C60_var_v1_2d : forall (S : Scalar), field_laws S ->
  forall i0 j0 i1 j1 dx beta b0 b1 gcw u f0 f1 alpha agcw a rgcw res o q e0 l0 e1 l1 (m mo : mem S) r c,
  i0 <= i1 + 1 -> j0 <= j1 + 1 -> dx 0 <> lit 0 -> dx 1 <> lit 0 -> 0 <= gcw -> 0 <= rgcw ->
  apart f0 [f1; b0; b1; a; u] -> apart f1 [b0; b1; a; u] -> apart res [f0; f1; a; u] ->
  (m' <- cdf_2d_flux i0 j0 i1 j1 dx b0 b1 gcw u f0 f1 m ;;
   cd_apply_2d_diffusion_v1_apply i0 i1 j0 j1 alpha beta dx agcw a gcw u f0 f1 rgcw res m') = Some mo ->
  (forall i j, i0 <= i <= i1 -> j0 <= j <= j1 -> ((mkFa res (CELL2d i0 j0 i1 j1 rgcw))!(i, j))%F mo = Some (r i j)) ->
  (forall i j, i0 - 1 <= i <= i1 + 1 -> j0 - 1 <= j <= j1 + 1 -> ((mkFa u (CELL2d i0 j0 i1 j1 gcw))!(i, j))%F m = Some (quad2 q (centre (o 0) (dx 0) i) (centre (o 1) (dx 1) j))) ->
  (forall i j, i0 <= i <= i1 -> j0 <= j <= j1 -> ((mkFa a (CELL2d i0 j0 i1 j1 agcw))!(i, j))%F m = Some (c i j)) ->
  (forall i j, i0 <= i <= i1 + 1 -> j0 <= j <= j1 -> ((mkFa b0 (FACE2d0 i0 j0 i1 j1 0))!(i, j))%F m = Some (e0 (centre (o 1) (dx 1) j) + l0 (centre (o 1) (dx 1) j) * faceat (o 0) (dx 0) i)%T) ->
  (forall i j, i0 <= i <= i1 -> j0 <= j <= j1 + 1 -> ((mkFa b1 (FACE2d1 i0 j0 i1 j1 0))!(j, i))%F m = Some (e1 (centre (o 0) (dx 0) i) + l1 (centre (o 0) (dx 0) i) * faceat (o 1) (dx 1) j)%T) ->
  forall i j, i0 <= i <= i1 -> j0 <= j <= j1 ->
  let x := centre (o 0) (dx 0) i in
  let y := centre (o 1) (dx 1) j in
  r i j = (- beta * ((l0 y * quad2_x q x y + (e0 y + l0 y * x) * quad2_xx q x y) + (l1 x * quad2_y q x y + (e1 x + l1 x * y) * quad2_yy q x y)) + alpha * (c i j * quad2 q x y))%T.
Proof. exact @exact_var_v1_2d. Qed.
Print Assumptions C60_var_v1_2d.

Example C60_var_v1_2d_example :
  ex_po_h 0 <> lit 0 /\ ex_po_h 1 <> lit 0 /\ apart (5%nat, 0) [(6%nat, 0); (0%nat, 0); (1%nat, 0); (3%nat, 0); (4%nat, 0)] /\
  apart (6%nat, 0) [(0%nat, 0); (1%nat, 0); (3%nat, 0); (4%nat, 0)] /\
  apart (8%nat, 0) [(5%nat, 0); (6%nat, 0); (3%nat, 0); (4%nat, 0)] /\
  (let dx := ex_po_h in 
   let m := mkMem [(ex_po_row [0; -6; -12; 4; 6; 8]); (ex_po_row [0; 4; 8; -14; 6; 26]); []; nth 3 (cells (ex_st_cells 40)) []; (ex_po_row [35; 105; 951; 2573; 3; 9; 87; 237; 3; 9; 151; 429; 35; 105; 1143; 3149]); nth 5 (cells (ex_st_cells 40)) []; nth 5 (cells (ex_st_cells 40)) []; nth 5 (cells (ex_st_cells 40)) []; nth 5 (cells (ex_st_cells 40)) []] [] in
   match (m' <- cdf_2d_flux 0 0 1 1 dx (0%nat, 0) (1%nat, 0) 1 (4%nat, 0) (5%nat, 0) (6%nat, 0) m ;; cd_apply_2d_diffusion_v1_apply 0 1 0 1 (lit 5) (lit 3) dx 1 (3%nat, 0) 1 (4%nat, 0) (5%nat, 0) (6%nat, 0) 0 (8%nat, 0) m') with
   | Some mo => let x := centre (ex_po_o 0) (dx 0) 1 in let y := centre (ex_po_o 1) (dx 1) 1 in
     (ex_en_ok mo (mkFa (8%nat, 0) (CELL2d 0 0 1 1 0)) [[0; 0]; [0; 1]; [1; 0]; [1; 1]] && ex_en_ok m (mkFa (3%nat, 0) (CELL2d 0 0 1 1 1)) [[0; 0]; [0; 1]; [1; 0]; [1; 1]],
      forallb (fun i => forallb (fun j => ex_po_is m (mkFa (4%nat, 0) (CELL2d 0 0 1 1 1)) [i; j] (quad2 ex_po_q2 (centre (ex_po_o 0) (dx 0) i) (centre (ex_po_o 1) (dx 1) j))) [-1; 0; 1; 2]) [-1; 0; 1; 2] && forallb (fun i => forallb (fun j => ex_po_is m (mkFa (0%nat, 0) (FACE2d0 0 0 1 1 0)) [i; j] (ex_po_e20 (centre (ex_po_o 1) (dx 1) j) + ex_po_l20 (centre (ex_po_o 1) (dx 1) j) * faceat (ex_po_o 0) (dx 0) i)%T) [0; 1]) [0; 1; 2] && forallb (fun i => forallb (fun j => ex_po_is m (mkFa (1%nat, 0) (FACE2d1 0 0 1 1 0)) [j; i] (ex_po_e21 (centre (ex_po_o 0) (dx 0) i) + ex_po_l21 (centre (ex_po_o 0) (dx 0) i) * faceat (ex_po_o 1) (dx 1) j)%T) [0; 1; 2]) [0; 1],
      ex_en_num (ex_en_val mo (mkFa (8%nat, 0) (CELL2d 0 0 1 1 0)) [1; 1]),
      ex_en_num (- (lit 3) * ((ex_po_l20 y * quad2_x ex_po_q2 x y + (ex_po_e20 y + ex_po_l20 y * x) * quad2_xx ex_po_q2 x y) + (ex_po_l21 x * quad2_y ex_po_q2 x y + (ex_po_e21 x + ex_po_l21 x * y) * quad2_yy ex_po_q2 x y)) + (lit 5) * (ex_en_val m (mkFa (3%nat, 0) (CELL2d 0 0 1 1 1)) [1; 1] * quad2 ex_po_q2 x y))%T)
   | None => (false, false, (0, 0), (0, 0)) end) = (true, true, (138412, 1), (138412, 1)).
Proof. split; [intro C; apply (f_equal this) in C; vm_compute in C; discriminate C|]. split; [intro C; apply (f_equal this) in C; vm_compute in C; discriminate C|]. split; [repeat constructor; discriminate|]. split; [repeat constructor; discriminate|]. split; [repeat constructor; discriminate|]. vm_compute. reflexivity. Qed.

Theorem C60_var_v2_2d : forall (S : Scalar), field_laws S ->
  forall i0 j0 i1 j1 dx beta b0 b1 gcw u f0 f1 alpha rgcw res o q e0 l0 e1 l1 (m mo : mem S) r,
  i0 <= i1 + 1 -> j0 <= j1 + 1 -> dx 0 <> lit 0 -> dx 1 <> lit 0 -> 0 <= gcw -> 0 <= rgcw ->
  apart f0 [f1; b0; b1; u] -> apart f1 [b0; b1; u] -> apart res [f0; f1; u] ->
  (m' <- cdf_2d_flux i0 j0 i1 j1 dx b0 b1 gcw u f0 f1 m ;;
   cd_apply_2d_diffusion_v2_apply i0 i1 j0 j1 alpha beta dx gcw u f0 f1 rgcw res m') = Some mo ->
  (forall i j, i0 <= i <= i1 -> j0 <= j <= j1 -> ((mkFa res (CELL2d i0 j0 i1 j1 rgcw))!(i, j))%F mo = Some (r i j)) ->
  (forall i j, i0 - 1 <= i <= i1 + 1 -> j0 - 1 <= j <= j1 + 1 -> ((mkFa u (CELL2d i0 j0 i1 j1 gcw))!(i, j))%F m = Some (quad2 q (centre (o 0) (dx 0) i) (centre (o 1) (dx 1) j))) ->
  (forall i j, i0 <= i <= i1 + 1 -> j0 <= j <= j1 -> ((mkFa b0 (FACE2d0 i0 j0 i1 j1 0))!(i, j))%F m = Some (e0 (centre (o 1) (dx 1) j) + l0 (centre (o 1) (dx 1) j) * faceat (o 0) (dx 0) i)%T) ->
  (forall i j, i0 <= i <= i1 -> j0 <= j <= j1 + 1 -> ((mkFa b1 (FACE2d1 i0 j0 i1 j1 0))!(j, i))%F m = Some (e1 (centre (o 0) (dx 0) i) + l1 (centre (o 0) (dx 0) i) * faceat (o 1) (dx 1) j)%T) ->
  forall i j, i0 <= i <= i1 -> j0 <= j <= j1 ->
  let x := centre (o 0) (dx 0) i in
  let y := centre (o 1) (dx 1) j in
  r i j = (- beta * ((l0 y * quad2_x q x y + (e0 y + l0 y * x) * quad2_xx q x y) + (l1 x * quad2_y q x y + (e1 x + l1 x * y) * quad2_yy q x y)) + alpha * quad2 q x y)%T.
Proof. exact @exact_var_v2_2d. Qed.
Print Assumptions C60_var_v2_2d.

Example C60_var_v2_2d_example :
  ex_po_h 0 <> lit 0 /\ ex_po_h 1 <> lit 0 /\ apart (5%nat, 0) [(6%nat, 0); (0%nat, 0); (1%nat, 0); (4%nat, 0)] /\
  apart (6%nat, 0) [(0%nat, 0); (1%nat, 0); (4%nat, 0)] /\
  apart (8%nat, 0) [(5%nat, 0); (6%nat, 0); (4%nat, 0)] /\
  (let dx := ex_po_h in 
   let m := mkMem [(ex_po_row [0; -6; -12; 4; 6; 8]); (ex_po_row [0; 4; 8; -14; 6; 26]); []; nth 3 (cells (ex_st_cells 40)) []; (ex_po_row [35; 105; 951; 2573; 3; 9; 87; 237; 3; 9; 151; 429; 35; 105; 1143; 3149]); nth 5 (cells (ex_st_cells 40)) []; nth 5 (cells (ex_st_cells 40)) []; nth 5 (cells (ex_st_cells 40)) []; nth 5 (cells (ex_st_cells 40)) []] [] in
   match (m' <- cdf_2d_flux 0 0 1 1 dx (0%nat, 0) (1%nat, 0) 1 (4%nat, 0) (5%nat, 0) (6%nat, 0) m ;; cd_apply_2d_diffusion_v2_apply 0 1 0 1 (lit 5) (lit 3) dx 1 (4%nat, 0) (5%nat, 0) (6%nat, 0) 0 (8%nat, 0) m') with
   | Some mo => let x := centre (ex_po_o 0) (dx 0) 1 in let y := centre (ex_po_o 1) (dx 1) 1 in
     (ex_en_ok mo (mkFa (8%nat, 0) (CELL2d 0 0 1 1 0)) [[0; 0]; [0; 1]; [1; 0]; [1; 1]],
      forallb (fun i => forallb (fun j => ex_po_is m (mkFa (4%nat, 0) (CELL2d 0 0 1 1 1)) [i; j] (quad2 ex_po_q2 (centre (ex_po_o 0) (dx 0) i) (centre (ex_po_o 1) (dx 1) j))) [-1; 0; 1; 2]) [-1; 0; 1; 2] && forallb (fun i => forallb (fun j => ex_po_is m (mkFa (0%nat, 0) (FACE2d0 0 0 1 1 0)) [i; j] (ex_po_e20 (centre (ex_po_o 1) (dx 1) j) + ex_po_l20 (centre (ex_po_o 1) (dx 1) j) * faceat (ex_po_o 0) (dx 0) i)%T) [0; 1]) [0; 1; 2] && forallb (fun i => forallb (fun j => ex_po_is m (mkFa (1%nat, 0) (FACE2d1 0 0 1 1 0)) [j; i] (ex_po_e21 (centre (ex_po_o 0) (dx 0) i) + ex_po_l21 (centre (ex_po_o 0) (dx 0) i) * faceat (ex_po_o 1) (dx 1) j)%T) [0; 1; 2]) [0; 1],
      ex_en_num (ex_en_val mo (mkFa (8%nat, 0) (CELL2d 0 0 1 1 0)) [1; 1]),
      ex_en_num (- (lit 3) * ((ex_po_l20 y * quad2_x ex_po_q2 x y + (ex_po_e20 y + ex_po_l20 y * x) * quad2_xx ex_po_q2 x y) + (ex_po_l21 x * quad2_y ex_po_q2 x y + (ex_po_e21 x + ex_po_l21 x * y) * quad2_yy ex_po_q2 x y)) + (lit 5) * quad2 ex_po_q2 x y)%T)
   | None => (false, false, (0, 0), (0, 0)) end) = (true, true, (-5038, 1), (-5038, 1)).
Proof. split; [intro C; apply (f_equal this) in C; vm_compute in C; discriminate C|]. split; [intro C; apply (f_equal this) in C; vm_compute in C; discriminate C|]. split; [repeat constructor; discriminate|]. split; [repeat constructor; discriminate|]. split; [repeat constructor; discriminate|]. vm_compute. reflexivity. Qed.

Theorem C60_var_v1_3d : forall (S : Scalar), field_laws S ->
  forall i0 j0 k0 i1 j1 k1 dx beta b0 b1 b2 gcw u f0 f1 f2 alpha agcw a rgcw res o q e0 l0 e1 l1 e2 l2 (m mo : mem S) r c,
  i0 <= i1 + 1 -> j0 <= j1 + 1 -> k0 <= k1 + 1 -> dx 0 <> lit 0 -> dx 1 <> lit 0 -> dx 2 <> lit 0 -> 0 <= gcw -> 0 <= rgcw ->
  apart f0 [f1; f2; b0; b1; b2; a; u] -> apart f1 [f2; b0; b1; b2; a; u] -> apart f2 [b0; b1; b2; a; u] -> apart res [f0; f1; f2; a; u] ->
  (m' <- cdf_3d_flux i0 j0 k0 i1 j1 k1 dx b0 b1 b2 gcw u f0 f1 f2 m ;;
   cd_apply_3d_diffusion_v1_apply i0 i1 j0 j1 k0 k1 alpha beta dx agcw a gcw u f0 f1 f2 rgcw res m') = Some mo ->
  (forall i j k, i0 <= i <= i1 -> j0 <= j <= j1 -> k0 <= k <= k1 -> ((mkFa res (CELL3d i0 j0 k0 i1 j1 k1 rgcw))!(i, j, k))%F mo = Some (r i j k)) ->
  (forall i j k, i0 - 1 <= i <= i1 + 1 -> j0 - 1 <= j <= j1 + 1 -> k0 - 1 <= k <= k1 + 1 -> ((mkFa u (CELL3d i0 j0 k0 i1 j1 k1 gcw))!(i, j, k))%F m = Some (quad3 q (centre (o 0) (dx 0) i) (centre (o 1) (dx 1) j) (centre (o 2) (dx 2) k))) ->
  (forall i j k, i0 <= i <= i1 -> j0 <= j <= j1 -> k0 <= k <= k1 -> ((mkFa a (CELL3d i0 j0 k0 i1 j1 k1 agcw))!(i, j, k))%F m = Some (c i j k)) ->
  (forall i j k, i0 <= i <= i1 + 1 -> j0 <= j <= j1 -> k0 <= k <= k1 -> ((mkFa b0 (FACE3d0 i0 j0 k0 i1 j1 k1 0))!(i, j, k))%F m = Some (e0 (centre (o 1) (dx 1) j) (centre (o 2) (dx 2) k) + l0 (centre (o 1) (dx 1) j) (centre (o 2) (dx 2) k) * faceat (o 0) (dx 0) i)%T) ->
  (forall i j k, i0 <= i <= i1 -> j0 <= j <= j1 + 1 -> k0 <= k <= k1 -> ((mkFa b1 (FACE3d1 i0 j0 k0 i1 j1 k1 0))!(j, k, i))%F m = Some (e1 (centre (o 0) (dx 0) i) (centre (o 2) (dx 2) k) + l1 (centre (o 0) (dx 0) i) (centre (o 2) (dx 2) k) * faceat (o 1) (dx 1) j)%T) ->
  (forall i j k, i0 <= i <= i1 -> j0 <= j <= j1 -> k0 <= k <= k1 + 1 -> ((mkFa b2 (FACE3d2 i0 j0 k0 i1 j1 k1 0))!(k, i, j))%F m = Some (e2 (centre (o 0) (dx 0) i) (centre (o 1) (dx 1) j) + l2 (centre (o 0) (dx 0) i) (centre (o 1) (dx 1) j) * faceat (o 2) (dx 2) k)%T) ->
  forall i j k, i0 <= i <= i1 -> j0 <= j <= j1 -> k0 <= k <= k1 ->
  let x := centre (o 0) (dx 0) i in
  let y := centre (o 1) (dx 1) j in
  let z := centre (o 2) (dx 2) k in
  r i j k = (- beta * ((l0 y z * quad3_x q x y z + (e0 y z + l0 y z * x) * quad3_xx q x y z) + (l1 x z * quad3_y q x y z + (e1 x z + l1 x z * y) * quad3_yy q x y z) + (l2 x y * quad3_z q x y z + (e2 x y + l2 x y * z) * quad3_zz q x y z)) + alpha * (c i j k * quad3 q x y z))%T.
Proof. exact @exact_var_v1_3d. Qed.
Print Assumptions C60_var_v1_3d.

Example C60_var_v1_3d_example :
  ex_po_h 0 <> lit 0 /\ ex_po_h 1 <> lit 0 /\ ex_po_h 2 <> lit 0 /\ apart (5%nat, 0) [(6%nat, 0); (7%nat, 0); (0%nat, 0); (1%nat, 0); (2%nat, 0); (3%nat, 0); (4%nat, 0)] /\
  apart (6%nat, 0) [(7%nat, 0); (0%nat, 0); (1%nat, 0); (2%nat, 0); (3%nat, 0); (4%nat, 0)] /\
  apart (7%nat, 0) [(0%nat, 0); (1%nat, 0); (2%nat, 0); (3%nat, 0); (4%nat, 0)] /\
  apart (8%nat, 0) [(5%nat, 0); (6%nat, 0); (7%nat, 0); (3%nat, 0); (4%nat, 0)] /\
  (let dx := ex_po_h in 
   let m := mkMem [(ex_po_row [-5; -11; -17; -1; 1; 3; 1; -5; -11; 5; 7; 9]); (ex_po_row [-5; -1; 3; 1; 5; 9; -19; 1; 21; -13; 7; 27]); (ex_po_row [-13; -1; 11; -59; -11; 37; -9; 3; 15; -55; -7; 41]); nth 3 (cells (ex_st_cells 70)) []; (ex_po_row [3430; 10290; 72118; 188914; 246; 738; 5862; 15618; -314; -942; 2134; 8914; 1750; 5250; 60934; 168802; 478; 1434; 11422; 30442; 30; 90; 894; 2442; -98; -294; -98; 490; 94; 282; 8446; 24586; 334; 1002; 5086; 12586; 30; 90; 462; 1146; 46; 138; 766; 1930; 382; 1146; 5998; 14938; 2998; 8994; 53110; 135346; 246; 738; 4566; 11730; 118; 354; 4726; 13234; 2614; 7842; 53590; 139858]); nth 5 (cells (ex_st_cells 70)) []; nth 5 (cells (ex_st_cells 70)) []; nth 5 (cells (ex_st_cells 70)) []; nth 5 (cells (ex_st_cells 70)) []] [] in
   match (m' <- cdf_3d_flux 0 0 0 1 1 1 dx (0%nat, 0) (1%nat, 0) (2%nat, 0) 1 (4%nat, 0) (5%nat, 0) (6%nat, 0) (7%nat, 0) m ;; cd_apply_3d_diffusion_v1_apply 0 1 0 1 0 1 (lit 5) (lit 3) dx 1 (3%nat, 0) 1 (4%nat, 0) (5%nat, 0) (6%nat, 0) (7%nat, 0) 0 (8%nat, 0) m') with
   | Some mo => let x := centre (ex_po_o 0) (dx 0) 1 in let y := centre (ex_po_o 1) (dx 1) 1 in let z := centre (ex_po_o 2) (dx 2) 1 in
     (ex_en_ok mo (mkFa (8%nat, 0) (CELL3d 0 0 0 1 1 1 0)) [[0; 0; 0]; [0; 0; 1]; [0; 1; 0]; [0; 1; 1]; [1; 0; 0]; [1; 0; 1]; [1; 1; 0]; [1; 1; 1]] && ex_en_ok m (mkFa (3%nat, 0) (CELL3d 0 0 0 1 1 1 1)) [[0; 0; 0]; [0; 0; 1]; [0; 1; 0]; [0; 1; 1]; [1; 0; 0]; [1; 0; 1]; [1; 1; 0]; [1; 1; 1]],
      forallb (fun i => forallb (fun j => forallb (fun k => ex_po_is m (mkFa (4%nat, 0) (CELL3d 0 0 0 1 1 1 1)) [i; j; k] (quad3 ex_po_q3 (centre (ex_po_o 0) (dx 0) i) (centre (ex_po_o 1) (dx 1) j) (centre (ex_po_o 2) (dx 2) k))) [-1; 0; 1; 2]) [-1; 0; 1; 2]) [-1; 0; 1; 2] && forallb (fun i => forallb (fun j => forallb (fun k => ex_po_is m (mkFa (0%nat, 0) (FACE3d0 0 0 0 1 1 1 0)) [i; j; k] (ex_po_e30 (centre (ex_po_o 1) (dx 1) j) (centre (ex_po_o 2) (dx 2) k) + ex_po_l30 (centre (ex_po_o 1) (dx 1) j) (centre (ex_po_o 2) (dx 2) k) * faceat (ex_po_o 0) (dx 0) i)%T) [0; 1]) [0; 1]) [0; 1; 2] && forallb (fun i => forallb (fun j => forallb (fun k => ex_po_is m (mkFa (1%nat, 0) (FACE3d1 0 0 0 1 1 1 0)) [j; k; i] (ex_po_e31 (centre (ex_po_o 0) (dx 0) i) (centre (ex_po_o 2) (dx 2) k) + ex_po_l31 (centre (ex_po_o 0) (dx 0) i) (centre (ex_po_o 2) (dx 2) k) * faceat (ex_po_o 1) (dx 1) j)%T) [0; 1]) [0; 1; 2]) [0; 1] && forallb (fun i => forallb (fun j => forallb (fun k => ex_po_is m (mkFa (2%nat, 0) (FACE3d2 0 0 0 1 1 1 0)) [k; i; j] (ex_po_e32 (centre (ex_po_o 0) (dx 0) i) (centre (ex_po_o 1) (dx 1) j) + ex_po_l32 (centre (ex_po_o 0) (dx 0) i) (centre (ex_po_o 1) (dx 1) j) * faceat (ex_po_o 2) (dx 2) k)%T) [0; 1; 2]) [0; 1]) [0; 1],
      ex_en_num (ex_en_val mo (mkFa (8%nat, 0) (CELL3d 0 0 0 1 1 1 0)) [1; 1; 1]),
      ex_en_num (- (lit 3) * ((ex_po_l30 y z * quad3_x ex_po_q3 x y z + (ex_po_e30 y z + ex_po_l30 y z * x) * quad3_xx ex_po_q3 x y z) + (ex_po_l31 x z * quad3_y ex_po_q3 x y z + (ex_po_e31 x z + ex_po_l31 x z * y) * quad3_yy ex_po_q3 x y z) + (ex_po_l32 x y * quad3_z ex_po_q3 x y z + (ex_po_e32 x y + ex_po_l32 x y * z) * quad3_zz ex_po_q3 x y z)) + (lit 5) * (ex_en_val m (mkFa (3%nat, 0) (CELL3d 0 0 0 1 1 1 1)) [1; 1; 1] * quad3 ex_po_q3 x y z))%T)
   | None => (false, false, (0, 0), (0, 0)) end) = (true, true, (8163008, 1), (8163008, 1)).
Proof. split; [intro C; apply (f_equal this) in C; vm_compute in C; discriminate C|]. split; [intro C; apply (f_equal this) in C; vm_compute in C; discriminate C|]. split; [intro C; apply (f_equal this) in C; vm_compute in C; discriminate C|]. split; [repeat constructor; discriminate|]. split; [repeat constructor; discriminate|]. split; [repeat constructor; discriminate|]. split; [repeat constructor; discriminate|]. vm_compute. reflexivity. Qed.

Theorem C60_var_v2_3d : forall (S : Scalar), field_laws S ->
  forall i0 j0 k0 i1 j1 k1 dx beta b0 b1 b2 gcw u f0 f1 f2 alpha rgcw res o q e0 l0 e1 l1 e2 l2 (m mo : mem S) r,
  i0 <= i1 + 1 -> j0 <= j1 + 1 -> k0 <= k1 + 1 -> dx 0 <> lit 0 -> dx 1 <> lit 0 -> dx 2 <> lit 0 -> 0 <= gcw -> 0 <= rgcw ->
  apart f0 [f1; f2; b0; b1; b2; u] -> apart f1 [f2; b0; b1; b2; u] -> apart f2 [b0; b1; b2; u] -> apart res [f0; f1; f2; u] ->
  (m' <- cdf_3d_flux i0 j0 k0 i1 j1 k1 dx b0 b1 b2 gcw u f0 f1 f2 m ;;
   cd_apply_3d_diffusion_v2_apply i0 i1 j0 j1 k0 k1 alpha beta dx gcw u f0 f1 f2 rgcw res m') = Some mo ->
  (forall i j k, i0 <= i <= i1 -> j0 <= j <= j1 -> k0 <= k <= k1 -> ((mkFa res (CELL3d i0 j0 k0 i1 j1 k1 rgcw))!(i, j, k))%F mo = Some (r i j k)) ->
  (forall i j k, i0 - 1 <= i <= i1 + 1 -> j0 - 1 <= j <= j1 + 1 -> k0 - 1 <= k <= k1 + 1 -> ((mkFa u (CELL3d i0 j0 k0 i1 j1 k1 gcw))!(i, j, k))%F m = Some (quad3 q (centre (o 0) (dx 0) i) (centre (o 1) (dx 1) j) (centre (o 2) (dx 2) k))) ->
  (forall i j k, i0 <= i <= i1 + 1 -> j0 <= j <= j1 -> k0 <= k <= k1 -> ((mkFa b0 (FACE3d0 i0 j0 k0 i1 j1 k1 0))!(i, j, k))%F m = Some (e0 (centre (o 1) (dx 1) j) (centre (o 2) (dx 2) k) + l0 (centre (o 1) (dx 1) j) (centre (o 2) (dx 2) k) * faceat (o 0) (dx 0) i)%T) ->
  (forall i j k, i0 <= i <= i1 -> j0 <= j <= j1 + 1 -> k0 <= k <= k1 -> ((mkFa b1 (FACE3d1 i0 j0 k0 i1 j1 k1 0))!(j, k, i))%F m = Some (e1 (centre (o 0) (dx 0) i) (centre (o 2) (dx 2) k) + l1 (centre (o 0) (dx 0) i) (centre (o 2) (dx 2) k) * faceat (o 1) (dx 1) j)%T) ->
  (forall i j k, i0 <= i <= i1 -> j0 <= j <= j1 -> k0 <= k <= k1 + 1 -> ((mkFa b2 (FACE3d2 i0 j0 k0 i1 j1 k1 0))!(k, i, j))%F m = Some (e2 (centre (o 0) (dx 0) i) (centre (o 1) (dx 1) j) + l2 (centre (o 0) (dx 0) i) (centre (o 1) (dx 1) j) * faceat (o 2) (dx 2) k)%T) ->
  forall i j k, i0 <= i <= i1 -> j0 <= j <= j1 -> k0 <= k <= k1 ->
  let x := centre (o 0) (dx 0) i in
  let y := centre (o 1) (dx 1) j in
  let z := centre (o 2) (dx 2) k in
  r i j k = (- beta * ((l0 y z * quad3_x q x y z + (e0 y z + l0 y z * x) * quad3_xx q x y z) + (l1 x z * quad3_y q x y z + (e1 x z + l1 x z * y) * quad3_yy q x y z) + (l2 x y * quad3_z q x y z + (e2 x y + l2 x y * z) * quad3_zz q x y z)) + alpha * quad3 q x y z)%T.
Proof. exact @exact_var_v2_3d. Qed.
Print Assumptions C60_var_v2_3d.

Example C60_var_v2_3d_example :
  ex_po_h 0 <> lit 0 /\ ex_po_h 1 <> lit 0 /\ ex_po_h 2 <> lit 0 /\ apart (5%nat, 0) [(6%nat, 0); (7%nat, 0); (0%nat, 0); (1%nat, 0); (2%nat, 0); (4%nat, 0)] /\
  apart (6%nat, 0) [(7%nat, 0); (0%nat, 0); (1%nat, 0); (2%nat, 0); (4%nat, 0)] /\
  apart (7%nat, 0) [(0%nat, 0); (1%nat, 0); (2%nat, 0); (4%nat, 0)] /\
  apart (8%nat, 0) [(5%nat, 0); (6%nat, 0); (7%nat, 0); (4%nat, 0)] /\
  (let dx := ex_po_h in 
   let m := mkMem [(ex_po_row [-5; -11; -17; -1; 1; 3; 1; -5; -11; 5; 7; 9]); (ex_po_row [-5; -1; 3; 1; 5; 9; -19; 1; 21; -13; 7; 27]); (ex_po_row [-13; -1; 11; -59; -11; 37; -9; 3; 15; -55; -7; 41]); nth 3 (cells (ex_st_cells 70)) []; (ex_po_row [3430; 10290; 72118; 188914; 246; 738; 5862; 15618; -314; -942; 2134; 8914; 1750; 5250; 60934; 168802; 478; 1434; 11422; 30442; 30; 90; 894; 2442; -98; -294; -98; 490; 94; 282; 8446; 24586; 334; 1002; 5086; 12586; 30; 90; 462; 1146; 46; 138; 766; 1930; 382; 1146; 5998; 14938; 2998; 8994; 53110; 135346; 246; 738; 4566; 11730; 118; 354; 4726; 13234; 2614; 7842; 53590; 139858]); nth 5 (cells (ex_st_cells 70)) []; nth 5 (cells (ex_st_cells 70)) []; nth 5 (cells (ex_st_cells 70)) []; nth 5 (cells (ex_st_cells 70)) []] [] in
   match (m' <- cdf_3d_flux 0 0 0 1 1 1 dx (0%nat, 0) (1%nat, 0) (2%nat, 0) 1 (4%nat, 0) (5%nat, 0) (6%nat, 0) (7%nat, 0) m ;; cd_apply_3d_diffusion_v2_apply 0 1 0 1 0 1 (lit 5) (lit 3) dx 1 (4%nat, 0) (5%nat, 0) (6%nat, 0) (7%nat, 0) 0 (8%nat, 0) m') with
   | Some mo => let x := centre (ex_po_o 0) (dx 0) 1 in let y := centre (ex_po_o 1) (dx 1) 1 in let z := centre (ex_po_o 2) (dx 2) 1 in
     (ex_en_ok mo (mkFa (8%nat, 0) (CELL3d 0 0 0 1 1 1 0)) [[0; 0; 0]; [0; 0; 1]; [0; 1; 0]; [0; 1; 1]; [1; 0; 0]; [1; 0; 1]; [1; 1; 0]; [1; 1; 1]],
      forallb (fun i => forallb (fun j => forallb (fun k => ex_po_is m (mkFa (4%nat, 0) (CELL3d 0 0 0 1 1 1 1)) [i; j; k] (quad3 ex_po_q3 (centre (ex_po_o 0) (dx 0) i) (centre (ex_po_o 1) (dx 1) j) (centre (ex_po_o 2) (dx 2) k))) [-1; 0; 1; 2]) [-1; 0; 1; 2]) [-1; 0; 1; 2] && forallb (fun i => forallb (fun j => forallb (fun k => ex_po_is m (mkFa (0%nat, 0) (FACE3d0 0 0 0 1 1 1 0)) [i; j; k] (ex_po_e30 (centre (ex_po_o 1) (dx 1) j) (centre (ex_po_o 2) (dx 2) k) + ex_po_l30 (centre (ex_po_o 1) (dx 1) j) (centre (ex_po_o 2) (dx 2) k) * faceat (ex_po_o 0) (dx 0) i)%T) [0; 1]) [0; 1]) [0; 1; 2] && forallb (fun i => forallb (fun j => forallb (fun k => ex_po_is m (mkFa (1%nat, 0) (FACE3d1 0 0 0 1 1 1 0)) [j; k; i] (ex_po_e31 (centre (ex_po_o 0) (dx 0) i) (centre (ex_po_o 2) (dx 2) k) + ex_po_l31 (centre (ex_po_o 0) (dx 0) i) (centre (ex_po_o 2) (dx 2) k) * faceat (ex_po_o 1) (dx 1) j)%T) [0; 1]) [0; 1; 2]) [0; 1] && forallb (fun i => forallb (fun j => forallb (fun k => ex_po_is m (mkFa (2%nat, 0) (FACE3d2 0 0 0 1 1 1 0)) [k; i; j] (ex_po_e32 (centre (ex_po_o 0) (dx 0) i) (centre (ex_po_o 1) (dx 1) j) + ex_po_l32 (centre (ex_po_o 0) (dx 0) i) (centre (ex_po_o 1) (dx 1) j) * faceat (ex_po_o 2) (dx 2) k)%T) [0; 1; 2]) [0; 1]) [0; 1],
      ex_en_num (ex_en_val mo (mkFa (8%nat, 0) (CELL3d 0 0 0 1 1 1 0)) [1; 1; 1]),
      ex_en_num (- (lit 3) * ((ex_po_l30 y z * quad3_x ex_po_q3 x y z + (ex_po_e30 y z + ex_po_l30 y z * x) * quad3_xx ex_po_q3 x y z) + (ex_po_l31 x z * quad3_y ex_po_q3 x y z + (ex_po_e31 x z + ex_po_l31 x z * y) * quad3_yy ex_po_q3 x y z) + (ex_po_l32 x y * quad3_z ex_po_q3 x y z + (ex_po_e32 x y + ex_po_l32 x y * z) * quad3_zz ex_po_q3 x y z)) + (lit 5) * quad3 ex_po_q3 x y z)%T)
   | None => (false, false, (0, 0), (0, 0)) end) = (true, true, (-40852, 1), (-40852, 1)).
Proof. split; [intro C; apply (f_equal this) in C; vm_compute in C; discriminate C|]. split; [intro C; apply (f_equal this) in C; vm_compute in C; discriminate C|]. split; [intro C; apply (f_equal this) in C; vm_compute in C; discriminate C|]. split; [repeat constructor; discriminate|]. split; [repeat constructor; discriminate|]. split; [repeat constructor; discriminate|]. split; [repeat constructor; discriminate|]. vm_compute. reflexivity. Qed.
