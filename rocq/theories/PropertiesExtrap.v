(** * Properties: linear extrapolation into the ghost cells around a patch *)

From Coq Require Import QArith Qcanon.
From Verif Require Import Base FortranBase FortranExtrap Instances SpecSmooth SpecExtrap LemCells LemExtrap LemExtrap2 LemExtrapCase.
Import ListNotations.
Open Scope Z_scope.

(** ** C68: what one call stores, and what the calls around a patch do to linear data *)

(** A call for a segment one cell thick stores the extrapolated value of every cell of
    it, from the values before the call, and changes nothing else.  No law of
    arithmetic is used. *)
Theorem C68_values : forall (S : Scalar) lo0 hi0 lo1 hi1 lo2 hi2 gcw u bLo bHi face type s (m : mem S),
  let ua := mkFa u (CELL3d lo0 lo1 lo2 hi0 hi1 hi2 gcw) in
  location type face = Some s -> thin s bLo bHi -> allocated m ua ->
  (forall c, in_box (segment bLo bHi) c -> in_box (fa_dims ua) c /\ forall c', source s c c' -> in_box (fa_dims ua) c') ->
  exists m', linearextrap lo0 hi0 lo1 hi1 lo2 hi2 gcw u bLo bHi face type m = Some m' /\
    (forall c, in_box (segment bLo bHi) c -> fel ua c m' = extrapolated (fun c' => fel ua c' m) s c /\ exists v, fel ua c m' = Some v) /\
    (forall q, (forall c, in_box (segment bLo bHi) c -> faddr ua c <> q) -> load m' q = load m q) /\ ints m' = ints m.
Proof. exact @linearextrap_values. Qed.
Print Assumptions C68_values.

(** Edge 3 of the patch [0..1]: above in directions 0 and 1. *)
Example C68_values_case : location 2 3 = Some [1; 1; 0] /\
  (let bLo d := if d =? 2 then 0 else 2 in let bHi d := if d =? 2 then 1 else 2 in
   thin [1; 1; 0] bLo bHi /\ allocated (xmem 1 (xfill xaff)) (xu 1) /\
   forall c, in_box (segment bLo bHi) c -> in_box (fa_dims (xu 1)) c /\ forall c', source [1; 1; 0] c c' -> in_box (fa_dims (xu 1)) c').
Proof.
  split; [reflexivity|]. cbv zeta. split; [|split].
  - intros d Hd. destruct d as [|[|[|]]]; cbn; intros; congruence || lia.
  - apply xmem_allocated. vm_compute. reflexivity.
  - intros c Hc. apply in_box3 in Hc as (i & j & k & -> & Hi & Hj & Hk). cbn in Hi, Hj, Hk. split.
    + apply in_box3. exists i, j, k. cbn. split; [reflexivity|lia].
    + intros c' Hs. cbn in Hs. destruct Hs as [->|[->| ->]]; apply in_box3; do 3 eexists; cbn; (split; [reflexivity|lia]).
Qed.

(** Any other type or number: nothing happens. *)
Theorem C68_other : forall (S : Scalar) lo0 hi0 lo1 hi1 lo2 hi2 gcw u bLo bHi face type (m : mem S),
  location type face = None -> linearextrap lo0 hi0 lo1 hi1 lo2 hi2 gcw u bLo bHi face type m = Some m.
Proof. exact @linearextrap_other. Qed.
Print Assumptions C68_other.

Example C68_other_case : location 1 6 = None /\ location 2 12 = None /\ location 0 0 = None.
Proof. repeat split. Qed.

(** Around a patch of at least two cells in every direction that holds a linear
    function, the calls for all faces, then all edges, then all corners, in any order
    within each of the three, leave the same linear function on all the ghost cells
    of the first layer.  Only they change. *)
Theorem C68_linear : forall (S : Scalar), field_laws S -> forall (lo hi : Z -> Z) gcw u faces edges corners (g : list Z -> S) (m : mem S),
  let ua := mkFa u (CELL3d (lo 0) (lo 1) (lo 2) (hi 0) (hi 1) (hi 2) gcw) in
  affine g -> 1 <= gcw -> (forall d, 0 <= d <= 2 -> lo d < hi d) ->
  (forall n, In n faces <-> 0 <= n < 6) -> (forall n, In n edges <-> 0 <= n < 12) -> (forall n, In n corners <-> 0 <= n < 8) ->
  allocated m ua -> (forall c, in_box (patch lo hi 0) c -> fel ua c m = Some (g c)) ->
  exists m', extrapolate_around lo hi gcw u faces edges corners m = Some m' /\
    (forall c, in_box (patch lo hi 1) c -> fel ua c m' = Some (g c)) /\
    (forall q, (forall c, in_box (patch lo hi 1) c -> ~ in_box (patch lo hi 0) c -> faddr ua c <> q) -> load m' q = load m q) /\ ints m' = ints m.
Proof. exact @around_patch. Qed.
Print Assumptions C68_linear.

Example C68_linear_case : affine xaff /\ (forall d, 0 <= d <= 2 -> xlo d < xhi d) /\
  (forall n, In n six <-> 0 <= n < 6) /\ (forall n, In n twelve <-> 0 <= n < 12) /\ (forall n, In n eight <-> 0 <= n < 8) /\
  allocated (xmem 1 (xfill xaff)) (xu 1) /\ (forall c, in_box (patch xlo xhi 0) c -> fel (xu 1) c (xmem 1 (xfill xaff)) = Some (xaff c)) /\
  fel (xu 1) [2; 2; -1] (xmem 1 (xfill xaff)) <> Some (xaff [2; 2; -1]) /\
  fel (xu 1) [2; 2; -1] (out (extrapolate_around xlo xhi 1 (0%nat, 0) six twelve eight (xmem 1 (xfill xaff)))) = Some (xaff [2; 2; -1]).
Proof.
  split; [exact xaff_affine|]. split; [intros; reflexivity|]. do 3 (split; [intros n; cbn [In six twelve eight]; lia|]).
  split; [apply xmem_allocated; vm_compute; reflexivity|]. split; [apply xmem_patch; vm_compute; reflexivity|].
  split; [apply is_value_ne|apply is_value_eq]; vm_compute; reflexivity.
Qed.

(** The order of the three matters. *)
Theorem C68_order_refuted : exists (m m' : mem QcS) g c,
  affine g /\ allocated m (xu 1) /\ (forall c, in_box (patch xlo xhi 0) c -> fel (xu 1) c m = Some (g c)) /\
  (m1 <- forM twelve (extrapolate_piece xlo xhi 1 (0%nat, 0) 2) m ;; m2 <- forM six (extrapolate_piece xlo xhi 1 (0%nat, 0) 1) m1 ;;
   forM eight (extrapolate_piece xlo xhi 1 (0%nat, 0) 3) m2) = Some m' /\
  in_box (patch xlo xhi 1) c /\ fel (xu 1) c m' <> Some (g c).
Proof. exact order_case. Qed.
Print Assumptions C68_order_refuted.

(** Bilinear data are not continued: i*j is wrong on an edge. *)
Theorem C68_bilinear_refuted : exists (m m' : mem QcS) c,
  allocated m (xu 1) /\ (forall i j k, in_box (patch xlo xhi 0) [i; j; k] -> fel (xu 1) [i; j; k] m = Some (lit (i * j))) /\
  extrapolate_around xlo xhi 1 (0%nat, 0) six twelve eight m = Some m' /\
  exists i j k, c = [i; j; k] /\ in_box (patch xlo xhi 1) c /\ fel (xu 1) c m' <> Some (lit (i * j)).
Proof. exact bilinear_case. Qed.
Print Assumptions C68_bilinear_refuted.

(** A segment two cells thick is not filled: the layer next to the patch keeps its
    values and the outer layer continues these. *)
Theorem C68_wide_refuted : exists (m m' : mem QcS) g c c',
  affine g /\ allocated m (xu 2) /\ (forall c, in_box (patch xlo xhi 0) c -> fel (xu 2) c m = Some (g c)) /\
  linearextrap 0 1 0 1 0 1 2 (0%nat, 0) wide_lo wide_hi 0 1 m = Some m' /\
  in_box (segment wide_lo wide_hi) c /\ fel (xu 2) c m' = fel (xu 2) c m /\ fel (xu 2) c m' <> Some (g c) /\
  in_box (segment wide_lo wide_hi) c' /\ fel (xu 2) c' m' <> Some (g c').
Proof. exact wide_case. Qed.
Print Assumptions C68_wide_refuted.
