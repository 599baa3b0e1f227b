(** * Specification: linear extrapolation into the ghost cells of a patch

    A patch [lo..hi] in three dimensions is surrounded by one layer of ghost cells.
    Its pieces are named by what side of the patch they are on in every direction:
    -1 below, 1 above, 0 neither.  One non-zero sign is a face, two an edge, three a
    corner. *)

From Verif Require Import Base FortranBase FortranExtrap SpecSmooth.
Import ListNotations.
Open Scope Z_scope.

Definition side (high : bool) : Z := if high then 1 else -1.

(** Numbering of the pieces: faces 0, 1 are below and above in direction 0, faces 2, 3
    in direction 1, faces 4, 5 in direction 2; edges 0..3 are normal to directions 0
    and 1, edges 4..7 to 0 and 2, edges 8..11 to 1 and 2, the first of the two
    changing fastest; corners likewise.  Types: 1 face, 2 edge, 3 corner. *)
Definition location (type number : Z) : option (list Z) :=
  let a := side (Z.odd number) in
  let b := side (Z.odd (number / 2)) in
  let c := side (Z.odd (number / 4)) in
  let is l h := (l <=? number) && (number <=? h) in
  if type =? 1 then
    if is 0 1 then Some [a; 0; 0] else if is 2 3 then Some [0; a; 0] else if is 4 5 then Some [0; 0; a] else None
  else if type =? 2 then
    if is 0 3 then Some [a; b; 0] else if is 4 7 then Some [a; 0; b] else if is 8 11 then Some [0; a; b] else None
  else if type =? 3 then
    if is 0 7 then Some [a; b; c] else None
  else None.

(** The ghost cells on the side [s] of the patch. *)
Definition layer (lo hi s : Z) : Z * Z := if s <? 0 then (lo - 1, lo - 1) else if 0 <? s then (hi + 1, hi + 1) else (lo, hi).
Definition ghost_box (lo hi : Z -> Z) (s : list Z) : list (Z * Z) :=
  [layer (lo 0) (hi 0) (nth 0 s 0); layer (lo 1) (hi 1) (nth 1 s 0); layer (lo 2) (hi 2) (nth 2 s 0)].

(** The patch with [g] layers around it. *)
Definition patch (lo hi : Z -> Z) (g : Z) : list (Z * Z) :=
  [(lo 0 - g, hi 0 + g); (lo 1 - g, hi 1 + g); (lo 2 - g, hi 2 + g)].

(** One cell towards the patch in direction [d]. *)
Definition inwards (s : list Z) (d : nat) (c : list Z) : list Z :=
  firstn d c ++ [nth d c 0 - nth d s 0] ++ skipn (d + 1) c.

(** The directions a piece is normal to. *)
Definition normals (s : list Z) : list nat := filter (fun d => negb (nth d s 0 =? 0)) [0%nat; 1%nat; 2%nat].

Section Extrapolate.
  Context {S : Scalar}.

  (** The value extrapolated at the ghost cell [c]: along the normal of a face, and
      from the three other corners of a square in the plane of the first two normals
      otherwise. *)
  Definition extrapolated (val : list Z -> option S) (s c : list Z) : option S :=
    match normals s with
    | [] => None
    | [d] => x <- val (inwards s d c) ;; y <- val (inwards s d (inwards s d c)) ;; Some (lit 2 * x - y)%T
    | d :: d' :: _ =>
        z <- val (inwards s d (inwards s d' c)) ;; x <- val (inwards s d c) ;; y <- val (inwards s d' c) ;; Some (- z + x + y)%T
    end.

  (** The cells whose values enter. *)
  Definition source (s c c' : list Z) : Prop :=
    match normals s with
    | [] => False
    | [d] => c' = inwards s d c \/ c' = inwards s d (inwards s d c)
    | d :: d' :: _ => c' = inwards s d (inwards s d' c) \/ c' = inwards s d c \/ c' = inwards s d' c
    end.

  (** The segment [bLo..bHi] is one cell thick in the directions it is normal to. *)
  Definition thin (s : list Z) (bLo bHi : Z -> Z) : Prop :=
    forall d, (d < 3)%nat -> nth d s 0 <> 0 -> bLo (Z.of_nat d) = bHi (Z.of_nat d).
  Definition segment (bLo bHi : Z -> Z) : list (Z * Z) := [(bLo 0, bHi 0); (bLo 1, bHi 1); (bLo 2, bHi 2)].

  (** A function of the cell of the form b + b0 i + b1 j + b2 k. *)
  Definition affine (g : list Z -> S) : Prop :=
    exists b b0 b1 b2, forall i j k, g [i; j; k] = (b + b0 * lit i + b1 * lit j + b2 * lit k)%T.

  (** The array exists in memory. *)
  Definition allocated (m : mem S) (u : farray) : Prop := forall c, in_box (fa_dims u) c -> exists v, fel u c m = Some v.

  (** The call for one piece of the ghost layer of the patch. *)
  Definition extrapolate_piece (lo hi : Z -> Z) (gcw : Z) (u : ptr) (type number : Z) (m : mem S) : option (mem S) :=
    match location type number with
    | Some s => linearextrap (lo 0) (hi 0) (lo 1) (hi 1) (lo 2) (hi 2) gcw u
                  (fun d => fst (nth (Z.to_nat d) (ghost_box lo hi s) (0, 0))) (fun d => snd (nth (Z.to_nat d) (ghost_box lo hi s) (0, 0)))
                  number type m
    | None => None
    end.

  (** Faces, then edges, then corners, each in the given order. *)
  Definition extrapolate_around (lo hi : Z -> Z) (gcw : Z) (u : ptr) (faces edges corners : list Z) (m : mem S) : option (mem S) :=
    m <- forM faces (extrapolate_piece lo hi gcw u 1) m ;;
    m <- forM edges (extrapolate_piece lo hi gcw u 2) m ;;
    forM corners (extrapolate_piece lo hi gcw u 3) m.
End Extrapolate.
