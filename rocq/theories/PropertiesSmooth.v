(** * Property C55: the point smoothers *)

From Coq Require Import Qcanon.
From Verif Require Import Base FortranBase FortranSmooth Instances SpecNode SpecRow SpecSmooth LemNodeRefute LemCells LemSmoothers LemJacobi LemFixedStencil LemSmoothFinal LemSmoothRefute.
Import ListNotations.
Open Scope Z_scope.

(** The matrix is assembled in [st]: entry [s] of the row of cell [c] is [st(s,c)]
    and multiplies the value at [c] displaced by column [s] of the integer table
    [offset]; entry 0 belongs to [c] itself.  [swept], [relaxed], [solves] and the
    hypotheses [stays], [diagonal], [bipartite] are in SpecSmooth. *)

(** ** Gauss-Seidel: each cell from the newest values *)

(** The subroutine declares [f] with the bounds of [u]; hence the hypothesis on the lower bounds. *)
Theorem C55_cellgs1d : forall (S : Scalar) (L : field_laws S) lo0 hi0 n offset slo0 shi0 st flo0 fhi0 f ulo0 uhi0 u (m m' : mem S),
  fst u <> fst st -> fst u <> fst f ->
  (forall c, in_box [(lo0, hi0)] c -> in_box (CELL1d ulo0 uhi0 0) c) ->
  stays m (mkFa offset [(0, 0); (0, n - 1)]) 1 (n - 1) (CELL1d ulo0 uhi0 0) (in_box [(lo0, hi0)]) ->
  flo0 = ulo0 -> cellgs1d lo0 hi0 n offset slo0 shi0 st flo0 fhi0 f ulo0 uhi0 u m = Some m' ->
  swept m m' (mkFa offset [(0, 0); (0, n - 1)]) (mkFa st ((0, n - 1) :: CELL1d slo0 shi0 0)) n
    (mkFa f (CELL1d flo0 fhi0 0)) (mkFa u (CELL1d ulo0 uhi0 0)) (in_box [(lo0, hi0)]).
Proof. exact @cellgs1d_swept. Qed.
Print Assumptions C55_cellgs1d.

Theorem C55_cellgs2d : forall (S : Scalar) (L : field_laws S) lo0 hi0 lo1 hi1 n offset slo0 shi0 slo1 shi1 st flo0 fhi0 flo1 fhi1 f ulo0 uhi0 ulo1 uhi1 u (m m' : mem S),
  fst u <> fst st -> fst u <> fst f ->
  (forall c, in_box [(lo0, hi0); (lo1, hi1)] c -> in_box (CELL2d ulo0 ulo1 uhi0 uhi1 0) c) ->
  stays m (mkFa offset [(0, 1); (0, n - 1)]) 1 (n - 1) (CELL2d ulo0 ulo1 uhi0 uhi1 0) (in_box [(lo0, hi0); (lo1, hi1)]) ->
  cellgs2d lo0 hi0 lo1 hi1 n offset slo0 shi0 slo1 shi1 st flo0 fhi0 flo1 fhi1 f ulo0 uhi0 ulo1 uhi1 u m = Some m' ->
  swept m m' (mkFa offset [(0, 1); (0, n - 1)]) (mkFa st ((0, n - 1) :: CELL2d slo0 slo1 shi0 shi1 0)) n
    (mkFa f (CELL2d flo0 flo1 fhi0 fhi1 0)) (mkFa u (CELL2d ulo0 ulo1 uhi0 uhi1 0)) (in_box [(lo0, hi0); (lo1, hi1)]).
Proof. exact @cellgs2d_swept. Qed.
Print Assumptions C55_cellgs2d.

Theorem C55_cellgs3d : forall (S : Scalar) (L : field_laws S) lo0 hi0 lo1 hi1 lo2 hi2 n offset slo0 shi0 slo1 shi1 slo2 shi2 st flo0 fhi0 flo1 fhi1 flo2 fhi2 f ulo0 uhi0 ulo1 uhi1 ulo2 uhi2 u (m m' : mem S),
  fst u <> fst st -> fst u <> fst f ->
  (forall c, in_box [(lo0, hi0); (lo1, hi1); (lo2, hi2)] c -> in_box (CELL3d ulo0 ulo1 ulo2 uhi0 uhi1 uhi2 0) c) ->
  stays m (mkFa offset [(0, 2); (0, n - 1)]) 1 (n - 1) (CELL3d ulo0 ulo1 ulo2 uhi0 uhi1 uhi2 0) (in_box [(lo0, hi0); (lo1, hi1); (lo2, hi2)]) ->
  cellgs3d lo0 hi0 lo1 hi1 lo2 hi2 n offset slo0 shi0 slo1 shi1 slo2 shi2 st flo0 fhi0 flo1 fhi1 flo2 fhi2 f ulo0 uhi0 ulo1 uhi1 ulo2 uhi2 u m = Some m' ->
  swept m m' (mkFa offset [(0, 2); (0, n - 1)]) (mkFa st ((0, n - 1) :: CELL3d slo0 slo1 slo2 shi0 shi1 shi2 0)) n
    (mkFa f (CELL3d flo0 flo1 flo2 fhi0 fhi1 fhi2 0)) (mkFa u (CELL3d ulo0 ulo1 ulo2 uhi0 uhi1 uhi2 0)) (in_box [(lo0, hi0); (lo1, hi1); (lo2, hi2)]).
Proof. exact @cellgs3d_swept. Qed.
Print Assumptions C55_cellgs3d.

(** Without it another element of [f] is read (the call is the same as for the
    red-black subroutine, which visits the one cell of this patch too). *)
Theorem C55_cellgs1d_refuted :
  disagree (cellgs1d 0 0 3 (p 0) 0 0 (p 0) 0 0 (p 1) (-1) 1 (p 2)) (cellrbgs1d 0 0 0 3 (p 0) 0 0 (p 0) 0 0 (p 1) (-1) 1 (p 2)) smooth_mem.
Proof. exact cellgs1d_differs. Qed.
Print Assumptions C55_cellgs1d_refuted.

(** ** Red-black: the cells of one colour *)

Theorem C55_cellrbgs1d : forall (S : Scalar) (L : field_laws S) lo0 hi0 color n offset slo0 shi0 st flo0 fhi0 f ulo0 uhi0 u (m m' : mem S),
  0 <= color -> fst u <> fst st -> fst u <> fst f ->
  (forall c, coloured [(lo0, hi0)] color c -> in_box (CELL1d ulo0 uhi0 0) c) ->
  stays m (mkFa offset [(0, 0); (0, n - 1)]) 1 (n - 1) (CELL1d ulo0 uhi0 0) (coloured [(lo0, hi0)] color) ->
  cellrbgs1d lo0 hi0 color n offset slo0 shi0 st flo0 fhi0 f ulo0 uhi0 u m = Some m' ->
  swept m m' (mkFa offset [(0, 0); (0, n - 1)]) (mkFa st ((0, n - 1) :: CELL1d slo0 shi0 0)) n
    (mkFa f (CELL1d flo0 fhi0 0)) (mkFa u (CELL1d ulo0 uhi0 0)) (coloured [(lo0, hi0)] color).
Proof. exact @cellrbgs1d_swept. Qed.
Print Assumptions C55_cellrbgs1d.

(** [mod] is negative for a negative sum, hence the hypothesis on the first row and the colour. *)
Theorem C55_cellrbgs2d : forall (S : Scalar) (L : field_laws S) lo0 hi0 lo1 hi1 color n offset slo0 shi0 slo1 shi1 st flo0 fhi0 flo1 fhi1 f ulo0 uhi0 ulo1 uhi1 u (m m' : mem S),
  0 <= lo1 + color -> fst u <> fst st -> fst u <> fst f ->
  (forall c, coloured [(lo0, hi0); (lo1, hi1)] color c -> in_box (CELL2d ulo0 ulo1 uhi0 uhi1 0) c) ->
  stays m (mkFa offset [(0, 1); (0, n - 1)]) 1 (n - 1) (CELL2d ulo0 ulo1 uhi0 uhi1 0) (coloured [(lo0, hi0); (lo1, hi1)] color) ->
  cellrbgs2d lo0 hi0 lo1 hi1 color n offset slo0 shi0 slo1 shi1 st flo0 fhi0 flo1 fhi1 f ulo0 uhi0 ulo1 uhi1 u m = Some m' ->
  swept m m' (mkFa offset [(0, 1); (0, n - 1)]) (mkFa st ((0, n - 1) :: CELL2d slo0 slo1 shi0 shi1 0)) n
    (mkFa f (CELL2d flo0 flo1 fhi0 fhi1 0)) (mkFa u (CELL2d ulo0 ulo1 uhi0 uhi1 0)) (coloured [(lo0, hi0); (lo1, hi1)] color).
Proof. exact @cellrbgs2d_swept. Qed.
Print Assumptions C55_cellrbgs2d.

Theorem C55_cellrbgs3d : forall (S : Scalar) (L : field_laws S) lo0 hi0 lo1 hi1 lo2 hi2 color n offset slo0 shi0 slo1 shi1 slo2 shi2 st flo0 fhi0 flo1 fhi1 flo2 fhi2 f ulo0 uhi0 ulo1 uhi1 ulo2 uhi2 u (m m' : mem S),
  0 <= color -> fst u <> fst st -> fst u <> fst f ->
  (forall c, coloured [(lo0, hi0); (lo1, hi1); (lo2, hi2)] color c -> in_box (CELL3d ulo0 ulo1 ulo2 uhi0 uhi1 uhi2 0) c) ->
  stays m (mkFa offset [(0, 2); (0, n - 1)]) 1 (n - 1) (CELL3d ulo0 ulo1 ulo2 uhi0 uhi1 uhi2 0) (coloured [(lo0, hi0); (lo1, hi1); (lo2, hi2)] color) ->
  cellrbgs3d lo0 hi0 lo1 hi1 lo2 hi2 color n offset slo0 shi0 slo1 shi1 slo2 shi2 st flo0 fhi0 flo1 fhi1 flo2 fhi2 f ulo0 uhi0 ulo1 uhi1 ulo2 uhi2 u m = Some m' ->
  swept m m' (mkFa offset [(0, 2); (0, n - 1)]) (mkFa st ((0, n - 1) :: CELL3d slo0 slo1 slo2 shi0 shi1 shi2 0)) n
    (mkFa f (CELL3d flo0 flo1 flo2 fhi0 fhi1 fhi2 0)) (mkFa u (CELL3d ulo0 ulo1 ulo2 uhi0 uhi1 uhi2 0)) (coloured [(lo0, hi0); (lo1, hi1); (lo2, hi2)] color).
Proof. exact @cellrbgs3d_swept. Qed.
Print Assumptions C55_cellrbgs3d.

(** In a row with a negative sum the subroutine starts before the patch: it writes
    the cell (-1,-1) of the patch 0..1 by -1..-1. *)
Theorem C55_cellrbgs2d_refuted : exists m',
  cellrbgs2d 0 1 (-1) (-1) 0 5 (p 1) (-1) 1 (-1) (-1) (p 0) (-1) 1 (-1) (-1) (p 1) (-2) 2 (-2) 0 (p 2) smooth_mem = Some m' /\
  fel (mkFa (p 2) (CELL2d (-2) (-2) 2 0 0)) [-1; -1] m' <> fel (mkFa (p 2) (CELL2d (-2) (-2) 2 0 0)) [-1; -1] smooth_mem.
Proof. exact cellrbgs2d_outside. Qed.
Print Assumptions C55_cellrbgs2d_refuted.

(** Two colours make up the patch. *)
Theorem C55_colours : forall bs color c, in_box bs c ->
  (coloured bs color c /\ ~ coloured bs (color + 1) c) \/ (coloured bs (color + 1) c /\ ~ coloured bs color c).
Proof. exact @colours_split. Qed.
Print Assumptions C55_colours.

(** When the entries after 0 lead to the other colour, the equations of the cells of
    a colour hold after its sweep. *)
Theorem C55_cellrbgs1d_solves : forall (S : Scalar) (L : field_laws S) lo0 hi0 color n offset slo0 shi0 st flo0 fhi0 f ulo0 uhi0 u (m m' : mem S),
  0 <= color -> fst u <> fst st -> fst u <> fst f ->
  (forall c, coloured [(lo0, hi0)] color c -> in_box (CELL1d ulo0 uhi0 0) c) ->
  stays m (mkFa offset [(0, 0); (0, n - 1)]) 1 (n - 1) (CELL1d ulo0 uhi0 0) (coloured [(lo0, hi0)] color) ->
  1 <= n -> diagonal m (mkFa offset [(0, 0); (0, n - 1)]) (mkFa st ((0, n - 1) :: CELL1d slo0 shi0 0)) (coloured [(lo0, hi0)] color) ->
  bipartite m (mkFa offset [(0, 0); (0, n - 1)]) n (coloured [(lo0, hi0)] color) ->
  cellrbgs1d lo0 hi0 color n offset slo0 shi0 st flo0 fhi0 f ulo0 uhi0 u m = Some m' ->
  forall c, coloured [(lo0, hi0)] color c -> solves m' (mkFa offset [(0, 0); (0, n - 1)]) (mkFa st ((0, n - 1) :: CELL1d slo0 shi0 0)) n (mkFa f (CELL1d flo0 fhi0 0)) (mkFa u (CELL1d ulo0 uhi0 0)) c.
Proof. exact @cellrbgs1d_solves. Qed.
Print Assumptions C55_cellrbgs1d_solves.

Theorem C55_cellrbgs2d_solves : forall (S : Scalar) (L : field_laws S) lo0 hi0 lo1 hi1 color n offset slo0 shi0 slo1 shi1 st flo0 fhi0 flo1 fhi1 f ulo0 uhi0 ulo1 uhi1 u (m m' : mem S),
  0 <= lo1 + color -> fst u <> fst st -> fst u <> fst f ->
  (forall c, coloured [(lo0, hi0); (lo1, hi1)] color c -> in_box (CELL2d ulo0 ulo1 uhi0 uhi1 0) c) ->
  stays m (mkFa offset [(0, 1); (0, n - 1)]) 1 (n - 1) (CELL2d ulo0 ulo1 uhi0 uhi1 0) (coloured [(lo0, hi0); (lo1, hi1)] color) ->
  1 <= n -> diagonal m (mkFa offset [(0, 1); (0, n - 1)]) (mkFa st ((0, n - 1) :: CELL2d slo0 slo1 shi0 shi1 0)) (coloured [(lo0, hi0); (lo1, hi1)] color) ->
  bipartite m (mkFa offset [(0, 1); (0, n - 1)]) n (coloured [(lo0, hi0); (lo1, hi1)] color) ->
  cellrbgs2d lo0 hi0 lo1 hi1 color n offset slo0 shi0 slo1 shi1 st flo0 fhi0 flo1 fhi1 f ulo0 uhi0 ulo1 uhi1 u m = Some m' ->
  forall c, coloured [(lo0, hi0); (lo1, hi1)] color c -> solves m' (mkFa offset [(0, 1); (0, n - 1)]) (mkFa st ((0, n - 1) :: CELL2d slo0 slo1 shi0 shi1 0)) n (mkFa f (CELL2d flo0 flo1 fhi0 fhi1 0)) (mkFa u (CELL2d ulo0 ulo1 uhi0 uhi1 0)) c.
Proof. exact @cellrbgs2d_solves. Qed.
Print Assumptions C55_cellrbgs2d_solves.

Theorem C55_cellrbgs3d_solves : forall (S : Scalar) (L : field_laws S) lo0 hi0 lo1 hi1 lo2 hi2 color n offset slo0 shi0 slo1 shi1 slo2 shi2 st flo0 fhi0 flo1 fhi1 flo2 fhi2 f ulo0 uhi0 ulo1 uhi1 ulo2 uhi2 u (m m' : mem S),
  0 <= color -> fst u <> fst st -> fst u <> fst f ->
  (forall c, coloured [(lo0, hi0); (lo1, hi1); (lo2, hi2)] color c -> in_box (CELL3d ulo0 ulo1 ulo2 uhi0 uhi1 uhi2 0) c) ->
  stays m (mkFa offset [(0, 2); (0, n - 1)]) 1 (n - 1) (CELL3d ulo0 ulo1 ulo2 uhi0 uhi1 uhi2 0) (coloured [(lo0, hi0); (lo1, hi1); (lo2, hi2)] color) ->
  1 <= n -> diagonal m (mkFa offset [(0, 2); (0, n - 1)]) (mkFa st ((0, n - 1) :: CELL3d slo0 slo1 slo2 shi0 shi1 shi2 0)) (coloured [(lo0, hi0); (lo1, hi1); (lo2, hi2)] color) ->
  bipartite m (mkFa offset [(0, 2); (0, n - 1)]) n (coloured [(lo0, hi0); (lo1, hi1); (lo2, hi2)] color) ->
  cellrbgs3d lo0 hi0 lo1 hi1 lo2 hi2 color n offset slo0 shi0 slo1 shi1 slo2 shi2 st flo0 fhi0 flo1 fhi1 flo2 fhi2 f ulo0 uhi0 ulo1 uhi1 ulo2 uhi2 u m = Some m' ->
  forall c, coloured [(lo0, hi0); (lo1, hi1); (lo2, hi2)] color c -> solves m' (mkFa offset [(0, 2); (0, n - 1)]) (mkFa st ((0, n - 1) :: CELL3d slo0 slo1 slo2 shi0 shi1 shi2 0)) n (mkFa f (CELL3d flo0 flo1 flo2 fhi0 fhi1 fhi2 0)) (mkFa u (CELL3d ulo0 ulo1 ulo2 uhi0 uhi1 uhi2 0)) c.
Proof. exact @cellrbgs3d_solves. Qed.
Print Assumptions C55_cellrbgs3d_solves.

(** With nine entries the diagonal neighbours have the same colour.  Sweeping one
    colour twice changes the values again: the equations did not hold. *)
Theorem C55_cells9rbgs2d_refuted : exists m1 m2,
  cells9rbgs2d 0 2 0 2 0 0 2 0 2 (p 0) 0 2 0 2 (p 1) (-1) 3 (-1) 3 (p 2) smooth_mem = Some m1 /\
  cells9rbgs2d 0 2 0 2 0 0 2 0 2 (p 0) 0 2 0 2 (p 1) (-1) 3 (-1) 3 (p 2) m1 = Some m2 /\
  cells m2 <> cells m1.
Proof. exact cells9rbgs2d_again. Qed.
Print Assumptions C55_cells9rbgs2d_refuted.

(** ** A solution stays *)

Theorem C55_cellgs1d_fixed : forall (S : Scalar) (L : field_laws S) lo0 hi0 n offset slo0 shi0 st flo0 fhi0 f ulo0 uhi0 u (m m' : mem S),
  fst u <> fst st -> fst u <> fst f ->
  (forall c, in_box [(lo0, hi0)] c -> in_box (CELL1d ulo0 uhi0 0) c) ->
  stays m (mkFa offset [(0, 0); (0, n - 1)]) 1 (n - 1) (CELL1d ulo0 uhi0 0) (in_box [(lo0, hi0)]) ->
  flo0 = ulo0 -> 1 <= n -> diagonal m (mkFa offset [(0, 0); (0, n - 1)]) (mkFa st ((0, n - 1) :: CELL1d slo0 shi0 0)) (in_box [(lo0, hi0)]) ->
  (forall c, in_box [(lo0, hi0)] c -> solves m (mkFa offset [(0, 0); (0, n - 1)]) (mkFa st ((0, n - 1) :: CELL1d slo0 shi0 0)) n (mkFa f (CELL1d flo0 fhi0 0)) (mkFa u (CELL1d ulo0 uhi0 0)) c) ->
  cellgs1d lo0 hi0 n offset slo0 shi0 st flo0 fhi0 f ulo0 uhi0 u m = Some m' ->
  forall q, load m' q = load m q.
Proof. exact @cellgs1d_fixed. Qed.
Print Assumptions C55_cellgs1d_fixed.

Theorem C55_cellgs2d_fixed : forall (S : Scalar) (L : field_laws S) lo0 hi0 lo1 hi1 n offset slo0 shi0 slo1 shi1 st flo0 fhi0 flo1 fhi1 f ulo0 uhi0 ulo1 uhi1 u (m m' : mem S),
  fst u <> fst st -> fst u <> fst f ->
  (forall c, in_box [(lo0, hi0); (lo1, hi1)] c -> in_box (CELL2d ulo0 ulo1 uhi0 uhi1 0) c) ->
  stays m (mkFa offset [(0, 1); (0, n - 1)]) 1 (n - 1) (CELL2d ulo0 ulo1 uhi0 uhi1 0) (in_box [(lo0, hi0); (lo1, hi1)]) ->
  1 <= n -> diagonal m (mkFa offset [(0, 1); (0, n - 1)]) (mkFa st ((0, n - 1) :: CELL2d slo0 slo1 shi0 shi1 0)) (in_box [(lo0, hi0); (lo1, hi1)]) ->
  (forall c, in_box [(lo0, hi0); (lo1, hi1)] c -> solves m (mkFa offset [(0, 1); (0, n - 1)]) (mkFa st ((0, n - 1) :: CELL2d slo0 slo1 shi0 shi1 0)) n (mkFa f (CELL2d flo0 flo1 fhi0 fhi1 0)) (mkFa u (CELL2d ulo0 ulo1 uhi0 uhi1 0)) c) ->
  cellgs2d lo0 hi0 lo1 hi1 n offset slo0 shi0 slo1 shi1 st flo0 fhi0 flo1 fhi1 f ulo0 uhi0 ulo1 uhi1 u m = Some m' ->
  forall q, load m' q = load m q.
Proof. exact @cellgs2d_fixed. Qed.
Print Assumptions C55_cellgs2d_fixed.

Theorem C55_cellgs3d_fixed : forall (S : Scalar) (L : field_laws S) lo0 hi0 lo1 hi1 lo2 hi2 n offset slo0 shi0 slo1 shi1 slo2 shi2 st flo0 fhi0 flo1 fhi1 flo2 fhi2 f ulo0 uhi0 ulo1 uhi1 ulo2 uhi2 u (m m' : mem S),
  fst u <> fst st -> fst u <> fst f ->
  (forall c, in_box [(lo0, hi0); (lo1, hi1); (lo2, hi2)] c -> in_box (CELL3d ulo0 ulo1 ulo2 uhi0 uhi1 uhi2 0) c) ->
  stays m (mkFa offset [(0, 2); (0, n - 1)]) 1 (n - 1) (CELL3d ulo0 ulo1 ulo2 uhi0 uhi1 uhi2 0) (in_box [(lo0, hi0); (lo1, hi1); (lo2, hi2)]) ->
  1 <= n -> diagonal m (mkFa offset [(0, 2); (0, n - 1)]) (mkFa st ((0, n - 1) :: CELL3d slo0 slo1 slo2 shi0 shi1 shi2 0)) (in_box [(lo0, hi0); (lo1, hi1); (lo2, hi2)]) ->
  (forall c, in_box [(lo0, hi0); (lo1, hi1); (lo2, hi2)] c -> solves m (mkFa offset [(0, 2); (0, n - 1)]) (mkFa st ((0, n - 1) :: CELL3d slo0 slo1 slo2 shi0 shi1 shi2 0)) n (mkFa f (CELL3d flo0 flo1 flo2 fhi0 fhi1 fhi2 0)) (mkFa u (CELL3d ulo0 ulo1 ulo2 uhi0 uhi1 uhi2 0)) c) ->
  cellgs3d lo0 hi0 lo1 hi1 lo2 hi2 n offset slo0 shi0 slo1 shi1 slo2 shi2 st flo0 fhi0 flo1 fhi1 flo2 fhi2 f ulo0 uhi0 ulo1 uhi1 ulo2 uhi2 u m = Some m' ->
  forall q, load m' q = load m q.
Proof. exact @cellgs3d_fixed. Qed.
Print Assumptions C55_cellgs3d_fixed.

Theorem C55_cellrbgs1d_fixed : forall (S : Scalar) (L : field_laws S) lo0 hi0 color n offset slo0 shi0 st flo0 fhi0 f ulo0 uhi0 u (m m' : mem S),
  0 <= color -> fst u <> fst st -> fst u <> fst f ->
  (forall c, coloured [(lo0, hi0)] color c -> in_box (CELL1d ulo0 uhi0 0) c) ->
  stays m (mkFa offset [(0, 0); (0, n - 1)]) 1 (n - 1) (CELL1d ulo0 uhi0 0) (coloured [(lo0, hi0)] color) ->
  1 <= n -> diagonal m (mkFa offset [(0, 0); (0, n - 1)]) (mkFa st ((0, n - 1) :: CELL1d slo0 shi0 0)) (coloured [(lo0, hi0)] color) ->
  (forall c, coloured [(lo0, hi0)] color c -> solves m (mkFa offset [(0, 0); (0, n - 1)]) (mkFa st ((0, n - 1) :: CELL1d slo0 shi0 0)) n (mkFa f (CELL1d flo0 fhi0 0)) (mkFa u (CELL1d ulo0 uhi0 0)) c) ->
  cellrbgs1d lo0 hi0 color n offset slo0 shi0 st flo0 fhi0 f ulo0 uhi0 u m = Some m' ->
  forall q, load m' q = load m q.
Proof. exact @cellrbgs1d_fixed. Qed.
Print Assumptions C55_cellrbgs1d_fixed.

Theorem C55_cellrbgs2d_fixed : forall (S : Scalar) (L : field_laws S) lo0 hi0 lo1 hi1 color n offset slo0 shi0 slo1 shi1 st flo0 fhi0 flo1 fhi1 f ulo0 uhi0 ulo1 uhi1 u (m m' : mem S),
  0 <= lo1 + color -> fst u <> fst st -> fst u <> fst f ->
  (forall c, coloured [(lo0, hi0); (lo1, hi1)] color c -> in_box (CELL2d ulo0 ulo1 uhi0 uhi1 0) c) ->
  stays m (mkFa offset [(0, 1); (0, n - 1)]) 1 (n - 1) (CELL2d ulo0 ulo1 uhi0 uhi1 0) (coloured [(lo0, hi0); (lo1, hi1)] color) ->
  1 <= n -> diagonal m (mkFa offset [(0, 1); (0, n - 1)]) (mkFa st ((0, n - 1) :: CELL2d slo0 slo1 shi0 shi1 0)) (coloured [(lo0, hi0); (lo1, hi1)] color) ->
  (forall c, coloured [(lo0, hi0); (lo1, hi1)] color c -> solves m (mkFa offset [(0, 1); (0, n - 1)]) (mkFa st ((0, n - 1) :: CELL2d slo0 slo1 shi0 shi1 0)) n (mkFa f (CELL2d flo0 flo1 fhi0 fhi1 0)) (mkFa u (CELL2d ulo0 ulo1 uhi0 uhi1 0)) c) ->
  cellrbgs2d lo0 hi0 lo1 hi1 color n offset slo0 shi0 slo1 shi1 st flo0 fhi0 flo1 fhi1 f ulo0 uhi0 ulo1 uhi1 u m = Some m' ->
  forall q, load m' q = load m q.
Proof. exact @cellrbgs2d_fixed. Qed.
Print Assumptions C55_cellrbgs2d_fixed.

Theorem C55_cellrbgs3d_fixed : forall (S : Scalar) (L : field_laws S) lo0 hi0 lo1 hi1 lo2 hi2 color n offset slo0 shi0 slo1 shi1 slo2 shi2 st flo0 fhi0 flo1 fhi1 flo2 fhi2 f ulo0 uhi0 ulo1 uhi1 ulo2 uhi2 u (m m' : mem S),
  0 <= color -> fst u <> fst st -> fst u <> fst f ->
  (forall c, coloured [(lo0, hi0); (lo1, hi1); (lo2, hi2)] color c -> in_box (CELL3d ulo0 ulo1 ulo2 uhi0 uhi1 uhi2 0) c) ->
  stays m (mkFa offset [(0, 2); (0, n - 1)]) 1 (n - 1) (CELL3d ulo0 ulo1 ulo2 uhi0 uhi1 uhi2 0) (coloured [(lo0, hi0); (lo1, hi1); (lo2, hi2)] color) ->
  1 <= n -> diagonal m (mkFa offset [(0, 2); (0, n - 1)]) (mkFa st ((0, n - 1) :: CELL3d slo0 slo1 slo2 shi0 shi1 shi2 0)) (coloured [(lo0, hi0); (lo1, hi1); (lo2, hi2)] color) ->
  (forall c, coloured [(lo0, hi0); (lo1, hi1); (lo2, hi2)] color c -> solves m (mkFa offset [(0, 2); (0, n - 1)]) (mkFa st ((0, n - 1) :: CELL3d slo0 slo1 slo2 shi0 shi1 shi2 0)) n (mkFa f (CELL3d flo0 flo1 flo2 fhi0 fhi1 fhi2 0)) (mkFa u (CELL3d ulo0 ulo1 ulo2 uhi0 uhi1 uhi2 0)) c) ->
  cellrbgs3d lo0 hi0 lo1 hi1 lo2 hi2 color n offset slo0 shi0 slo1 shi1 slo2 shi2 st flo0 fhi0 flo1 fhi1 flo2 fhi2 f ulo0 uhi0 ulo1 uhi1 ulo2 uhi2 u m = Some m' ->
  forall q, load m' q = load m q.
Proof. exact @cellrbgs3d_fixed. Qed.
Print Assumptions C55_cellrbgs3d_fixed.

(** ** Jacobi: all cells from the old values *)

(** [r] is the storage of the local array [r]; [w] is the weight, 2/3 in one dimension and the
    literal 0.8 in two and three. *)
Theorem C55_celljacobi1d : forall (S : Scalar) (L : field_laws S) lo0 hi0 n offset slo0 shi0 st flo0 fhi0 f ulo0 uhi0 u r (m m' : mem S),
  fst u <> fst r -> fst r <> fst st -> fst r <> fst f ->
  (forall c, in_box [(lo0, hi0)] c -> in_box (CELL1d ulo0 uhi0 0) c) ->
  celljacobi1d lo0 hi0 n offset slo0 shi0 st flo0 fhi0 f ulo0 uhi0 u r m = Some m' ->
  relaxed m m' (mkFa offset [(0, 0); (0, n - 1)]) (mkFa st ((0, n - 1) :: CELL1d slo0 shi0 0)) n (lit 2 / lit 3)%T
    (mkFa f (CELL1d flo0 fhi0 0)) (mkFa u (CELL1d ulo0 uhi0 0)) (mkFa r (CELL1d lo0 hi0 0)) [(lo0, hi0)].
Proof. exact @celljacobi1d_relaxed. Qed.
Print Assumptions C55_celljacobi1d.

(** A solution stays. *)
Theorem C55_celljacobi1d_fixed : forall (S : Scalar) (L : field_laws S) lo0 hi0 n offset slo0 shi0 st flo0 fhi0 f ulo0 uhi0 u r (m m' : mem S),
  fst u <> fst r -> fst r <> fst st -> fst r <> fst f ->
  (forall c, in_box [(lo0, hi0)] c -> in_box (CELL1d ulo0 uhi0 0) c) ->
  celljacobi1d lo0 hi0 n offset slo0 shi0 st flo0 fhi0 f ulo0 uhi0 u r m = Some m' ->
  forall c, in_box [(lo0, hi0)] c -> solves m (mkFa offset [(0, 0); (0, n - 1)]) (mkFa st ((0, n - 1) :: CELL1d slo0 shi0 0)) n (mkFa f (CELL1d flo0 fhi0 0)) (mkFa u (CELL1d ulo0 uhi0 0)) c ->
  fel (mkFa st ((0, n - 1) :: CELL1d slo0 shi0 0)) (0 :: c) m <> Some (lit 0) -> fel (mkFa u (CELL1d ulo0 uhi0 0)) c m' = fel (mkFa u (CELL1d ulo0 uhi0 0)) c m.
Proof. exact @celljacobi1d_fixed. Qed.
Print Assumptions C55_celljacobi1d_fixed.

Theorem C55_celljacobi2d : forall (S : Scalar) (L : field_laws S) lo0 hi0 lo1 hi1 n offset slo0 shi0 slo1 shi1 st flo0 fhi0 flo1 fhi1 f ulo0 uhi0 ulo1 uhi1 u r (w : S) (m m' : mem S),
  fst u <> fst r -> fst r <> fst st -> fst r <> fst f ->
  (forall c, in_box [(lo0, hi0); (lo1, hi1)] c -> in_box (CELL2d ulo0 ulo1 uhi0 uhi1 0) c) ->
  celljacobi2d lo0 hi0 lo1 hi1 n offset slo0 shi0 slo1 shi1 st flo0 fhi0 flo1 fhi1 f ulo0 uhi0 ulo1 uhi1 u r w m = Some m' ->
  relaxed m m' (mkFa offset [(0, 1); (0, n - 1)]) (mkFa st ((0, n - 1) :: CELL2d slo0 slo1 shi0 shi1 0)) n w
    (mkFa f (CELL2d flo0 flo1 fhi0 fhi1 0)) (mkFa u (CELL2d ulo0 ulo1 uhi0 uhi1 0)) (mkFa r (CELL2d lo0 lo1 hi0 hi1 0)) [(lo0, hi0); (lo1, hi1)].
Proof. exact @celljacobi2d_relaxed. Qed.
Print Assumptions C55_celljacobi2d.

Theorem C55_celljacobi2d_fixed : forall (S : Scalar) (L : field_laws S) lo0 hi0 lo1 hi1 n offset slo0 shi0 slo1 shi1 st flo0 fhi0 flo1 fhi1 f ulo0 uhi0 ulo1 uhi1 u r (w : S) (m m' : mem S),
  fst u <> fst r -> fst r <> fst st -> fst r <> fst f ->
  (forall c, in_box [(lo0, hi0); (lo1, hi1)] c -> in_box (CELL2d ulo0 ulo1 uhi0 uhi1 0) c) ->
  celljacobi2d lo0 hi0 lo1 hi1 n offset slo0 shi0 slo1 shi1 st flo0 fhi0 flo1 fhi1 f ulo0 uhi0 ulo1 uhi1 u r w m = Some m' ->
  forall c, in_box [(lo0, hi0); (lo1, hi1)] c -> solves m (mkFa offset [(0, 1); (0, n - 1)]) (mkFa st ((0, n - 1) :: CELL2d slo0 slo1 shi0 shi1 0)) n (mkFa f (CELL2d flo0 flo1 fhi0 fhi1 0)) (mkFa u (CELL2d ulo0 ulo1 uhi0 uhi1 0)) c ->
  fel (mkFa st ((0, n - 1) :: CELL2d slo0 slo1 shi0 shi1 0)) (0 :: c) m <> Some (lit 0) -> fel (mkFa u (CELL2d ulo0 ulo1 uhi0 uhi1 0)) c m' = fel (mkFa u (CELL2d ulo0 ulo1 uhi0 uhi1 0)) c m.
Proof. exact @celljacobi2d_fixed. Qed.
Print Assumptions C55_celljacobi2d_fixed.

Theorem C55_celljacobi3d : forall (S : Scalar) (L : field_laws S) lo0 hi0 lo1 hi1 lo2 hi2 n offset slo0 shi0 slo1 shi1 slo2 shi2 st flo0 fhi0 flo1 fhi1 flo2 fhi2 f ulo0 uhi0 ulo1 uhi1 ulo2 uhi2 u r (w : S) (m m' : mem S),
  fst u <> fst r -> fst r <> fst st -> fst r <> fst f ->
  (forall c, in_box [(lo0, hi0); (lo1, hi1); (lo2, hi2)] c -> in_box (CELL3d ulo0 ulo1 ulo2 uhi0 uhi1 uhi2 0) c) ->
  celljacobi3d lo0 hi0 lo1 hi1 lo2 hi2 n offset slo0 shi0 slo1 shi1 slo2 shi2 st flo0 fhi0 flo1 fhi1 flo2 fhi2 f ulo0 uhi0 ulo1 uhi1 ulo2 uhi2 u r w m = Some m' ->
  relaxed m m' (mkFa offset [(0, 2); (0, n - 1)]) (mkFa st ((0, n - 1) :: CELL3d slo0 slo1 slo2 shi0 shi1 shi2 0)) n w
    (mkFa f (CELL3d flo0 flo1 flo2 fhi0 fhi1 fhi2 0)) (mkFa u (CELL3d ulo0 ulo1 ulo2 uhi0 uhi1 uhi2 0)) (mkFa r (CELL3d lo0 lo1 lo2 hi0 hi1 hi2 0)) [(lo0, hi0); (lo1, hi1); (lo2, hi2)].
Proof. exact @celljacobi3d_relaxed. Qed.
Print Assumptions C55_celljacobi3d.

Theorem C55_celljacobi3d_fixed : forall (S : Scalar) (L : field_laws S) lo0 hi0 lo1 hi1 lo2 hi2 n offset slo0 shi0 slo1 shi1 slo2 shi2 st flo0 fhi0 flo1 fhi1 flo2 fhi2 f ulo0 uhi0 ulo1 uhi1 ulo2 uhi2 u r (w : S) (m m' : mem S),
  fst u <> fst r -> fst r <> fst st -> fst r <> fst f ->
  (forall c, in_box [(lo0, hi0); (lo1, hi1); (lo2, hi2)] c -> in_box (CELL3d ulo0 ulo1 ulo2 uhi0 uhi1 uhi2 0) c) ->
  celljacobi3d lo0 hi0 lo1 hi1 lo2 hi2 n offset slo0 shi0 slo1 shi1 slo2 shi2 st flo0 fhi0 flo1 fhi1 flo2 fhi2 f ulo0 uhi0 ulo1 uhi1 ulo2 uhi2 u r w m = Some m' ->
  forall c, in_box [(lo0, hi0); (lo1, hi1); (lo2, hi2)] c -> solves m (mkFa offset [(0, 2); (0, n - 1)]) (mkFa st ((0, n - 1) :: CELL3d slo0 slo1 slo2 shi0 shi1 shi2 0)) n (mkFa f (CELL3d flo0 flo1 flo2 fhi0 fhi1 fhi2 0)) (mkFa u (CELL3d ulo0 ulo1 ulo2 uhi0 uhi1 uhi2 0)) c ->
  fel (mkFa st ((0, n - 1) :: CELL3d slo0 slo1 slo2 shi0 shi1 shi2 0)) (0 :: c) m <> Some (lit 0) -> fel (mkFa u (CELL3d ulo0 ulo1 ulo2 uhi0 uhi1 uhi2 0)) c m' = fel (mkFa u (CELL3d ulo0 ulo1 ulo2 uhi0 uhi1 uhi2 0)) c m.
Proof. exact @celljacobi3d_fixed. Qed.
Print Assumptions C55_celljacobi3d_fixed.

(** ** Subroutines for a fixed stencil *)

Theorem C55_cells5rbgs2d : forall (S : Scalar) lo0 hi0 lo1 hi1 color offset slo0 shi0 slo1 shi1 st flo0 fhi0 flo1 fhi1 f ulo0 uhi0 ulo1 uhi1 u (m : mem S),
  table_is m (mkFa offset [(0, 1); (0, 4)]) [[0; 0]; [-1; 0]; [1; 0]; [0; -1]; [0; 1]] ->
  cells5rbgs2d lo0 hi0 lo1 hi1 color slo0 shi0 slo1 shi1 st flo0 fhi0 flo1 fhi1 f ulo0 uhi0 ulo1 uhi1 u m =
  cellrbgs2d lo0 hi0 lo1 hi1 color 5 offset slo0 shi0 slo1 shi1 st flo0 fhi0 flo1 fhi1 f ulo0 uhi0 ulo1 uhi1 u m.
Proof. exact @cells5rbgs2d_table. Qed.
Print Assumptions C55_cells5rbgs2d.

Theorem C55_cells9rbgs2d : forall (S : Scalar) lo0 hi0 lo1 hi1 color offset slo0 shi0 slo1 shi1 st flo0 fhi0 flo1 fhi1 f ulo0 uhi0 ulo1 uhi1 u (m : mem S),
  table_is m (mkFa offset [(0, 1); (0, 8)]) [[0; 0]; [-1; 0]; [1; 0]; [0; -1]; [0; 1]; [-1; -1]; [1; -1]; [-1; 1]; [1; 1]] ->
  cells9rbgs2d lo0 hi0 lo1 hi1 color slo0 shi0 slo1 shi1 st flo0 fhi0 flo1 fhi1 f ulo0 uhi0 ulo1 uhi1 u m =
  cellrbgs2d lo0 hi0 lo1 hi1 color 9 offset slo0 shi0 slo1 shi1 st flo0 fhi0 flo1 fhi1 f ulo0 uhi0 ulo1 uhi1 u m.
Proof. exact @cells9rbgs2d_table. Qed.
Print Assumptions C55_cells9rbgs2d.

Theorem C55_cells7rbgs3d : forall (S : Scalar) lo0 hi0 lo1 hi1 lo2 hi2 color offset slo0 shi0 slo1 shi1 slo2 shi2 st flo0 fhi0 flo1 fhi1 flo2 fhi2 f ulo0 uhi0 ulo1 uhi1 ulo2 uhi2 u (m : mem S), fst u <> fst st ->
  table_is m (mkFa offset [(0, 2); (0, 6)]) [[0; 0; 0]; [-1; 0; 0]; [1; 0; 0]; [0; -1; 0]; [0; 1; 0]; [0; 0; -1]; [0; 0; 1]] ->
  cells7rbgs3d lo0 hi0 lo1 hi1 lo2 hi2 color slo0 shi0 slo1 shi1 slo2 shi2 st flo0 fhi0 flo1 fhi1 flo2 fhi2 f ulo0 uhi0 ulo1 uhi1 ulo2 uhi2 u m =
  cellrbgs3d lo0 hi0 lo1 hi1 lo2 hi2 color 7 offset slo0 shi0 slo1 shi1 slo2 shi2 st flo0 fhi0 flo1 fhi1 flo2 fhi2 f ulo0 uhi0 ulo1 uhi1 ulo2 uhi2 u m.
Proof. exact @cells7rbgs3d_table. Qed.
Print Assumptions C55_cells7rbgs3d.

(** ** Tables *)

(** A table whose offsets are at most [g] stays inside [g] layers of ghost cells; one
    whose later columns have odd sums leads to the other colour; a first column of
    zeros is the diagonal. *)
Theorem C55_stays : forall (S : Scalar) (m : mem S) tab cols g bs (visited : list Z -> Prop),
  table_is m tab cols -> Forall (fun col => length col = length bs /\ Forall (fun o => - g <= o <= g) col) cols ->
  (forall c, visited c -> in_box bs c) ->
  stays m tab 1 (Z.of_nat (length cols) - 1) (map (fun b => (fst b - g, snd b + g)) bs) visited.
Proof. exact @table_stays. Qed.
Print Assumptions C55_stays.

Theorem C55_bipartite : forall (S : Scalar) (m : mem S) tab cols bs (visited : list Z -> Prop),
  table_is m tab cols -> Forall (fun col => length col = length bs /\ Z.odd (fold_right Z.add 0 col) = true) (tl cols) ->
  (forall c, visited c -> in_box bs c) -> bipartite m tab (Z.of_nat (length cols)) visited.
Proof. exact @table_bipartite. Qed.
Print Assumptions C55_bipartite.

Theorem C55_diagonal : forall (S : Scalar) (m : mem S) tab cols c,
  table_is m tab cols -> nth_error cols 0 = Some (repeat 0 (length c)) -> displaced_cell m tab 0 0 c c.
Proof. exact @table_diagonal. Qed.
Print Assumptions C55_diagonal.

(** ** A case *)

(** The patch 0..1 in every direction with one layer of ghost cells around [u]; the three, five or
    seven entry table; all entries of the matrix 2.  The calls succeed and change [u]. *)
Definition changed (s : mem QcS -> option (mem QcS)) (m : mem QcS) : bool :=
  match s m with
  | Some m1 => negb (forallb (fun q => QArith_base.Qeq_bool (fst q) (snd q)) (combine (map this (nth 2 (cells m1) [])) (map this (nth 2 (cells m) []))))
  | None => false
  end.

Example C55_case_1d : field_laws QcS /\
  table_is (sys cols1 (lit 5) rampc) (mkFa (p 0) [(0, 0); (0, 2)]) cols1 /\
  (forall visited : list Z -> Prop, (forall c, visited c -> in_box [(0, 1)] c) ->
     (forall c, visited c -> in_box (CELL1d (-1) 2 0) c) /\
     stays (sys cols1 (lit 5) rampc) (mkFa (p 0) [(0, 0); (0, 2)]) 1 (3 - 1) (CELL1d (-1) 2 0) visited /\
     diagonal (sys cols1 (lit 5) rampc) (mkFa (p 0) [(0, 0); (0, 2)]) (mkFa (p 0) ((0, 2) :: CELL1d 0 1 0)) visited /\ bipartite (sys cols1 (lit 5) rampc) (mkFa (p 0) [(0, 0); (0, 2)]) 3 visited) /\
  changed (cellgs1d 0 1 3 (p 0) 0 1 (p 0) (-1) 2 (p 1) (-1) 2 (p 2)) (sys cols1 (lit 5) rampc) = true /\
  changed (cellrbgs1d 0 1 0 3 (p 0) 0 1 (p 0) 0 1 (p 1) (-1) 2 (p 2)) (sys cols1 (lit 5) rampc) = true /\
  changed (cellrbgs1d 0 1 1 3 (p 0) 0 1 (p 0) 0 1 (p 1) (-1) 2 (p 2)) (sys cols1 (lit 5) rampc) = true /\
  changed (celljacobi1d 0 1 3 (p 0) 0 1 (p 0) 0 1 (p 1) (-1) 2 (p 2) (p 3)) (sys cols1 (lit 5) rampc) = true.
Proof.
  assert (T : table_is (sys cols1 (lit 5) rampc) (mkFa (p 0) [(0, 0); (0, 2)]) cols1).
  { apply (sys_table cols1 (lit 5) rampc 1); [repeat constructor|vm_compute; reflexivity]. }
  split; [exact QcS_laws|]. split; [exact T|]. split; [|repeat split; vm_compute; reflexivity].
  intros visited Hv. split; [|split; [|split]].
  - intros c Hc. apply Hv in Hc. repeat match goal with H : in_box _ _ |- _ => inversion_clear H | H : Forall2 _ _ _ |- _ => inversion_clear H end.
    repeat constructor; cbn [fst snd] in *; lia.
  - apply (table_stays _ _ cols1 1 [(0, 1)] visited T); [|exact Hv].
    repeat constructor; cbn; lia.
  - intros c Hc. apply Hv in Hc. apply in_box_len in Hc. split; [|apply sys_diagonal; reflexivity].
    apply (table_diagonal _ _ cols1 c T). rewrite <- Hc. reflexivity.
  - apply (table_bipartite _ _ cols1 [(0, 1)] visited T); [|exact Hv].
    repeat constructor.
Qed.

(** A solution: the unknowns are 1. *)
Example C55_solution_1d : forall c, in_box [(0, 1)] c ->
  solves (sys cols1 (rhs 3) ones) (mkFa (p 0) [(0, 0); (0, 2)]) (mkFa (p 0) ((0, 2) :: CELL1d 0 1 0)) 3 (mkFa (p 1) (CELL1d 0 1 0)) (mkFa (p 2) (CELL1d (-1) 2 0)) c.
Proof.
  intros c Hc.
  assert (T : table_is (sys cols1 (rhs 3) ones) (mkFa (p 0) [(0, 0); (0, 2)]) cols1).
  { apply (sys_table cols1 (rhs 3) ones 1); [repeat constructor|vm_compute; reflexivity]. }
  cases_of_box Hc; (apply (sys_solves cols1 (mkFa (p 0) [(0, 0); (0, 2)]) (mkFa (p 0) ((0, 2) :: CELL1d 0 1 0)) (mkFa (p 1) (CELL1d 0 1 0)) (mkFa (p 2) (CELL1d (-1) 2 0)) _ T);
    [repeat constructor | intros s Hs; cbn in Hs; repeat (destruct Hs as [<-|Hs]; [split; reflexivity|]); destruct Hs | reflexivity]).
Qed.

Example C55_case_2d : field_laws QcS /\
  table_is (sys cols2 (lit 5) rampc) (mkFa (p 0) [(0, 1); (0, 4)]) cols2 /\
  (forall visited : list Z -> Prop, (forall c, visited c -> in_box [(0, 1); (0, 1)] c) ->
     (forall c, visited c -> in_box (CELL2d (-1) (-1) 2 2 0) c) /\
     stays (sys cols2 (lit 5) rampc) (mkFa (p 0) [(0, 1); (0, 4)]) 1 (5 - 1) (CELL2d (-1) (-1) 2 2 0) visited /\
     diagonal (sys cols2 (lit 5) rampc) (mkFa (p 0) [(0, 1); (0, 4)]) (mkFa (p 0) ((0, 4) :: CELL2d 0 0 1 1 0)) visited /\ bipartite (sys cols2 (lit 5) rampc) (mkFa (p 0) [(0, 1); (0, 4)]) 5 visited) /\
  changed (cellgs2d 0 1 0 1 5 (p 0) 0 1 0 1 (p 0) 0 1 0 1 (p 1) (-1) 2 (-1) 2 (p 2)) (sys cols2 (lit 5) rampc) = true /\
  changed (cellrbgs2d 0 1 0 1 0 5 (p 0) 0 1 0 1 (p 0) 0 1 0 1 (p 1) (-1) 2 (-1) 2 (p 2)) (sys cols2 (lit 5) rampc) = true /\
  changed (cellrbgs2d 0 1 0 1 1 5 (p 0) 0 1 0 1 (p 0) 0 1 0 1 (p 1) (-1) 2 (-1) 2 (p 2)) (sys cols2 (lit 5) rampc) = true /\
  changed (celljacobi2d 0 1 0 1 5 (p 0) 0 1 0 1 (p 0) 0 1 0 1 (p 1) (-1) 2 (-1) 2 (p 2) (p 3) (lit 4 / lit 5 : QcS)%T) (sys cols2 (lit 5) rampc) = true.
Proof.
  assert (T : table_is (sys cols2 (lit 5) rampc) (mkFa (p 0) [(0, 1); (0, 4)]) cols2).
  { apply (sys_table cols2 (lit 5) rampc 2); [repeat constructor|vm_compute; reflexivity]. }
  split; [exact QcS_laws|]. split; [exact T|]. split; [|repeat split; vm_compute; reflexivity].
  intros visited Hv. split; [|split; [|split]].
  - intros c Hc. apply Hv in Hc. repeat match goal with H : in_box _ _ |- _ => inversion_clear H | H : Forall2 _ _ _ |- _ => inversion_clear H end.
    repeat constructor; cbn [fst snd] in *; lia.
  - apply (table_stays _ _ cols2 1 [(0, 1); (0, 1)] visited T); [|exact Hv].
    repeat constructor; cbn; lia.
  - intros c Hc. apply Hv in Hc. apply in_box_len in Hc. split; [|apply sys_diagonal; reflexivity].
    apply (table_diagonal _ _ cols2 c T). rewrite <- Hc. reflexivity.
  - apply (table_bipartite _ _ cols2 [(0, 1); (0, 1)] visited T); [|exact Hv].
    repeat constructor.
Qed.

(** A solution: the unknowns are 1. *)
Example C55_solution_2d : forall c, in_box [(0, 1); (0, 1)] c ->
  solves (sys cols2 (rhs 5) ones) (mkFa (p 0) [(0, 1); (0, 4)]) (mkFa (p 0) ((0, 4) :: CELL2d 0 0 1 1 0)) 5 (mkFa (p 1) (CELL2d 0 0 1 1 0)) (mkFa (p 2) (CELL2d (-1) (-1) 2 2 0)) c.
Proof.
  intros c Hc.
  assert (T : table_is (sys cols2 (rhs 5) ones) (mkFa (p 0) [(0, 1); (0, 4)]) cols2).
  { apply (sys_table cols2 (rhs 5) ones 2); [repeat constructor|vm_compute; reflexivity]. }
  cases_of_box Hc; (apply (sys_solves cols2 (mkFa (p 0) [(0, 1); (0, 4)]) (mkFa (p 0) ((0, 4) :: CELL2d 0 0 1 1 0)) (mkFa (p 1) (CELL2d 0 0 1 1 0)) (mkFa (p 2) (CELL2d (-1) (-1) 2 2 0)) _ T);
    [repeat constructor | intros s Hs; cbn in Hs; repeat (destruct Hs as [<-|Hs]; [split; reflexivity|]); destruct Hs | reflexivity]).
Qed.

Example C55_case_3d : field_laws QcS /\
  table_is (sys cols3 (lit 5) rampc) (mkFa (p 0) [(0, 2); (0, 6)]) cols3 /\
  (forall visited : list Z -> Prop, (forall c, visited c -> in_box [(0, 1); (0, 1); (0, 1)] c) ->
     (forall c, visited c -> in_box (CELL3d (-1) (-1) (-1) 2 2 2 0) c) /\
     stays (sys cols3 (lit 5) rampc) (mkFa (p 0) [(0, 2); (0, 6)]) 1 (7 - 1) (CELL3d (-1) (-1) (-1) 2 2 2 0) visited /\
     diagonal (sys cols3 (lit 5) rampc) (mkFa (p 0) [(0, 2); (0, 6)]) (mkFa (p 0) ((0, 6) :: CELL3d 0 0 0 1 1 1 0)) visited /\ bipartite (sys cols3 (lit 5) rampc) (mkFa (p 0) [(0, 2); (0, 6)]) 7 visited) /\
  changed (cellgs3d 0 1 0 1 0 1 7 (p 0) 0 1 0 1 0 1 (p 0) 0 1 0 1 0 1 (p 1) (-1) 2 (-1) 2 (-1) 2 (p 2)) (sys cols3 (lit 5) rampc) = true /\
  changed (cellrbgs3d 0 1 0 1 0 1 0 7 (p 0) 0 1 0 1 0 1 (p 0) 0 1 0 1 0 1 (p 1) (-1) 2 (-1) 2 (-1) 2 (p 2)) (sys cols3 (lit 5) rampc) = true /\
  changed (cellrbgs3d 0 1 0 1 0 1 1 7 (p 0) 0 1 0 1 0 1 (p 0) 0 1 0 1 0 1 (p 1) (-1) 2 (-1) 2 (-1) 2 (p 2)) (sys cols3 (lit 5) rampc) = true /\
  changed (celljacobi3d 0 1 0 1 0 1 7 (p 0) 0 1 0 1 0 1 (p 0) 0 1 0 1 0 1 (p 1) (-1) 2 (-1) 2 (-1) 2 (p 2) (p 3) (lit 4 / lit 5 : QcS)%T) (sys cols3 (lit 5) rampc) = true.
Proof.
  assert (T : table_is (sys cols3 (lit 5) rampc) (mkFa (p 0) [(0, 2); (0, 6)]) cols3).
  { apply (sys_table cols3 (lit 5) rampc 3); [repeat constructor|vm_compute; reflexivity]. }
  split; [exact QcS_laws|]. split; [exact T|]. split; [|repeat split; vm_compute; reflexivity].
  intros visited Hv. split; [|split; [|split]].
  - intros c Hc. apply Hv in Hc. repeat match goal with H : in_box _ _ |- _ => inversion_clear H | H : Forall2 _ _ _ |- _ => inversion_clear H end.
    repeat constructor; cbn [fst snd] in *; lia.
  - apply (table_stays _ _ cols3 1 [(0, 1); (0, 1); (0, 1)] visited T); [|exact Hv].
    repeat constructor; cbn; lia.
  - intros c Hc. apply Hv in Hc. apply in_box_len in Hc. split; [|apply sys_diagonal; reflexivity].
    apply (table_diagonal _ _ cols3 c T). rewrite <- Hc. reflexivity.
  - apply (table_bipartite _ _ cols3 [(0, 1); (0, 1); (0, 1)] visited T); [|exact Hv].
    repeat constructor.
Qed.

(** A solution: the unknowns are 1. *)
Example C55_solution_3d : forall c, in_box [(0, 1); (0, 1); (0, 1)] c ->
  solves (sys cols3 (rhs 7) ones) (mkFa (p 0) [(0, 2); (0, 6)]) (mkFa (p 0) ((0, 6) :: CELL3d 0 0 0 1 1 1 0)) 7 (mkFa (p 1) (CELL3d 0 0 0 1 1 1 0)) (mkFa (p 2) (CELL3d (-1) (-1) (-1) 2 2 2 0)) c.
Proof.
  intros c Hc.
  assert (T : table_is (sys cols3 (rhs 7) ones) (mkFa (p 0) [(0, 2); (0, 6)]) cols3).
  { apply (sys_table cols3 (rhs 7) ones 3); [repeat constructor|vm_compute; reflexivity]. }
  cases_of_box Hc; (apply (sys_solves cols3 (mkFa (p 0) [(0, 2); (0, 6)]) (mkFa (p 0) ((0, 6) :: CELL3d 0 0 0 1 1 1 0)) (mkFa (p 1) (CELL3d 0 0 0 1 1 1 0)) (mkFa (p 2) (CELL3d (-1) (-1) (-1) 2 2 2 0)) _ T);
    [repeat constructor | intros s Hs; cbn in Hs; repeat (destruct Hs as [<-|Hs]; [split; reflexivity|]); destruct Hs | reflexivity]).
Qed.

