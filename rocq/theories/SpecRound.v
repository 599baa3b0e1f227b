(** * Rounded arithmetic

    The rationals with a rounding after every operation, and an arithmetic of error
    bounds. *)

From Coq Require Import QArith Qcanon Qcabs Qround Qpower.
From Verif Require Import Base Instances SpecRel.
Import ListNotations.
Open Scope Qc_scope.

(** The standard model of floating-point arithmetic: the rounded result has a
    relative error of at most [eps].  There is no overflow and no underflow. *)
Definition std_model (rnd : Qc -> Qc) (eps : Qc) : Prop :=
  0 <= eps /\ eps < 1 /\ forall x, Qcabs (rnd x - x) <= eps * Qcabs x.

(** Every [+], [-], [*] and [/] is followed by a rounding; negation and the small
    integer literals are exact. *)
Definition rounded (rnd : Qc -> Qc) : Scalar :=
  mkScalar Qc (fun x y => rnd (x + y)) (fun x y => rnd (x - y)) (fun x y => rnd (x * y))
           (fun x y => rnd (x / y)) Qcopp (fun z => Q2Qc (inject_Z z)).

(** The same numbers as elements of the rounded and of the exact arithmetic. *)
Definition exact_mem {rnd} (m : mem (rounded rnd)) : mem QcS := mkMem (S := QcS) (cells m) (ints m).

(** ** Error bounds

    [mkBnd P N k] stands for the number P - N, where P is the sum of the positive
    terms of its formula and - N the sum of the negative ones, after at most [k]
    roundings along any path of the formula.  [None]: no bound is claimed. *)
Record bnd := mkBnd { b_pos : Qc; b_neg : Qc; b_rnd : nat }.

Definition b_val (b : bnd) : Qc := b_pos b - b_neg b.
Definition b_mag (b : bnd) : Qc := b_pos b + b_neg b.

(** A number known exactly, and one known up to [k] roundings of its value. *)
Definition leaf_k (k : nat) (x : Qc) : bnd :=
  if Qclt_le_dec x 0 then mkBnd 0 (- x) k else mkBnd x 0 k.
Definition leaf (x : Qc) : option bnd := Some (leaf_k 0 x).

(** The relative error of [k] roundings. *)
Definition gamma (eps : Qc) (k : nat) : Qc := / ((1 - eps) ^ k) - 1.

(** The claimed error: |computed - exact| <= ((1 - eps)^(-k) - 1) (P + N). *)
Definition err (eps : Qc) (b : bnd) : Qc := gamma eps (b_rnd b) * b_mag b.

(** The sum of two numbers known exactly is rounded once. *)
Definition bnd_add (a b : bnd) : option bnd :=
  Some (match b_rnd a, b_rnd b with
        | O, O => leaf_k 1 (b_val a + b_val b)
        | k, l => mkBnd (b_pos a + b_pos b) (b_neg a + b_neg b) (S (Nat.max k l))
        end).

Definition bnd_neg (a : bnd) : option bnd := Some (mkBnd (b_neg a) (b_pos a) (b_rnd a)).

Definition bnd_sub (a b : bnd) : option bnd := bnd_add a (mkBnd (b_neg b) (b_pos b) (b_rnd b)).

Definition bnd_mul (a b : bnd) : option bnd :=
  Some (mkBnd (b_pos a * b_pos b + b_neg a * b_neg b) (b_pos a * b_neg b + b_neg a * b_pos b)
              (S (b_rnd a + b_rnd b))).

(** A denominator must have terms of one sign only. *)
Definition bnd_div (a b : bnd) : option bnd :=
  if Qc_eq_dec (b_neg b) 0 then
    if Qc_eq_dec (b_pos b) 0 then None
    else Some (mkBnd (b_pos a / b_pos b) (b_neg a / b_pos b) (S (b_rnd a + b_rnd b)))
  else if Qc_eq_dec (b_pos b) 0 then Some (mkBnd (b_neg a / b_neg b) (b_pos a / b_neg b) (S (b_rnd a + b_rnd b)))
  else None.

Definition on2 (f : bnd -> bnd -> option bnd) (x y : option bnd) : option bnd :=
  a <- x ;; b <- y ;; f a b.

(** Running a program in this arithmetic computes an error bound for every
    element. *)
Definition BndS : Scalar :=
  mkScalar (option bnd) (on2 bnd_add) (on2 bnd_sub) (on2 bnd_mul) (on2 bnd_div)
           (fun x => a <- x ;; bnd_neg a) (fun z => leaf (Q2Qc (inject_Z z))).

Definition bnd_mem {rnd} (m : mem (rounded rnd)) : mem BndS := mkMem (S := BndS) (map (map leaf) (cells m)) (ints m).

(** The bound [K] computes for the element at [q]. *)
Definition bound (K : prog) {rnd} (p : Z -> Qc) (m : mem (rounded rnd)) (q : ptr) (b : bnd) : Prop :=
  exists mb, K BndS (fun d => leaf (p d)) (bnd_mem m) = Some mb /\ load mb q = Some (Some b).

(** Both computations fail, or both complete with arrays of the same lengths and the
    same integers, and [P] holds of any two corresponding elements. *)
Definition elementwise {S T : Scalar} (P : ptr -> S -> T -> Prop) (o : option (mem S)) (o' : option (mem T)) : Prop :=
  match o, o' with
  | Some m, Some m' => shape m = shape m' /\ ints m = ints m' /\
      forall q x y, load m q = Some x -> load m' q = Some y -> P q x y
  | None, None => True
  | _, _ => False
  end.

(** The rounded results are the exact ones up to the bounds. *)
Definition accurate (K : prog) : Prop :=
  forall rnd eps, std_model rnd eps -> forall (p : Z -> Qc) (m : mem (rounded rnd)),
  elementwise (fun q (x : rounded rnd) (y : QcS) => forall b, bound K p m q b -> Qcabs ((x : Qc) - y) <= err eps b)
    (K (rounded rnd) p m) (K QcS p (exact_mem m)).

(** The rounded results of two programs differ by at most the sum of the bounds. *)
Definition agree_rounded (K F : prog) : Prop :=
  forall rnd eps, std_model rnd eps -> forall (p : Z -> Qc) (m : mem (rounded rnd)),
  (forall d, (0 <= d <= 2)%Z -> p d <> 0) ->
  elementwise (fun q (x y : rounded rnd) => forall b b', bound K p m q b -> bound F p m q b' -> Qcabs ((x : Qc) - y) <= err eps b + err eps b')
    (K (rounded rnd) p m) (F (rounded rnd) p m).

(** The values of the elements and of the scalar parameters do not influence whether
    the program completes, nor which elements it may touch: run on any other values
    of any other type, it completes as well and leaves arrays of the same lengths. *)
Definition oblivious (K : prog) : Prop :=
  forall (S T : Scalar) p p' (m : mem S) (m' : mem T), shape m = shape m' -> ints m = ints m' ->
  elementwise (fun _ _ _ => True) (K S p m) (K T p' m').

(** ** Rounding to [p] significant bits

    To nearest, ties to even, without bounds on the exponent. *)

Definition pow2 (e : Z) : Qc := Q2Qc (Qpower 2 e).

Definition half : Qc := Q2Qc (Qmake 1 2).

(** The integer nearest to [y]. *)
Definition nearest (y : Qc) : Z :=
  let n := Qfloor y in
  let r := y - Q2Qc (inject_Z n) in
  if Qclt_le_dec r half then n
  else if Qclt_le_dec half r then (n + 1)%Z
  else if Z.even n then n else (n + 1)%Z.

(** The exponent of the last place of [x] <> 0: 2^(p-1) <= |x| / 2^e < 2^p. *)
Definition last_place (p : Z) (x : Qc) : Z :=
  let e := (Z.log2 (Z.abs (Qnum x)) - Z.log2 (Zpos (Qden x)) - p)%Z in
  if Qclt_le_dec (Qcabs x / pow2 e) (pow2 p) then e else (e + 1)%Z.

Definition round_bits (p : Z) (x : Qc) : Qc :=
  if Qc_eq_dec x 0 then 0
  else let e := last_place p x in Q2Qc (inject_Z (nearest (x / pow2 e))) * pow2 e.

(** The precision of [double]. *)
Definition round53 : Qc -> Qc := round_bits 53.
Definition DoubleS : Scalar := rounded round53.
