(** * Properties C11-C14 and C19: the values of lazy expressions *)

From Coq Require Import Permutation.
From Verif Require Import Base ModelBounds ModelMatrix ModelIters ModelSpan Spec SpecIter Instances
  LemProps LemProps2 LemProps4.
Import ListNotations.
Open Scope Z_scope.

(** ** C11 *)

Theorem C11_gradients : forall (S : Scalar) s d (h : S) dom,
  wf_dom dom -> wf_span s -> Permutation (map fst dom) (sp_order s) ->
  (exists b, In (d, b) dom /\ stride b = 1) ->
  evaluates (grad s d h up) dom
    (fun pt m => x0 <- load m (addr s pt) ;; x1 <- load m (addr s (pmove pt d 1)) ;;
                 Some (VNum ((x1 - x0) / h)%T)) /\
  evaluates (grad s d h down) dom
    (fun pt m => x0 <- load m (addr s (pmove pt d (-1))) ;; x1 <- load m (addr s pt) ;;
                 Some (VNum ((x1 - x0) / h)%T)).
Proof. exact @gradients. Qed.
Print Assumptions C11_gradients.

(** A face array stored I, K, J differenced in y over K, J, I loops. *)
Example C11_example : wf_dom ex_dom /\ wf_span ex_f /\ Permutation (map fst ex_dom) (sp_order ex_f) /\
  (exists b, In (dJ, b) ex_dom /\ stride b = 1).
Proof.
  split; [exact ex_dom_wf|]. split; [exact ex_f_wf|]. split; [exact ex_dom_f|].
  exists (Bnd 0 3). split; [right; left; reflexivity|reflexivity].
Qed.

(** ** C12 *)

Theorem C12_stencil_pairs : forall (S : Scalar) s d dom,
  wf_dom dom -> wf_span s -> Permutation (map fst dom) (sp_order s) ->
  (exists b, In (d, b) dom /\ stride b = 1) ->
  evaluates (@EStencil S up s d) dom
    (fun pt m => x0 <- load m (addr s pt) ;; x1 <- load m (addr s (pmove pt d 1)) ;; Some (VSt x0 x1)) /\
  evaluates (@EStencil S down s d) dom
    (fun pt m => x0 <- load m (addr s (pmove pt d (-1))) ;; x1 <- load m (addr s pt) ;; Some (VSt x0 x1)).
Proof. exact @stencil_pairs. Qed.
Print Assumptions C12_stencil_pairs.

Theorem C12_scalar_arithmetic : forall (S : Scalar) s d (t : S) o dom,
  wf_dom dom -> wf_span s -> Permutation (map fst dom) (sp_order s) ->
  (exists b, In (d, b) dom /\ stride b = 1) -> o <> OGrad ->
  evaluates (ENumL o t (EStencil up s d)) dom
    (fun pt m => x0 <- load m (addr s pt) ;; x1 <- load m (addr s (pmove pt d 1)) ;;
                 y0 <- num_op o t x0 ;; y1 <- num_op o t x1 ;; Some (VSt y0 y1)) /\
  evaluates (ENumR o (EStencil up s d) t) dom
    (fun pt m => x0 <- load m (addr s pt) ;; x1 <- load m (addr s (pmove pt d 1)) ;;
                 y0 <- num_op o x0 t ;; y1 <- num_op o x1 t ;; Some (VSt y0 y1)).
Proof. exact @stencil_scaled. Qed.
Print Assumptions C12_scalar_arithmetic.

Example C12_example : wf_span ex_u /\ Permutation (map fst ex_dom) (sp_order ex_u) /\
  (exists b, In (dK, b) ex_dom /\ stride b = 1) /\ OMul <> OGrad.
Proof.
  split; [exact ex_u_wf|]. split; [exact ex_dom_u|]. split; [|discriminate].
  exists (Bnd 0 2). split; [left; reflexivity|reflexivity].
Qed.

(** ** C13 *)

Theorem C13_shift_moves_point : forall (S : Scalar) (e : @expr S) d z dom,
  wf_dom dom -> wf_expr e (shift_dom d z dom) ->
  evaluates (EShift d z e) dom (fun pt m => denote e (pmove pt d z) m).
Proof. exact @shifted. Qed.
Print Assumptions C13_shift_moves_point.

Theorem C13_corner_shifts : forall (S : Scalar) (s : span) a b dom,
  wf_dom dom -> wf_span s -> Permutation (map fst dom) (sp_order s) ->
  evaluates (@shift_xy S s a b) dom
    (fun pt m => x <- load m (addr s (pmove (pmove pt dI a) dJ b)) ;; Some (VNum x)) /\
  evaluates (@shift_xz S s a b) dom
    (fun pt m => x <- load m (addr s (pmove (pmove pt dI a) dK b)) ;; Some (VNum x)) /\
  evaluates (@shift_yz S s a b) dom
    (fun pt m => x <- load m (addr s (pmove (pmove pt dJ a) dK b)) ;; Some (VNum x)).
Proof. exact @corner_shifts. Qed.
Print Assumptions C13_corner_shifts.

(** The shifted expressions produce the very same iterator. *)
Theorem C13_shifts_add : forall (S : Scalar) d a b (e : @expr S) dom,
  eval (EShift d a (EShift d b e)) dom = eval (EShift d (a + b) e) dom.
Proof. exact @shift_add. Qed.
Print Assumptions C13_shifts_add.

Theorem C13_shifts_commute : forall (S : Scalar) d d' a b (e : @expr S) dom,
  eval (EShift d a (EShift d' b e)) dom = eval (EShift d' b (EShift d a e)) dom.
Proof. exact @shift_comm. Qed.
Print Assumptions C13_shifts_commute.

Theorem C13_shift_zero : forall (S : Scalar) d (e : @expr S) dom, eval (EShift d 0 e) dom = eval e dom.
Proof. exact @shift_zero. Qed.
Print Assumptions C13_shift_zero.

Example C13_example : wf_expr (EShift dJ (-1) (grad ex_u dI (7 : ZS) down)) (shift_dom dI 2 ex_dom).
Proof.
  split; [exact ex_u_wf|]. split; [apply Permutation_refl|]. split; [right; reflexivity|].
  exists (b_shift (b_shift (Bnd 0 4) 2) 0). split; [right; right; left; reflexivity|reflexivity].
Qed.

(** ** C14 *)

(** [denote] (in Spec) is the written arithmetic over the operands' values at the
    index point. *)
Theorem C14_pointwise : forall (S : Scalar) (e : @expr S) dom,
  wf_dom dom -> wf_expr e dom -> evaluates e dom (denote e).
Proof. exact @eval_evaluates. Qed.
Print Assumptions C14_pointwise.

Definition ex_expr : @expr ZS :=
  EBin OSub (ENumL OMul (3 : ZS) (EBin OAdd (grad ex_f dJ (2 : ZS) up) (grad ex_u dI (5 : ZS) down)))
            (ENumR ODiv (EBin OMul (ESpan ex_u) (shift_xy ex_u 1 (-1))) (4 : ZS)).

Example C14_example : wf_dom ex_dom /\ wf_expr ex_expr ex_dom.
Proof.
  split; [exact ex_dom_wf|]. unfold ex_expr; cbn -[wf_span ex_u ex_f ex_dom shift_dom].
  repeat match goal with
         | |- _ /\ _ => split
         | |- wf_span ex_u => exact ex_u_wf
         | |- wf_span ex_f => exact ex_f_wf
         | |- Permutation (map fst ex_dom) (sp_order ex_f) => exact ex_dom_f
         | |- Permutation _ (sp_order ex_u) => apply Permutation_refl
         | |- _ \/ _ => first [left; reflexivity | right; reflexivity]
         | |- exists b, In (dJ, b) _ /\ _ => exists (Bnd 0 3)
         | |- exists b, In (dI, b) _ /\ _ => exists (Bnd 0 4)
         | |- In _ _ => simpl; tauto
         | |- _ = _ => reflexivity
         end.
Qed.

(** ** C19 *)

Theorem C19_jumps_equal_steps : forall (S : Scalar) (e : @expr S) dom it,
  wf_dom dom -> wf_expr e dom -> eval e dom = Some it ->
  forall n k, (n + k < length (domain_points dom origin))%nat ->
    exists it1 it2, steps n it = Some it1 /\ steps (n + k) it = Some it2 /\
      it_adv it1 (Z.of_nat k) = Some it2.
Proof. exact @eval_jumps. Qed.
Print Assumptions C19_jumps_equal_steps.

Theorem C19_distance : forall (S : Scalar) (e : @expr S) dom it,
  wf_dom dom -> wf_expr e dom -> eval e dom = Some it ->
  forall n k, (n <= length (domain_points dom origin))%nat -> (k <= length (domain_points dom origin))%nat ->
    (0 < length (domain_points dom origin))%nat ->
    exists it1 it2, steps n it = Some it1 /\ steps k it = Some it2 /\
      it_dist it1 it2 = Some (Z.of_nat k - Z.of_nat n).
Proof. exact @eval_distance. Qed.
Print Assumptions C19_distance.

Theorem C19_decrement_undoes_increment : forall (S : Scalar) (e : @expr S) dom it,
  wf_dom dom -> wf_expr e dom -> eval e dom = Some it ->
  forall n, (n < length (domain_points dom origin))%nat ->
    exists it1 it2, steps n it = Some it1 /\ it_inc it1 = Some it2 /\ it_dec it2 = Some it1.
Proof. exact @eval_dec. Qed.
Print Assumptions C19_decrement_undoes_increment.

Example C19_example : (exists it, eval ex_expr ex_dom = Some it) /\
  length (domain_points ex_dom origin) = 60%nat.
Proof. split; [|reflexivity]. eexists. vm_compute. reflexivity. Qed.
