(** * Properties C15-C18, C24-C27 and C45: assignments, schedules, offsets,
      coarse-to-fine copies, element addresses *)

From Coq Require Import Permutation.
From Verif Require Import Base ModelBounds ModelMatrix ModelIters ModelSpan Spec SpecIter ModelSched
  SpecAssign ModelVector Instances LemExpr LemProps2 LemProps4.
Import ListNotations.
Open Scope Z_scope.

(** ** C15 *)

(** [assigned dom x f m m'] (SpecAssign): at the points of [dom] the elements of [x]
    hold the values of [f], everything else is unchanged. *)
Theorem C15_assignment : forall (S : Scalar) dom (a : @assign S) (m : mem S),
  assignable dom a -> independent dom a (ints m) ->
  (forall m', with_domain dom [a] m = Some m' ->
     assigned dom (lhs_of a) (fun pt => rhs_at a pt m) m m' /\ shape m' = shape m) /\
  (allocated m (lhs_of a) ->
   (forall pt, In pt (domain_points dom origin) -> rhs_at a pt m <> None) ->
   exists m', with_domain dom [a] m = Some m').
Proof. exact @assign_effect. Qed.
Print Assumptions C15_assignment.

(** [reads], used by [independent], covers everything the value depends on. *)
Theorem C15_reads_sound : forall (S : Scalar) (e : @expr S) pt (m m' : mem S),
  ints m = ints m' -> (forall p, In p (reads e pt (ints m)) -> load m p = load m' p) ->
  denote e pt m = denote e pt m'.
Proof. exact @reads_sound. Qed.
Print Assumptions C15_reads_sound.

(** Right-hand sides reading other allocations only are independent. *)
Theorem C15_other_allocations : forall (S : Scalar) dom x (e : @expr S) I,
  avoids (fst (sp_ptr x)) e -> independent dom (AExpr x e) I.
Proof. exact @avoids_independent. Qed.
Print Assumptions C15_other_allocations.

(** with_lhs_domain: the domain is the left-hand side's own bounds, all of them. *)
Theorem C15_with_lhs_domain : forall (S : Scalar) x (e : @expr S) (m m' : mem S),
  wf_span x -> sp_b x <> [] -> Forall (fun b => b_lb (snd b) <= b_ub (snd b) + 1) (sp_b x) ->
  wf_expr e (sp_b x) -> independent (sp_b x) (AExpr x e) (ints m) ->
  with_lhs_domain (AExpr x e) m = Some m' ->
  assigned (sp_b x) x (fun pt => rhs_at (AExpr x e) pt m) m m' /\
  forall pt, in_bounds (sp_b x) pt ->
    exists q, In q (domain_points (sp_b x) origin) /\ forall d, In d (sp_order x) -> q d = pt d.
Proof. exact @lhs_domain_effect. Qed.
Print Assumptions C15_with_lhs_domain.

Definition ex_assign : @assign ZS := AExpr ex_f (ENumL OMul (3 : ZS) (grad ex_u dI (5 : ZS) down)).

Example C15_example : assignable ex_dom ex_assign /\ avoids (fst (sp_ptr ex_f)) (grad ex_u dI (5 : ZS) down) /\
  (m' <- with_domain ex_dom [ex_assign] (mkMem (S := ZS) [repeat 4 210; repeat 2 75] []) ;;
   load m' (addr ex_f (fun d => nth d [0; 1; 3] 0))) = Some 0.
Proof.
  split; [|split; [discriminate|vm_compute; reflexivity]].
  split; [exact ex_dom_wf|]. split; [|exact ex_within_f]. split; [exact ex_f_wf|]. split; [exact ex_dom_f|].
  split; [exact ex_u_wf|]. split; [exact ex_dom_u|]. split; [right; reflexivity|].
  exists (Bnd 0 4). split; [simpl; tauto|reflexivity].
Qed.

(** ** C16 *)

Theorem C16_fill : forall (S : Scalar) dom x (t : S) (m : mem S),
  assignable dom (ANum x t) -> allocated m x ->
  exists m', with_domain dom [ANum x t] m = Some m' /\
    assigned dom x (fun _ => Some t) m m' /\ shape m' = shape m.
Proof. exact @fill_effect. Qed.
Print Assumptions C16_fill.

Example C16_example : assignable ex_dom (ANum ex_u (7 : ZS)) /\
  allocated (mkMem (S := ZS) [repeat 0 210] []) ex_u /\ cells_of (sp_b ex_u) = 210.
Proof.
  split; [|split; [|reflexivity]].
  - split; [exact ex_dom_wf|]. split; [|exact ex_within_u]. split; [exact ex_u_wf|]. split; [exact ex_dom_u|exact I].
  - eexists. split; [reflexivity|]. vm_compute. split; discriminate.
Qed.

(** ** C17 *)

(** [launch]: the thread programs obtained by advancing the iterators to each
    element.  Every complete schedule of their memory accesses yields the memory of
    the sequential loop, no schedule goes wrong if that is defined, and a complete
    schedule exists. *)
Theorem C17_every_schedule : forall (S : Scalar) dom (a : @assign S) (m : mem S),
  assignable dom a -> independent dom a (ints m) ->
  exists ts, launch dom a (ints m) = Some ts /\
    length ts = length (domain_points dom origin) /\
    (forall sch ts' m', run_schedule sch (ts, m) = Some (ts', m') -> all_done ts' ->
       with_domain dom [a] m = Some m') /\
    (forall sch, with_domain dom [a] m <> None -> run_schedule sch (ts, m) <> None) /\
    (forall m', with_domain dom [a] m = Some m' ->
       exists sch ts', run_schedule sch (ts, m) = Some (ts', m') /\ all_done ts').
Proof. exact @launch_schedule. Qed.
Print Assumptions C17_every_schedule.

(** The elements processed one at a time, in any order, by advanced iterators. *)
Theorem C17_any_order : forall (S : Scalar) dom (a : @assign S) (ks : Z -> list Z) (m : mem S),
  assignable dom a -> independent dom a (ints m) ->
  (forall n, Permutation (ks n) (map Z.of_nat (seq 0 (Z.to_nat n)))) ->
  exec_assign_ra ks dom a m = with_domain dom [a] m.
Proof. exact @random_access. Qed.
Print Assumptions C17_any_order.

Example C17_example : assignable ex_dom ex_assign /\ independent ex_dom ex_assign [] /\
  (forall n, Permutation (rev (map Z.of_nat (seq 0 (Z.to_nat n)))) (map Z.of_nat (seq 0 (Z.to_nat n)))).
Proof.
  split; [exact (proj1 C15_example)|]. split.
  - apply C15_other_allocations. exact (proj1 (proj2 C15_example)).
  - intros n. apply Permutation_sym, Permutation_rev.
Qed.

(** ** C18 *)

Theorem C18_ghost_updates_independent : forall (S : Scalar) u dom (e : @expr S) I,
  assignable dom (AExpr u e) -> ghost_update u dom (fun _ => 0) e -> independent dom (AExpr u e) I.
Proof. exact @ghost_independent. Qed.
Print Assumptions C18_ghost_updates_independent.

(** The ghost layer K = -1 set from the two layers inside. *)
Definition ex_ghost : list dbnd := [Kb (-1) (-1); Jb 0 3; Ib 0 4].
Definition ex_ghost_rhs : @expr ZS :=
  EBin OSub (ENumL OMul (2 : ZS) (shift ex_u dK 1)) (shift ex_u dK 2).

Example C18_example : assignable ex_ghost (AExpr ex_u ex_ghost_rhs) /\
  ghost_update ex_u ex_ghost (fun _ => 0) ex_ghost_rhs.
Proof.
  split.
  - split; [ex_dom|]. split; [|ex_within]. split; [exact ex_u_wf|]. split; [apply Permutation_refl|].
    split; (split; [exact ex_u_wf|apply Permutation_refl]).
  - split; right; right; (split; [reflexivity|]); (split; [exists dK, (Bnd (-1) (-1)); simpl; split; [tauto|split; [reflexivity|discriminate]]|]);
      intros pt Hpt; simpl in Hpt;
      repeat (destruct Hpt as [<-|Hpt]; [repeat constructor; vm_compute; discriminate|]); destruct Hpt.
Qed.

(** An overlapping in-place assignment: u = u.shift_x(-1) over a row; two schedules
    give different results. *)
Theorem C18_overlap_schedule_dependent_refuted :
  exists (u : span) dom (m : mem ZS) ts sch1 sch2 ts1 ts2 m1 m2,
    assignable dom (AExpr u (@shift ZS u dI (-1))) /\
    launch dom (AExpr u (shift u dI (-1))) (ints m) = Some ts /\
    run_schedule sch1 (ts, m) = Some (ts1, m1) /\ all_done ts1 /\
    run_schedule sch2 (ts, m) = Some (ts2, m2) /\ all_done ts2 /\ m1 <> m2.
Proof.
  exists (make_md_span (0%nat, 0) [Ib 0 2]), [Ib 1 2], (mkMem (S := ZS) [[1; 2; 3]] []).
  exists [TRead (0%nat, 0) (fun x => TWrite (0%nat, 1) x TDone);
          TRead (0%nat, 1) (fun x => TWrite (0%nat, 2) x TDone)].
  exists [0; 0; 1; 1]%nat, [1; 1; 0; 0]%nat, [TDone; TDone], [TDone; TDone].
  exists (mkMem (S := ZS) [[1; 1; 1]] []), (mkMem (S := ZS) [[1; 1; 2]] []).
  split; [|split; [vm_compute; reflexivity|]].
  - split; [ex_dom|]. split; [|ex_within]. split; [ex_span|]. split; [apply Permutation_refl|].
    split; [ex_span|apply Permutation_refl].
  - split; [reflexivity|]. split; [repeat constructor|]. split; [reflexivity|]. split; [repeat constructor|].
    discriminate.
Qed.
Print Assumptions C18_overlap_schedule_dependent_refuted.

(** ** C24 *)

(** After any moves with net displacement [i], the offset iterator reads the base
    displaced by row [i] of the table. *)
Theorem C24_offset_iterator : forall (S : Scalar) it st o l (off : nat -> Z) i (m : mem S),
  net 0 l = i ->
  (forall j, (j < length st)%nat ->
     loadi m (padd o (i * Z.of_nat (length st) + Z.of_nat j)) = Some (off j)) ->
  offi_deref (fold_left (fun f v => offi_move f (move_by v)) l (make_offset_iterator it st o)) m =
  load m (padd it (sumZ (map (fun j => aget st j * off j) (seq 0 (length st))))).
Proof. exact @offi_moves_deref. Qed.
Print Assumptions C24_offset_iterator.

(** st.dot(u.offset(o)): the k-th element is the sum over i of st(point, i) times
    u(point + offset_i); [off_point] moves x by off i 0, y by off i 1, z by off i 2. *)
Theorem C24_dot : forall (S : Scalar) st u o dom n c x (off : nat -> nat -> Z) (m : mem S) hd w wb it k pt,
  wf_dom dom -> wf_expr (@EDot S st u o) dom ->
  sp_b st = hd ++ [(w, wb)] -> length hd = length (sp_b u) -> extent wb = Z.of_nat n ->
  nth_error (domain_points dom origin) k = Some pt ->
  (forall i, (i < n)%nat -> load m (addr st (pset pt w (b_lb wb + Z.of_nat i))) = Some (c i)) ->
  (forall i j, (i < n)%nat -> (j < length (sp_b u))%nat ->
     loadi m (padd o (Z.of_nat i * Z.of_nat (length (sp_b u)) + Z.of_nat j)) = Some (off i j)) ->
  (forall i, (i < n)%nat -> load m (addr u (off_point pt (length (sp_b u)) (off i))) = Some (x i)) ->
  eval (EDot st u o) dom = Some it ->
  exists it', steps k it = Some it' /\
    it_deref it' m = Some (VNum (fold_left (fun r i => r + c i * x i)%T (seq 0 n) (lit 0))).
Proof. exact @dot_elements. Qed.
Print Assumptions C24_dot.

Example C24_example : wf_dom ex_dom /\ wf_expr (@EDot ZS ex_st ex_u (0%nat, 0)) ex_dom /\
  sp_b ex_st = ex_dom ++ [(dW, Bnd 0 6)] /\
  off_point origin 3 (fun j => nth j [1; -1; 0] 0) dI = 1 /\
  off_point origin 3 (fun j => nth j [1; -1; 0] 0) dJ = -1.
Proof.
  split; [exact ex_dom_wf|]. split; [|split; [reflexivity|split; reflexivity]].
  split; [exact ex_u_wf|]. split; [exact ex_st_wf|]. split; [exact ex_dom_u|]. split; [reflexivity|].
  split; [ex_forall|]. exists ex_dom, dW, (Bnd 0 6). split; [reflexivity|apply Permutation_refl].
Qed.

(** ** C25 *)

Theorem C25_coarse_index_floor : forall r f, 1 <= r ->
  exists c, coarse_index r f = Some c /\ c * r <= f < (c + 1) * r /\
    forall c', c' * r <= f < (c' + 1) * r -> c' = c.
Proof. exact coarse_index_unique. Qed.
Print Assumptions C25_coarse_index_floor.

Example C25_example : coarse_index 4 (-5) = Some (-2) /\ coarse_index 4 (-8) = Some (-2) /\ coarse_index 4 7 = Some 1.
Proof. repeat split. Qed.

(** ** C26 *)

Theorem C26_coarse_to_fine : forall (S : Scalar) dom f c r cb (m m' : mem S),
  assignable dom (AExpr f (@EFine S c r cb)) -> fst (sp_ptr c) <> fst (sp_ptr f) ->
  with_domain dom [AExpr f (EFine c r cb)] m = Some m' ->
  assigned dom f (fun pt => load m (addr c (coarse_point r cb pt))) m m'.
Proof. exact @fine_assign. Qed.
Print Assumptions C26_coarse_to_fine.

Definition ex_coarse : span := make_md_span (3%nat, 0) [Kb (-1) 2; Jb (-1) 2; Ib (-2) 2].

Example C26_example :
  assignable [Ib (-3) 5; Jb 2 2; Kb 4 4]
    (AExpr (make_md_span (0%nat, 0) [Kb (-4) 8; Jb (-4) 8; Ib (-4) 8]) (@EFine ZS ex_coarse 2 [Jb 1 1; Kb 2 2])) /\
  coarse_point 2 [Jb 1 1; Kb 2 2] (fun _ => -3) dI = -2.
Proof.
  split; [|reflexivity].
  split; [ex_dom|]. split; [|ex_within]. split; [ex_span|]. split; [ex_perm|].
  split; [ex_span|]. split; [lia|]. split; [ex_nodup|]. split; [ex_perm|].
  exists dI, (Bnd (-3) 5). split; [left; reflexivity|]. split; [reflexivity|]. split; [apply Permutation_refl|].
  constructor; [left; reflexivity|]. constructor; [right; reflexivity|]. constructor; [right; reflexivity|].
  constructor.
Qed.

(** ** C27 *)

(** at(): the address written by an assignment at that point. *)
Theorem C27_at : forall s pt, wf_span s -> sp_b s <> [] ->
  span_at s (map pt (sp_order s)) = Some (addr s pt).
Proof. exact span_at_addr. Qed.
Print Assumptions C27_at.

(** index(): the same linear position for a vector with the same bounds. *)
Theorem C27_index : forall A (v : mdvec A) s pt,
  v_b v = sp_b s -> v_b v <> [] -> wf_span s ->
  exists o, vec_index v (map pt (sp_order s)) = Some o /\ addr s pt = padd (sp_ptr s) o.
Proof. exact @index_addr. Qed.
Print Assumptions C27_index.

Theorem C27_one_to_one : forall s p q, in_bounds (sp_b s) p -> in_bounds (sp_b s) q ->
  (exists o, addr s p = padd (sp_ptr s) o /\ 0 <= o < cells_of (sp_b s)) /\
  (addr s p = addr s q -> forall d, In d (sp_order s) -> p d = q d).
Proof. exact addr_one_to_one. Qed.
Print Assumptions C27_one_to_one.

(** The vector made for these bounds has exactly that many elements. *)
Theorem C27_vector_size : forall A (a0 : A) bnds v,
  Forall (fun b => stride (snd b) = 1 /\ b_lb (snd b) <= b_ub (snd b) + 1) bnds -> mdvec_make a0 bnds = Some v ->
  vec_size v = cells_of bnds /\ v_b v = bnds /\ Z.of_nat (length (v_d v)) = cells_of bnds.
Proof. exact @vec_make_size. Qed.
Print Assumptions C27_vector_size.

Example C27_example : wf_span ex_f /\ sp_b ex_f <> [] /\ in_bounds (sp_b ex_f) (fun _ => 2) /\
  (exists v, mdvec_make 0 (sp_b ex_f) = Some v /\ vec_index v [2; 2; 2] = Some 42) /\
  span_at ex_f [2; 2; 2] = Some (1%nat, 42).
Proof.
  split; [exact ex_f_wf|]. split; [discriminate|]. split; [ex_forall|].
  split; [eexists; split; reflexivity|reflexivity].
Qed.

(** ** C45 *)

Theorem C45_offset_tables : forall A t n dims i j (a0 : A) v,
  make_offset_vec a0 n dims = Some v ->
  span_at (make_offset_span t n dims) [i + 1; j + 1] = Some (padd t (i * dims + j)) /\
  span_at (make_offset_span_const t n dims) [i; j] = Some (padd t (i * dims + j)) /\
  vec_index v [i; j] = Some (i * dims + j).
Proof. exact @offset_tables. Qed.
Print Assumptions C45_offset_tables.

(** set_offset(n, ...) writes row [n] of that table and nothing else. *)
Theorem C45_set_offset : forall A (v : mdvec A) n idx j x,
  (n * length idx + length idx <= length (v_h v))%nat -> nth_error idx j = Some x ->
  nth_error (v_d (vec_set_offset n idx v)) (n * length idx + j) = Some x /\
  nth_error (v_h (vec_set_offset n idx v)) (n * length idx + j) = Some x /\
  forall k, (k < n * length idx \/ n * length idx + length idx <= k)%nat ->
    nth_error (v_h (vec_set_offset n idx v)) k = nth_error (v_h v) k.
Proof. exact @set_offset_layout. Qed.
Print Assumptions C45_set_offset.

Example C45_example : exists v, make_offset_vec 0 7 3 = Some v /\ (2 * 3 + 3 <= length (v_h v))%nat /\
  v_h (vec_set_offset 2 [1; 0; -1] v) =
    [0; 0; 0; 0; 0; 0; 1; 0; -1; 0; 0; 0; 0; 0; 0; 0; 0; 0; 0; 0; 0].
Proof. eexists. split; [reflexivity|]. split; [vm_compute; lia|reflexivity]. Qed.
