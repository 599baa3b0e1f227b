(** * Properties C01-C10: bounds, linear indices, traversals, windows

    Each theorem is closed by a lemma proved elsewhere.  The vocabulary is that
    of Spec and SpecIter. *)

From Coq Require Import Permutation.
From Verif Require Import Base ModelBounds ModelMatrix ModelIters ModelSpan Spec SpecIter Instances
  LemProps LemProps2 LemProps4 LemAssign.
Import ListNotations.
Open Scope Z_scope.

(** ** C01 *)

Theorem C01_interval : forall f l,
  b_lb (Bnd f l) = f /\ b_ub (Bnd f l) = l /\ b_size (Bnd f l) = Some (l - f + 1) /\
  forall i, In i (loop_values (Bnd f l)) <-> f <= i <= l.
Proof. exact bounds_denote. Qed.
Print Assumptions C01_interval.

Theorem C01_arithmetic : forall f l x i,
  (In i (loop_values (db_plus (Bnd f l) x)) <-> (if 0 <=? x then f <= i <= l + x else f + x <= i <= l)) /\
  (In i (loop_values (db_minus (Bnd f l) x)) <-> f - x <= i <= l) /\
  (In i (loop_values (b_expand (Bnd f l) x)) <-> f - x <= i <= l + x) /\
  (In i (loop_values (b_shift (Bnd f l) x)) <-> f + x <= i <= l + x).
Proof. exact bounds_arith. Qed.
Print Assumptions C01_arithmetic.

(** make_md_span with a ghost width: every bound grows by [g] at both ends, except W. *)
Theorem C01_ghost_bounds : forall p g bs d b,
  nth_error bs d = Some b ->
  exists b', nth_error (sp_b (make_md_span_g p g bs)) d = Some b' /\ fst b' = fst b /\
    stride (snd b') = 1 /\
    b_lb (snd b') = (if Nat.eqb (fst b) dW then b_lb (snd b) else b_lb (snd b) - g) /\
    b_ub (snd b') = (if Nat.eqb (fst b) dW then b_ub (snd b) else b_ub (snd b) + g).
Proof. exact ghost_bounds. Qed.
Print Assumptions C01_ghost_bounds.

Theorem C01_plain_bounds : forall p bs d b,
  nth_error bs d = Some b ->
  exists b', nth_error (sp_b (make_md_span p bs)) d = Some b' /\ fst b' = fst b /\
    stride (snd b') = 1 /\ b_lb (snd b') = b_lb (snd b) /\ b_ub (snd b') = b_ub (snd b).
Proof. exact plain_bounds. Qed.
Print Assumptions C01_plain_bounds.

Example C01_example : nth_error [Jb 0 3; (dI, Bnd_s 1 9 2); Wb 0 6] 1 = Some (dI, Bnd_s 1 9 2).
Proof. reflexivity. Qed.

(** ** C02 *)

Theorem C02_ravel_bijective : forall n, box n ->
  (forall c, in_box n c -> 0 <= ravel n c < prodZ n) /\
  (forall c c', in_box n c -> in_box n c' -> ravel n c = ravel n c' -> c = c') /\
  (forall p, 0 <= p < prodZ n -> exists c, in_box n c /\ ravel n c = p).
Proof. exact ravel_bijective. Qed.
Print Assumptions C02_ravel_bijective.

Theorem C02_ravel_row_major : forall n c c', box n -> in_box n c -> in_box n c' ->
  (ravel n c < ravel n c' <-> lex c c').
Proof. exact ravel_lex. Qed.
Print Assumptions C02_ravel_row_major.

Example C02_example : box [3; 4; 5; 7] /\ in_box [3; 4; 5; 7] [2; 0; 4; 6] /\
  ravel [3; 4; 5; 7] [2; 0; 4; 6] = 314 /\ lex [2; 0; 4; 6] [2; 1; 0; 0].
Proof.
  split; [split; [discriminate|ex_forall]|]. split; [repeat constructor; lia|]. split; [reflexivity|].
  apply lex_next, lex_here. lia.
Qed.

(** ** C03 *)

Theorem C03_unravel_inverts : forall n p old, box n -> length old = length n -> 0 <= p < prodZ n ->
  exists c, unravel n p old = Some c /\ in_box n c /\ ravel n c = p.
Proof. exact unravel_inverts. Qed.
Print Assumptions C03_unravel_inverts.

(** The end coordinate: last index of every dimension, one beyond it in the last. *)
Theorem C03_unravel_end : forall n old, box n -> length old = length n ->
  exists c, unravel n (prodZ n) old = Some c /\ ravel n c = prodZ n /\
    length c = length n /\
    forall j, (j < length n)%nat -> aget c j = if Nat.eqb j (length n - 1) then aget n j else aget n j - 1.
Proof.
  exact (fun n old H1 H2 => match unravel_end n old H1 H2 with
    ex_intro _ c (conj A (conj (conj B C) D)) => ex_intro _ c (conj A (conj D (conj B C))) end).
Qed.
Print Assumptions C03_unravel_end.

(** The special cases for 2 and 3 dimensions agree with the general loop. *)
Theorem C03_special_cases : forall n p old,
  box n -> (2 <= length n)%nat -> length old = length n -> 0 <= p <= prodZ n ->
  unravel n p old = (c <- unravel_loop n p old ;; Some (unravel_adjust n c)).
Proof. exact unravel_general. Qed.
Print Assumptions C03_special_cases.

Example C03_example : box [3; 4; 5] /\ unravel [3; 4; 5] 37 [0; 0; 0] = Some [1; 3; 2] /\
  unravel [3; 4; 5] 60 [9; 9; 9] = Some [2; 3; 5].
Proof. split; [split; [discriminate|ex_forall]|]. split; reflexivity. Qed.

(** ** C04 *)

Theorem C04_traversal_laws : forall base st n flag l, box n -> stays (prodZ n) 0 l ->
  exists it, mti_moves l (mti_begin base st n flag) = Some it /\
    mti_size it = prodZ n /\
    (net 0 l < prodZ n -> in_box n (m_cur it) /\ ravel n (m_cur it) = net 0 l) /\
    forall l' it', stays (prodZ n) 0 l' -> mti_moves l' (mti_begin base st n flag) = Some it' ->
      mti_dist it it' = net 0 l' - net 0 l /\
      (mti_equal it it' = true <-> net 0 l = net 0 l') /\
      (net 0 l = net 0 l' -> it = it').
Proof. exact traversal_laws. Qed.
Print Assumptions C04_traversal_laws.

Example C04_example : box [2; 3] /\ stays (prodZ [2; 3]) 0 [MInc; MAdv 5; MDec; MAdv (-4); MInc].
Proof. split; [split; [discriminate|ex_forall]|]. change (prodZ [2; 3]) with 6. cbn. lia. Qed.

(** ** C05 *)

Theorem C05_span_enumerates_domain : forall s dom,
  wf_span s -> wf_dom dom -> Permutation (map fst dom) (sp_order s) ->
  exists it, call_helper false s dom = Some it /\
    mti_size it = Z.of_nat (length (domain_points dom origin)) /\
    forall k pt, nth_error (domain_points dom origin) k = Some pt ->
      mti_addr (Nat.iter k mti_inc it) = addr s pt.
Proof. exact span_enumerates. Qed.
Print Assumptions C05_span_enumerates_domain.

Theorem C05_addresses_distinct : forall dom s pt,
  wf_dom dom -> Permutation (map fst dom) (sp_order s) ->
  (forall q, In q (domain_points dom pt) -> in_bounds (sp_b s) q) ->
  NoDup (map (addr s) (domain_points dom pt)).
Proof. exact domain_addr_nodup. Qed.
Print Assumptions C05_addresses_distinct.

Example C05_example : wf_span ex_f /\ wf_dom ex_dom /\ Permutation (map fst ex_dom) (sp_order ex_f) /\
  length (domain_points ex_dom origin) = 60%nat /\ sp_order ex_f = [dI; dK; dJ].
Proof. split; [exact ex_f_wf|]. split; [exact ex_dom_wf|]. split; [exact ex_dom_f|]. split; reflexivity. Qed.

(** ** C06 *)

Theorem C06_loop_order_invisible : forall s dom dom',
  wf_span s -> wf_dom dom -> Permutation dom dom' -> Permutation (map fst dom) (sp_order s) ->
  exists it it', call_helper false s dom = Some it /\ call_helper false s dom' = Some it' /\
    mti_size it = mti_size it' /\
    forall k pt, nth_error (domain_points dom origin) k = Some pt ->
      exists k' pt', nth_error (domain_points dom' origin) k' = Some pt' /\
        (forall d, pt' d = pt d) /\
        mti_addr (Nat.iter k mti_inc it) = mti_addr (Nat.iter k' mti_inc it').
Proof. exact loop_order_invisible. Qed.
Print Assumptions C06_loop_order_invisible.

Example C06_example : Permutation ex_dom [Ib 0 4; Kb 0 2; Jb 0 3].
Proof.
  apply (Permutation_trans (l' := [Kb 0 2; Ib 0 4; Jb 0 3])); [apply perm_skip, perm_swap|apply perm_swap].
Qed.

(** ** C07 *)

Theorem C07_inside_allocation : forall s dom,
  wf_span s -> wf_dom dom -> Permutation (map fst dom) (sp_order s) -> dom_within dom (sp_b s) ->
  exists it, call_helper false s dom = Some it /\
    forall k, Z.of_nat k < mti_size it ->
      exists o, mti_addr (Nat.iter k mti_inc it) = padd (sp_ptr s) o /\ 0 <= o < cells_of (sp_b s).
Proof. exact span_in_allocation. Qed.
Print Assumptions C07_inside_allocation.

Example C07_example : dom_within ex_dom (sp_b ex_u) /\ dom_within ex_dom (sp_b ex_f).
Proof. split; [exact ex_within_u|exact ex_within_f]. Qed.

(** ** C08 *)

Theorem C08_strided_indices : forall f l s, 1 <= s ->
  (forall x, In x (loop_values (Bnd_s f l s)) <-> exists c, 0 <= c /\ x = f + s * c /\ x <= l) /\
  NoDup (loop_values (Bnd_s f l s)) /\
  (f <= l + 1 -> Z.of_nat (length (loop_values (Bnd_s f l s))) = - ((- (l - f + 1)) / s)).
Proof. exact strided_loop. Qed.
Print Assumptions C08_strided_indices.

(** The traversal has that many points in every dimension (and C05 says it visits
    exactly the points of the strided loops). *)
Theorem C08_strided_traversal : forall s dom,
  wf_span s -> wf_dom dom -> Permutation (map fst dom) (sp_order s) ->
  exists it, call_helper false s dom = Some it /\
    m_n it = map (fun b => Z.of_nat (length (loop_values (snd b)))) dom.
Proof. exact call_counts. Qed.
Print Assumptions C08_strided_traversal.

Example C08_example : wf_dom [Kb 0 2; (dJ, Bnd_s 0 3 2); (dI, Bnd_s 0 4 3)] /\
  map (fun b => loop_values (snd b)) [Kb 0 2; (dJ, Bnd_s 0 3 2); (dI, Bnd_s 0 4 3)] = [[0; 1; 2]; [0; 2]; [0; 3]].
Proof. split; [ex_dom|reflexivity]. Qed.

(** ** C09 *)

Theorem C09_transpose : forall I it sz,
  box sz -> Permutation I (seq 0 (length sz)) ->
  mti_size (make_transpose I it sz) = prodZ sz /\
  forall k c, in_box sz c -> ravel (map (aget sz) I) (map (aget c) I) = Z.of_nat k ->
    mti_addr (Nat.iter k mti_inc (make_transpose I it sz)) = padd it (ravel sz c).
Proof. exact (fun I it sz Hb HP => conj (transpose_size I it sz HP) (fun k c => transpose_elem I it sz k c Hb HP)). Qed.
Print Assumptions C09_transpose.

Example C09_example : box [3; 4; 5] /\ Permutation [2; 0; 1]%nat (seq 0 3) /\ in_box [3; 4; 5] [1; 2; 3].
Proof. split; [split; [discriminate|ex_forall]|]. split; [ex_perm|repeat constructor; lia]. Qed.

(** ** C10 *)

Theorem C10_windows : forall s hd w wb dom,
  wf_span s -> sp_b s = hd ++ [(w, wb)] -> wf_dom dom -> Permutation (map fst dom) (map fst hd) ->
  exists it, call_helper false s dom = Some it /\ m_ptr it = true /\
    mti_size it = Z.of_nat (length (domain_points dom origin)) /\
    forall k pt, nth_error (domain_points dom origin) k = Some pt ->
      m_ptr (Nat.iter k mti_inc it) = true /\
      forall i, padd (mti_addr (Nat.iter k mti_inc it)) i = addr s (pset pt w (b_lb wb + i)).
Proof. exact window_points. Qed.
Print Assumptions C10_windows.

Theorem C10_windows_disjoint : forall s hd w wb dom k k' p q i j,
  wf_span s -> sp_b s = hd ++ [(w, wb)] -> wf_dom dom -> Permutation (map fst dom) (map fst hd) ->
  dom_within dom hd -> k <> k' ->
  nth_error (domain_points dom origin) k = Some p -> nth_error (domain_points dom origin) k' = Some q ->
  0 <= i < extent wb -> 0 <= j < extent wb ->
  addr s (pset p w (b_lb wb + i)) <> addr s (pset q w (b_lb wb + j)).
Proof. exact window_disjoint. Qed.
Print Assumptions C10_windows_disjoint.

Example C10_example : wf_span ex_st /\
  sp_b ex_st = ex_dom ++ [(dW, Bnd 0 6)] /\ wf_dom ex_dom /\ dom_within ex_dom ex_dom /\ extent (Bnd 0 6) = 7.
Proof. split; [exact ex_st_wf|]. split; [reflexivity|]. split; [exact ex_dom_wf|]. split; [ex_within|reflexivity]. Qed.
