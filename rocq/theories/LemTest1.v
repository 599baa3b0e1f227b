(** * Lemmas behind the tests of spans and of the coarse-to-fine iterator *)

From Coq Require Import ZifyBool ZifyNat Permutation.
From Verif Require Import Base ModelBounds ModelMatrix ModelIters ModelSpan ModelSched Spec SpecIter SpecAssign
  KernelNotations KernelsTest SpecTest LemBase LemMatrix LemExec LemAssign LemProps LemProps2 LemProps4
  LemKernel LemKernel2.
Import ListNotations.
Open Scope Z_scope.

Section Test.
  Context {S : Scalar}.

  Lemma assign_runs dom x (e : @expr S) (f : point -> S) (m : mem S) :
    assignable dom (AExpr x e) -> avoids (fst (sp_ptr x)) e -> allocated m x ->
    (forall pt, In pt (domain_points dom origin) -> denote e pt m = Some (VNum (f pt))) ->
    exists m', with_domain dom [AExpr x e] m = Some m' /\ ints m' = ints m /\ shape m' = shape m /\
      (forall pt, In pt (domain_points dom origin) -> load m' (addr x pt) = Some (f pt)) /\
      (forall p, (forall pt, In pt (domain_points dom origin) -> p <> addr x pt) -> load m' p = load m p).
  Proof.
    intros HA Hv Hal Hd.
    destruct (assign_effect dom _ m HA (avoids_independent dom x e (ints m) Hv)) as [H1 H2].
    destruct H2 as [m' E]; [exact Hal| |].
    { intros pt Hpt. cbn [rhs_at]. rewrite (Hd pt Hpt). discriminate. }
    exists m'. split; [exact E|]. destruct (H1 m' E) as [(V & F & Ei) Es].
    split; [exact Ei|]. split; [exact Es|]. split; [|exact F].
    intros pt Hpt. destruct (V pt Hpt) as (v & Ev & El). cbn [rhs_at] in Ev. rewrite (Hd pt Hpt) in Ev.
    cbn [bind] in Ev. injection Ev as <-. exact El.
  Qed.

  Lemma holds_room (m : mem S) p n A : 1 <= n -> holds m p n A ->
    exists a, nth_error (cells m) (fst p) = Some a /\ 0 <= snd p /\ snd p + n <= Z.of_nat (length a).
  Proof.
    intros Hn H. pose proof (H 0 ltac:(lia)) as H0. pose proof (H (n - 1) ltac:(lia)) as H1.
    unfold load, padd in H0, H1; cbn [fst snd] in * . destruct (nth_error (cells m) (fst p)) as [a|]; [|discriminate].
    exists a. cbn [bind] in * . unfold nthZ in H0, H1.
    destruct (Z.ltb_spec (snd p + 0) 0); [discriminate|]. destruct (Z.ltb_spec (snd p + (n - 1)) 0); [discriminate|].
    assert (Z.to_nat (snd p + (n - 1)) < length a)%nat by (apply nth_error_Some; rewrite H1; discriminate).
    repeat split; lia.
  Qed.

  Lemma holds_allocated (m : mem S) x n A : holds m (sp_ptr x) n A -> cells_of (sp_b x) = n /\ 1 <= n ->
    allocated m x.
  Proof. intros H [E Hn]. unfold allocated. rewrite E. apply (holds_room m _ n A Hn H). Qed.
End Test.

Lemma mul_pos1 a b : 1 <= a -> 1 <= b -> 1 <= a * b.
Proof. nia. Qed.

Lemma visited_spec lo hi s x : 1 <= s ->
  visited lo hi s x = true <-> In x (loop_values (Bnd_s lo hi s)).
Proof.
  intros Hs. rewrite in_loop_values by exact Hs. unfold visited, b_lb, b_ub, Bnd_s, Bnd_full, b2z; cbn [first last stride].
  rewrite !andb_true_iff, !Z.leb_le, Z.eqb_eq. split.
  - intros ((H1 & H2) & H3). exists ((x - lo) / s). pose proof (Z.div_mod (x - lo) s ltac:(lia)).
    split; [apply Z.div_pos; lia|]. lia.
  - intros (c & Hc & -> & Hl). replace (lo + s * c - lo) with (c * s) by ring. rewrite Z_mod_mult. nia.
Qed.

Lemma visited_unit lo hi x : visited lo hi 1 x = ((lo <=? x) && (x <=? hi))%bool.
Proof. unfold visited. rewrite Z.mod_1_r. cbn. apply andb_true_r. Qed.

Lemma points1 d b pt : In pt (domain_points [(d, b)] origin) <-> exists x, In x (loop_values b) /\ pt = pset origin d x.
Proof.
  cbn [domain_points]. rewrite in_flat_map. split.
  - intros (x & Hx & [<-|[]]). exists x. auto.
  - intros (x & Hx & ->). exists x. split; [exact Hx|left; reflexivity].
Qed.
Lemma points2 d b d' b' pt : In pt (domain_points [(d, b); (d', b')] origin) <->
  exists x y, In x (loop_values b) /\ In y (loop_values b') /\ pt = pset (pset origin d x) d' y.
Proof.
  cbn [domain_points]. rewrite in_flat_map. setoid_rewrite in_flat_map. split.
  - intros (x & Hx & y & Hy & [<-|[]]). exists x, y. auto.
  - intros (x & y & Hx & Hy & ->). exists x. split; [exact Hx|]. exists y. split; [exact Hy|left; reflexivity].
Qed.
Lemma points3 d b d' b' d'' b'' pt : In pt (domain_points [(d, b); (d', b'); (d'', b'')] origin) <->
  exists x y z, In x (loop_values b) /\ In y (loop_values b') /\ In z (loop_values b'') /\
    pt = pset (pset (pset origin d x) d' y) d'' z.
Proof.
  cbn [domain_points]. rewrite in_flat_map. setoid_rewrite in_flat_map. setoid_rewrite in_flat_map. split.
  - intros (x & Hx & y & Hy & z & Hz & [<-|[]]). exists x, y, z. auto.
  - intros (x & y & z & Hx & Hy & Hz & ->). exists x. split; [exact Hx|]. exists y. split; [exact Hy|].
    exists z. split; [exact Hz|left; reflexivity].
Qed.

Lemma loop_range b x : 1 <= stride b -> In x (loop_values b) -> b_lb b <= x <= b_ub b.
Proof. intros Hs H. apply in_loop_values in H as (c & Hc & -> & Hu); [|exact Hs]. nia. Qed.

Lemma radix n a b a' b' : 0 <= b < n -> 0 <= b' < n -> a * n + b = a' * n + b' -> a = a' /\ b = b'.
Proof. intros H H' E. assert (a = a') by nia. subst. split; [reflexivity|lia]. Qed.

Lemma radix_range n0 n a b : 0 <= a < n0 -> 0 <= b < n -> 0 <= a * n + b < n0 * n.
Proof. nia. Qed.

(** Addresses in spans made of strided bounds. *)
Ltac t_addr := intros; unfold addr, make_md_span_g, expand_bounds; cbn; f_equal;
  unfold cells_of, prodZ, extent, b_lb, b_ub; cbn; ring.

Lemma addr_g1 p g a b s pt :
  addr (make_md_span_g p g [(dI, Bnd_s a b s)]) pt = padd p (pt dI - (a - g)).
Proof. t_addr. Qed.
Lemma addr_g2_ij p g a b s a' b' s' pt :
  addr (make_md_span_g p g [(dI, Bnd_s a b s); (dJ, Bnd_s a' b' s')]) pt =
  padd p ((pt dI - (a - g)) * (b' - a' + 1 + (g + g)) + (pt dJ - (a' - g))).
Proof. t_addr. Qed.
Lemma addr_g2_ji p g a b s a' b' s' pt :
  addr (make_md_span_g p g [(dJ, Bnd_s a b s); (dI, Bnd_s a' b' s')]) pt =
  padd p ((pt dJ - (a - g)) * (b' - a' + 1 + (g + g)) + (pt dI - (a' - g))).
Proof. t_addr. Qed.
Lemma addr_g3_ijk p g a b s a' b' s' a'' b'' s'' pt :
  addr (make_md_span_g p g [(dI, Bnd_s a b s); (dJ, Bnd_s a' b' s'); (dK, Bnd_s a'' b'' s'')]) pt =
  padd p (((pt dI - (a - g)) * (b' - a' + 1 + (g + g)) + (pt dJ - (a' - g))) * (b'' - a'' + 1 + (g + g))
          + (pt dK - (a'' - g))).
Proof. t_addr. Qed.
Lemma addr_g3_kji p g a b s a' b' s' a'' b'' s'' pt :
  addr (make_md_span_g p g [(dK, Bnd_s a b s); (dJ, Bnd_s a' b' s'); (dI, Bnd_s a'' b'' s'')]) pt =
  padd p (((pt dK - (a - g)) * (b' - a' + 1 + (g + g)) + (pt dJ - (a' - g))) * (b'' - a'' + 1 + (g + g))
          + (pt dI - (a'' - g))).
Proof. t_addr. Qed.

Lemma cells_g1 p g a b s : cells_of (sp_b (make_md_span_g p g [(dI, Bnd_s a b s)])) = b - a + 1 + (g + g).
Proof. cbn. unfold cells_of, prodZ, extent, b_lb, b_ub; cbn; ring. Qed.
Lemma cells_g2 p g a b s a' b' s' :
  cells_of (sp_b (make_md_span_g p g [(dJ, Bnd_s a b s); (dI, Bnd_s a' b' s')])) =
  (b - a + 1 + (g + g)) * (b' - a' + 1 + (g + g)).
Proof. cbn. unfold cells_of, prodZ, extent, b_lb, b_ub; cbn; ring. Qed.
Lemma cells_g3 p g a b s a' b' s' a'' b'' s'' :
  cells_of (sp_b (make_md_span_g p g [(dK, Bnd_s a b s); (dJ, Bnd_s a' b' s'); (dI, Bnd_s a'' b'' s'')])) =
  (b - a + 1 + (g + g)) * (b' - a' + 1 + (g + g)) * (b'' - a'' + 1 + (g + g)).
Proof. cbn. unfold cells_of, prodZ, extent, b_lb, b_ub; cbn; ring. Qed.

Section Span.
  Context {S : Scalar}.

  Lemma span_stride_3d_lem i0 i1 is j0 j1 js k0 k1 ks (beta : S) ug (u_ : ptr) rg (r_ : ptr) (m : mem S) U R :
    let ni g := i1 - i0 + 1 + 2 * g in let nj g := j1 - j0 + 1 + 2 * g in let nk g := k1 - k0 + 1 + 2 * g in
    1 <= is -> 1 <= js -> 1 <= ks -> i0 <= i1 -> j0 <= j1 -> k0 <= k1 -> 0 <= ug -> 0 <= rg -> fst u_ <> fst r_ ->
    holds m u_ (ni ug * nj ug * nk ug) U -> holds m r_ (nk rg * nj rg * ni rg) R ->
    exists m', span_stride_3d i0 i1 is j0 j1 js k0 k1 ks beta ug u_ rg r_ m = Some m' /\
      only r_ (nk rg * nj rg * ni rg) m m' /\
      forall i j k, i0 - rg <= i <= i1 + rg -> j0 - rg <= j <= j1 + rg -> k0 - rg <= k <= k1 + rg ->
        let r := ((k - (k0 - rg)) * nj rg + (j - (j0 - rg))) * ni rg + (i - (i0 - rg)) in
        load m' (padd r_ r) =
        Some (if (visited i0 i1 is i && visited j0 j1 js j && visited k0 k1 ks k)%bool
              then (beta * U (((i - (i0 - ug)) * nj ug + (j - (j0 - ug))) * nk ug + (k - (k0 - ug)))%Z)%T
              else R r).
  Proof.
    intros ni nj nk Hsi Hsj Hsk Hi Hj Hk Hu Hr Hne HU HR.
    set (X := make_md_span_g r_ rg [(dK, Bnd_s k0 k1 ks); (dJ, Bnd_s j0 j1 js); (dI, Bnd_s i0 i1 is)]).
    set (Y := make_md_span_g u_ ug [(dI, Bnd_s i0 i1 is); (dJ, Bnd_s j0 j1 js); (dK, Bnd_s k0 k1 ks)]).
    set (dom := [(dK, Bnd_s k0 k1 ks); (dJ, Bnd_s j0 j1 js); (dI, Bnd_s i0 i1 is)]).
    assert (AX : forall pt, addr X pt = padd r_ (((pt dK - (k0 - rg)) * nj rg + (pt dJ - (j0 - rg))) * ni rg
                                                 + (pt dI - (i0 - rg)))).
    { intros pt. unfold X. rewrite addr_g3_kji. f_equal. unfold ni, nj. ring. }
    assert (AY : forall pt, addr Y pt = padd u_ (((pt dI - (i0 - ug)) * nj ug + (pt dJ - (j0 - ug))) * nk ug
                                                 + (pt dK - (k0 - ug)))).
    { intros pt. unfold Y. rewrite addr_g3_ijk. f_equal. unfold nj, nk. ring. }
    destruct (assign_runs dom X (beta .* $Y)%E
      (fun pt => (beta * U (((pt dI - (i0 - ug)) * nj ug + (pt dJ - (j0 - ug))) * nk ug + (pt dK - (k0 - ug)))%Z)%T) m)
      as (m' & E & Ei & Es & V & F).
    - unfold dom, X, Y. split; [k_dom|]. split; [k_assign|]. k_within.
    - cbn. exact Hne.
    - eapply holds_allocated; [exact HR|]. unfold X. rewrite cells_g3. unfold ni, nj, nk. split; [ring|].
      assert (1 <= (k1 - k0 + 1 + 2 * rg) * (j1 - j0 + 1 + 2 * rg)) by (apply mul_pos1; lia). apply mul_pos1; lia.
    - intros pt Hpt. unfold dom in Hpt. apply points3 in Hpt as (z & y & x & Hz & Hy & Hx & ->).
      apply loop_range in Hx, Hy, Hz; try assumption.
      unfold b_lb, b_ub in * ; cbn in Hx, Hy, Hz.
      cbn [denote]. rewrite AY. cbn [pset dI dJ dK Nat.eqb].
      rewrite HU; [reflexivity|]. apply radix_range; [apply radix_range|]; unfold ni, nj, nk; lia.
    - exists m'. split; [exact E|]. split.
      + split; [exact Ei|]. split; [exact Es|]. intros q Hq. apply F. intros pt Hpt. rewrite AX. apply Hq.
        apply points3 in Hpt as (z & y & x & Hz & Hy & Hx & ->).
        apply loop_range in Hx, Hy, Hz; try assumption.
        unfold b_lb, b_ub in * ; cbn in Hx, Hy, Hz. cbn [pset dI dJ dK Nat.eqb].
        apply radix_range; [apply radix_range|]; unfold ni, nj, nk; lia.
      + intros i j k Bi Bj Bk r. destruct (visited i0 i1 is i && visited j0 j1 js j && visited k0 k1 ks k)%bool eqn:Vis.
        * apply andb_true_iff in Vis as [Vis Vk]. apply andb_true_iff in Vis as [Vi Vj].
          apply visited_spec in Vi, Vj, Vk; try assumption.
          specialize (V (pset (pset (pset origin dK k) dJ j) dI i)). rewrite AX in V. apply V.
          apply points3. exists k, j, i. auto.
        * rewrite F.
          -- apply HR. unfold r. apply radix_range; [apply radix_range|]; unfold ni, nj, nk; lia.
          -- intros pt Hpt. apply points3 in Hpt as (z & y & x & Hz & Hy & Hx & ->).
             assert (Hx' := Hx). assert (Hy' := Hy). assert (Hz' := Hz).
             apply loop_range in Hx', Hy', Hz'; try assumption.
             apply visited_spec in Hx, Hy, Hz; try assumption.
             unfold b_lb, b_ub in * ; cbn in Hx', Hy', Hz'.
             rewrite AX. cbn [pset dI dJ dK Nat.eqb]. unfold r. intros C. injection C as C.
             assert (z = k /\ y = j /\ x = i) as (-> & -> & ->); [|rewrite Hx, Hy, Hz in Vis; discriminate].
             apply (f_equal (fun t => t - snd r_)) in C.
             rewrite !Z.add_simpl_l in C.
             apply radix in C as [C C3]; [|unfold ni; lia|unfold ni; lia].
             apply radix in C as [C1 C2]; [|unfold nj; lia|unfold nj; lia]. lia.
  Qed.

  Lemma span_stride_2d_lem i0 i1 is j0 j1 js (beta : S) ug (u_ : ptr) rg (r_ : ptr) (m : mem S) U R :
    let ni g := i1 - i0 + 1 + 2 * g in let nj g := j1 - j0 + 1 + 2 * g in
    1 <= is -> 1 <= js -> i0 <= i1 -> j0 <= j1 -> 0 <= ug -> 0 <= rg -> fst u_ <> fst r_ ->
    holds m u_ (ni ug * nj ug) U -> holds m r_ (nj rg * ni rg) R ->
    exists m', span_stride_2d i0 i1 is j0 j1 js beta ug u_ rg r_ m = Some m' /\
      only r_ (nj rg * ni rg) m m' /\
      forall i j, i0 - rg <= i <= i1 + rg -> j0 - rg <= j <= j1 + rg ->
        let r := (j - (j0 - rg)) * ni rg + (i - (i0 - rg)) in
        load m' (padd r_ r) =
        Some (if (visited i0 i1 is i && visited j0 j1 js j)%bool
              then (beta * U ((i - (i0 - ug)) * nj ug + (j - (j0 - ug)))%Z)%T
              else R r).
  Proof.
    intros ni nj Hsi Hsj Hi Hj Hu Hr Hne HU HR.
    set (X := make_md_span_g r_ rg [(dJ, Bnd_s j0 j1 js); (dI, Bnd_s i0 i1 is)]).
    set (Y := make_md_span_g u_ ug [(dI, Bnd_s i0 i1 is); (dJ, Bnd_s j0 j1 js)]).
    set (dom := [(dJ, Bnd_s j0 j1 js); (dI, Bnd_s i0 i1 is)]).
    assert (AX : forall pt, addr X pt = padd r_ ((pt dJ - (j0 - rg)) * ni rg + (pt dI - (i0 - rg)))).
    { intros pt. unfold X. rewrite addr_g2_ji. f_equal. unfold ni. ring. }
    assert (AY : forall pt, addr Y pt = padd u_ ((pt dI - (i0 - ug)) * nj ug + (pt dJ - (j0 - ug)))).
    { intros pt. unfold Y. rewrite addr_g2_ij. f_equal. unfold nj. ring. }
    destruct (assign_runs dom X (beta .* $Y)%E
      (fun pt => (beta * U ((pt dI - (i0 - ug)) * nj ug + (pt dJ - (j0 - ug)))%Z)%T) m)
      as (m' & E & Ei & Es & V & F).
    - unfold dom, X, Y. split; [k_dom|]. split; [k_assign|]. k_within.
    - cbn. exact Hne.
    - eapply holds_allocated; [exact HR|]. unfold X. rewrite cells_g2. unfold ni, nj. split; [ring|].
      apply mul_pos1; lia.
    - intros pt Hpt. unfold dom in Hpt. apply points2 in Hpt as (y & x & Hy & Hx & ->).
      apply loop_range in Hx, Hy; try assumption.
      unfold b_lb, b_ub in * ; cbn in Hx, Hy.
      cbn [denote]. rewrite AY. cbn [pset dI dJ dK Nat.eqb].
      rewrite HU; [reflexivity|]. apply radix_range; unfold ni, nj; lia.
    - exists m'. split; [exact E|]. split.
      + split; [exact Ei|]. split; [exact Es|]. intros q Hq. apply F. intros pt Hpt. rewrite AX. apply Hq.
        apply points2 in Hpt as (y & x & Hy & Hx & ->).
        apply loop_range in Hx, Hy; try assumption.
        unfold b_lb, b_ub in * ; cbn in Hx, Hy. cbn [pset dI dJ dK Nat.eqb].
        apply radix_range; unfold ni, nj; lia.
      + intros i j Bi Bj r. destruct (visited i0 i1 is i && visited j0 j1 js j)%bool eqn:Vis.
        * apply andb_true_iff in Vis as [Vi Vj]. apply visited_spec in Vi, Vj; try assumption.
          specialize (V (pset (pset origin dJ j) dI i)). rewrite AX in V. apply V.
          apply points2. exists j, i. auto.
        * rewrite F.
          -- apply HR. unfold r. apply radix_range; unfold ni, nj; lia.
          -- intros pt Hpt. apply points2 in Hpt as (y & x & Hy & Hx & ->).
             assert (Hx' := Hx). assert (Hy' := Hy).
             apply loop_range in Hx', Hy'; try assumption.
             apply visited_spec in Hx, Hy; try assumption.
             unfold b_lb, b_ub in * ; cbn in Hx', Hy'.
             rewrite AX. cbn [pset dI dJ dK Nat.eqb]. unfold r. intros C. injection C as C.
             assert (y = j /\ x = i) as (-> & ->); [|rewrite Hx, Hy in Vis; discriminate].
             apply (f_equal (fun t => t - snd r_)) in C.
             rewrite !Z.add_simpl_l in C.
             apply radix in C as [C1 C2]; [|unfold ni; lia|unfold ni; lia]. lia.
  Qed.

  Lemma span_stride_1d_lem i0 i1 is (beta : S) ug (u_ : ptr) rg (r_ : ptr) (m : mem S) U R :
    1 <= is -> i0 <= i1 -> 0 <= ug -> 0 <= rg -> fst u_ <> fst r_ ->
    holds m u_ (i1 - i0 + 1 + 2 * ug) U -> holds m r_ (i1 - i0 + 1 + 2 * rg) R ->
    exists m', span_stride_1d i0 i1 is beta ug u_ rg r_ m = Some m' /\
      only r_ (i1 - i0 + 1 + 2 * rg) m m' /\
      forall i, i0 - rg <= i <= i1 + rg ->
        load m' (padd r_ (i - (i0 - rg))) =
        Some (if visited i0 i1 is i then (beta * U (i - (i0 - ug))%Z)%T else R (i - (i0 - rg))).
  Proof.
    intros Hsi Hi Hu Hr Hne HU HR.
    set (X := make_md_span_g r_ rg [(dI, Bnd_s i0 i1 is)]).
    set (Y := make_md_span_g u_ ug [(dI, Bnd_s i0 i1 is)]).
    set (dom := [(dI, Bnd_s i0 i1 is)]).
    assert (AX : forall pt, addr X pt = padd r_ (pt dI - (i0 - rg))) by (intros; apply addr_g1).
    assert (AY : forall pt, addr Y pt = padd u_ (pt dI - (i0 - ug))) by (intros; apply addr_g1).
    destruct (assign_runs dom X (beta .* $Y)%E (fun pt => (beta * U (pt dI - (i0 - ug))%Z)%T) m)
      as (m' & E & Ei & Es & V & F).
    - unfold dom, X, Y. split; [k_dom|]. split; [k_assign|]. k_within.
    - cbn. exact Hne.
    - eapply holds_allocated; [exact HR|]. unfold X. rewrite cells_g1. split; [ring|lia].
    - intros pt Hpt. unfold dom in Hpt. apply points1 in Hpt as (x & Hx & ->).
      apply loop_range in Hx; [|assumption].
      unfold b_lb, b_ub in * ; cbn in Hx.
      cbn [denote]. rewrite AY. cbn [pset dI dJ dK Nat.eqb].
      rewrite HU; [reflexivity|]. lia.
    - exists m'. split; [exact E|]. split.
      + split; [exact Ei|]. split; [exact Es|]. intros q Hq. apply F. intros pt Hpt. rewrite AX. apply Hq.
        apply points1 in Hpt as (x & Hx & ->).
        apply loop_range in Hx; [|assumption].
        unfold b_lb, b_ub in * ; cbn in Hx. cbn [pset dI dJ dK Nat.eqb]. lia.
      + intros i Bi. destruct (visited i0 i1 is i) eqn:Vis.
        * apply visited_spec in Vis; [|assumption].
          specialize (V (pset origin dI i)). rewrite AX in V. apply V.
          apply points1. exists i. auto.
        * rewrite F; [apply HR; lia|].
          intros pt Hpt. apply points1 in Hpt as (x & Hx & ->).
          apply visited_spec in Hx; [|assumption].
          rewrite AX. cbn [pset dI dJ dK Nat.eqb]. intros C. injection C as C.
          assert (x = i) as -> by lia. congruence.
  Qed.

  Lemma span_init_1d_lem i0 i1 (h : S) ug (u_ : ptr) rg (r_ : ptr) (m : mem S) U R :
    i0 <= i1 -> 1 <= ug -> 0 <= rg -> fst u_ <> fst r_ ->
    holds m u_ (i1 - i0 + 1 + 2 * ug) U -> holds m r_ (i1 - i0 + 1 + 2 * rg) R ->
    exists m', span_init_1d i0 i1 h ug u_ rg r_ m = Some m' /\
      only r_ (i1 - i0 + 1 + 2 * rg) m m' /\
      forall i, i0 - rg <= i <= i1 + rg ->
        let u k := U (k - (i0 - ug)) in
        load m' (padd r_ (i - (i0 - rg))) =
        Some (if ((i0 <=? i) && (i <=? i1))%bool
              then ((# 2 * ((u i - u (i - 1)%Z) / h + (u (i + 1)%Z - u i) / h)) / (u i + # 10))%T
              else R (i - (i0 - rg))).
  Proof.
    intros Hi Hu Hr Hne HU HR.
    set (X := make_md_span_g r_ rg [(dI, Bnd_s i0 i1 1)]).
    set (Y := make_md_span_g u_ ug [(dI, Bnd_s i0 i1 1)]).
    set (dom := [(dI, Bnd_s i0 i1 1)]).
    set (u k := U (k - (i0 - ug))).
    assert (AX : forall pt, addr X pt = padd r_ (pt dI - (i0 - rg))) by (intros; apply addr_g1).
    assert (AY : forall pt, addr Y pt = padd u_ (pt dI - (i0 - ug))) by (intros; apply addr_g1).
    assert (LU : forall (mm : mem S) k, holds mm u_ (i1 - i0 + 1 + 2 * ug) U -> i0 - 1 <= k <= i1 + 1 ->
                   load mm (padd u_ (k - (i0 - ug))) = Some (u k)).
    { intros mm k H Hk. apply H. lia. }
    destruct (assign_runs dom X ((lit 2 .* (grad Y dI h down + grad Y dI h up)) / ($Y +. lit 10))%E
      (fun pt => let i := pt dI in
                 ((# 2 * ((u i - u (i - 1)%Z) / h + (u (i + 1)%Z - u i) / h)) / (u i + # 10))%T) m)
      as (m' & E & Ei & Es & V & F).
    - unfold dom, X, Y. split; [k_dom|]. split; [k_assign|]. k_within.
    - cbn. auto.
    - eapply holds_allocated; [exact HR|]. unfold X. rewrite cells_g1. split; [ring|lia].
    - intros pt Hpt. unfold dom in Hpt. apply points1 in Hpt as (x & Hx & ->).
      apply loop_range in Hx; [|cbn; lia].
      unfold b_lb, b_ub in * ; cbn in Hx.
      cbn [denote grad]. cbn [down up Z.leb Z.compare]. rewrite !AY. unfold pmove. cbn [pset dI dJ dK Nat.eqb].
      rewrite !LU by (exact HU || lia). cbn [bind app_op num_op].
      replace (x + -1 + 1) with x by lia. replace (x + -1) with (x - 1) by lia. reflexivity.
    - assert (HO : only r_ (i1 - i0 + 1 + 2 * rg) m m').
      { split; [exact Ei|]. split; [exact Es|]. intros q Hq. apply F. intros pt Hpt. rewrite AX. apply Hq.
        apply points1 in Hpt as (x & Hx & ->).
        apply loop_range in Hx; [|cbn; lia].
        unfold b_lb, b_ub in * ; cbn in Hx. cbn [pset dI dJ dK Nat.eqb]. lia. }
      exists m'. split; [|split; [exact HO|]].
      + unfold span_init_1d. change (Ib i0 i1) with (dI, Bnd_s i0 i1 1). fold X Y dom. rewrite E. cbn [bind].
        assert (Hd : wf_dom dom) by (unfold dom; k_dom).
        assert (He : wf_expr (@lit S 3 .* EStencil up Y dI)%E dom) by (unfold dom, Y, up; k_expr).
        destruct (eval_evaluates _ dom Hd He) as (it & Eit & Hit).
        rewrite Eit. cbn [bind].
        destruct (Hit 0%nat (pset origin dI i0)) as (it' & St & Hv).
        { unfold dom. cbn [domain_points]. unfold loop_values, count, b_ub, b_lb; cbn [Bnd_s Bnd_full first last stride b2z].
          destruct (Z.to_nat ((i1 + 1 - 1 - i0 + 1) / 1)) eqn:En; [rewrite Z.div_1_r in En; lia|].
          cbn. do 2 f_equal. lia. }
        cbn [steps] in St. injection St as <-. rewrite Hv. cbn [denote up Z.leb Z.compare]. rewrite !AY.
        unfold pmove. cbn [pset dI dJ dK Nat.eqb].
        assert (HU' : holds m' u_ (i1 - i0 + 1 + 2 * ug) U).
        { intros k Hk. destruct HO as (_ & _ & HO). rewrite HO; [apply HU; exact Hk|].
          intros k' _ C. apply Hne. exact (f_equal fst C). }
        rewrite !LU by (exact HU' || lia). reflexivity.
      + intros i Bi v. destruct ((i0 <=? i) && (i <=? i1))%bool eqn:Vis.
        * rewrite <- visited_unit in Vis. apply visited_spec in Vis; [|lia].
          specialize (V (pset origin dI i)). rewrite AX in V. apply V.
          apply points1. exists i. auto.
        * rewrite F; [apply HR; lia|].
          intros pt Hpt. apply points1 in Hpt as (x & Hx & ->).
          apply visited_spec in Hx; [|lia]. rewrite visited_unit in Hx.
          rewrite AX. cbn [pset dI dJ dK Nat.eqb]. intros C. injection C as C.
          assert (x = i) as -> by lia. congruence.
  Qed.

  Lemma span_init_2d_lem i0 i1 j0 j1 (h0 h1 : S) ug (u_ : ptr) rg (r_ : ptr) (m : mem S) U R :
    let ni g := i1 - i0 + 1 + 2 * g in let nj g := j1 - j0 + 1 + 2 * g in
    i0 <= i1 -> j0 <= j1 -> 1 <= ug -> 0 <= rg -> fst u_ <> fst r_ ->
    holds m u_ (ni ug * nj ug) U -> holds m r_ (nj rg * ni rg) R ->
    exists m', span_init_2d i0 i1 j0 j1 h0 h1 ug u_ rg r_ m = Some m' /\
      only r_ (nj rg * ni rg) m m' /\
      forall i j, i0 - rg <= i <= i1 + rg -> j0 - rg <= j <= j1 + rg ->
        let u x y := U ((x - (i0 - ug)) * nj ug + (y - (j0 - ug))) in
        let r := (j - (j0 - rg)) * ni rg + (i - (i0 - rg)) in
        load m' (padd r_ r) =
        Some (if ((i0 <=? i) && (i <=? i1) && ((j0 <=? j) && (j <=? j1)))%bool
              then (# 3 * ((u i (j + 1)%Z - u i j) / h1 + (u (i + 1)%Z j - u i j) / h0))%T
              else R r).
  Proof.
    intros ni nj Hi Hj Hu Hr Hne HU HR.
    set (X := make_md_span_g r_ rg [(dJ, Bnd_s j0 j1 1); (dI, Bnd_s i0 i1 1)]).
    set (Y := make_md_span_g u_ ug [(dI, Bnd_s i0 i1 1); (dJ, Bnd_s j0 j1 1)]).
    set (dom := [(dJ, Bnd_s j0 j1 1); (dI, Bnd_s i0 i1 1)]).
    set (u x y := U ((x - (i0 - ug)) * nj ug + (y - (j0 - ug)))).
    assert (AX : forall pt, addr X pt = padd r_ ((pt dJ - (j0 - rg)) * ni rg + (pt dI - (i0 - rg)))).
    { intros pt. unfold X. rewrite addr_g2_ji. f_equal. unfold ni. ring. }
    assert (AY : forall pt, addr Y pt = padd u_ ((pt dI - (i0 - ug)) * nj ug + (pt dJ - (j0 - ug)))).
    { intros pt. unfold Y. rewrite addr_g2_ij. f_equal. unfold nj. ring. }
    assert (LU : forall x y, i0 <= x <= i1 + 1 -> j0 <= y <= j1 + 1 ->
                   load m (padd u_ ((x - (i0 - ug)) * nj ug + (y - (j0 - ug)))) = Some (u x y)).
    { intros x y Hx Hy. apply HU. apply radix_range; unfold ni, nj; lia. }
    destruct (assign_runs dom X (lit 3 .* (grad Y dJ h1 up + grad Y dI h0 up))%E
      (fun pt => let i := pt dI in let j := pt dJ in
                 (# 3 * ((u i (j + 1)%Z - u i j) / h1 + (u (i + 1)%Z j - u i j) / h0))%T) m)
      as (m' & E & Ei & Es & V & F).
    - unfold dom, X, Y. split; [k_dom|]. split; [k_assign|]. k_within.
    - cbn. auto.
    - eapply holds_allocated; [exact HR|]. unfold X. rewrite cells_g2. unfold ni, nj. split; [ring|].
      apply mul_pos1; lia.
    - intros pt Hpt. unfold dom in Hpt. apply points2 in Hpt as (y & x & Hy & Hx & ->).
      apply loop_range in Hx, Hy; try (cbn; lia).
      unfold b_lb, b_ub in * ; cbn in Hx, Hy.
      cbn [denote grad]. cbn [down up Z.leb Z.compare]. rewrite !AY. unfold pmove. cbn [pset dI dJ dK Nat.eqb].
      rewrite !LU by lia. reflexivity.
    - exists m'. split; [exact E|]. split.
      + split; [exact Ei|]. split; [exact Es|]. intros q Hq. apply F. intros pt Hpt. rewrite AX. apply Hq.
        apply points2 in Hpt as (y & x & Hy & Hx & ->).
        apply loop_range in Hx, Hy; try (cbn; lia).
        unfold b_lb, b_ub in * ; cbn in Hx, Hy. cbn [pset dI dJ dK Nat.eqb].
        apply radix_range; unfold ni, nj; lia.
      + intros i j Bi Bj v r. rewrite <- !visited_unit.
        destruct (visited i0 i1 1 i && visited j0 j1 1 j)%bool eqn:Vis.
        * apply andb_true_iff in Vis as [Vi Vj]. apply visited_spec in Vi, Vj; try lia.
          specialize (V (pset (pset origin dJ j) dI i)). rewrite AX in V. apply V.
          apply points2. exists j, i. auto.
        * rewrite F.
          -- apply HR. unfold r. apply radix_range; unfold ni, nj; lia.
          -- intros pt Hpt. apply points2 in Hpt as (y & x & Hy & Hx & ->).
             assert (Hx' := Hx). assert (Hy' := Hy).
             apply loop_range in Hx', Hy'; try (cbn; lia).
             apply visited_spec in Hx, Hy; try lia.
             unfold b_lb, b_ub in * ; cbn in Hx', Hy'.
             rewrite AX. cbn [pset dI dJ dK Nat.eqb]. unfold r. intros C. injection C as C.
             assert (y = j /\ x = i) as (-> & ->); [|rewrite Hx, Hy in Vis; discriminate].
             apply (f_equal (fun t => t - snd r_)) in C.
             rewrite !Z.add_simpl_l in C.
             apply radix in C as [C1 C2]; [|unfold ni; lia|unfold ni; lia]. lia.
  Qed.

  Lemma addr_plain p a b pt : addr (make_md_span p [Ib a b]) pt = padd p (pt dI - a).
  Proof. t_addr. Qed.

  Lemma fine_init_lem fi0 fi1 ci0 ci1 ratio (c_ f_ : ptr) (m : mem S) C A :
    1 <= ratio -> fi0 <= fi1 -> ci0 <= fi0 / ratio -> fi1 / ratio <= ci1 -> fst c_ <> fst f_ ->
    holds m c_ (ci1 - ci0 + 1) C -> holds m f_ (fi1 - fi0 + 1) A ->
    exists m', fine_init fi0 fi1 ci0 ci1 ratio c_ f_ m = Some m' /\
      only f_ (fi1 - fi0 + 1) m m' /\
      holds m' f_ (fi1 - fi0 + 1) (fun k => C ((fi0 + k) / ratio - ci0)).
  Proof.
    intros Hq Hf Hc0 Hc1 Hne HC HA.
    set (X := make_md_span f_ [Ib fi0 fi1]). set (Y := make_md_span c_ [Ib ci0 ci1]).
    set (dom := [Ib fi0 fi1]).
    assert (AX : forall pt, addr X pt = padd f_ (pt dI - fi0)) by (intros; apply addr_plain).
    assert (AY : forall pt, addr Y pt = padd c_ (pt dI - ci0)) by (intros; apply addr_plain).
    assert (PD : forall pt, In pt (domain_points dom origin) -> exists x, fi0 <= x <= fi1 /\ pt = pset origin dI x).
    { intros pt H. apply points1 in H as (x & Hx & ->). apply loop_range in Hx; [|cbn; lia].
      unfold b_lb, b_ub in Hx; cbn in Hx. exists x. split; [lia|reflexivity]. }
    destruct (assign_runs dom X (EFine Y ratio []) (fun pt => C (pt dI / ratio - ci0)) m)
      as (m' & E & Ei & Es & V & F).
    - unfold dom, X, Y. split; [k_dom|]. split; [|k_within].
      split; [k_span|]. split; [k_perm|]. cbn [wf_expr]. split; [k_span|]. split; [exact Hq|].
      split; [constructor|]. split; [k_perm|]. exists dI, (Bnd fi0 fi1). split; [left; reflexivity|].
      split; [reflexivity|]. split; [apply Permutation_refl|]. constructor; [left; reflexivity|constructor].
    - cbn. exact Hne.
    - eapply holds_allocated; [exact HA|]. unfold X. cbn. unfold cells_of, prodZ, extent, b_lb, b_ub; cbn. lia.
    - intros pt Hpt. apply PD in Hpt as (x & Hx & ->). cbn [denote]. rewrite AY.
      unfold coarse_point; cbn [find]. cbn [pset dI Nat.eqb].
      pose proof (Z.div_le_mono fi0 x ratio ltac:(lia) ltac:(lia)).
      pose proof (Z.div_le_mono x fi1 ratio ltac:(lia) ltac:(lia)).
      rewrite HC; [reflexivity|lia].
    - exists m'. split; [exact E|]. split.
      + split; [exact Ei|]. split; [exact Es|]. intros q Hq'. apply F. intros pt Hpt. rewrite AX. apply Hq'.
        apply PD in Hpt as (x & Hx & ->). cbn [pset dI Nat.eqb]. lia.
      + intros k Hk. specialize (V (pset origin dI (fi0 + k))). rewrite AX in V. cbn [pset dI Nat.eqb] in V.
        replace (fi0 + k - fi0) with k in V by lia. apply V.
        apply points1. exists (fi0 + k). split; [|reflexivity]. apply in_loop_values_unit; [reflexivity|].
        unfold b_lb, b_ub; cbn. lia.
  Qed.
End Span.
