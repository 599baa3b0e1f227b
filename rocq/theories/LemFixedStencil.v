(** * Smoothers written for a fixed stencil *)

From Verif Require Import Base FortranBase FortranLoops FortranSmooth SpecIter LemBase LemDomain LemAssign LemKernel LemKernel2 LemStencil LemSafe
  SpecRow SpecSmooth LemFortran LemSmooth LemCells LemJacobi.
Import ListNotations.
Open Scope Z_scope.

Section Fixed.
  Context {S : Scalar}.

  Lemma do_step_ext_keeps {M} (Q : M -> Prop) lo hi st (f g : Z -> M -> option M) m :
    (forall x m', Q m' -> f x m' = g x m') -> (forall x, keeps Q (g x)) -> Q m ->
    do_step lo hi st f m = do_step lo hi st g m.
  Proof. intros H K HQ. unfold do_step. apply (forM_ext_keeps Q); auto. Qed.

  Lemma do_step_keeps {M} (Q : M -> Prop) lo hi st (f : Z -> M -> option M) : (forall x, keeps Q (f x)) -> keeps Q (do_step lo hi st f).
  Proof. intros H m m' HQ E. unfold do_step in E. exact (forM_keeps Q _ _ (fun x _ => H x) m m' HQ E). Qed.

  Lemma fset_ints a is (e : fexp S) z : keeps (fun m => ints m = z) (fset a is e).
  Proof. intros m m' H E. unfold fset in E. apply bind_Some_inv in E as (v & _ & E). rewrite (store_ints _ _ _ _ E). exact H. Qed.

  Lemma flet_ints (e : fexp S) (s : S -> mem S -> option (mem S)) z :
    (forall x, keeps (fun m => ints m = z) (s x)) -> keeps (fun m => ints m = z) (flet e s).
  Proof. intros H m m' Hm E. unfold flet in E. apply bind_Some_inv in E as (v & _ & E). exact (H v m m' Hm E). Qed.

  (** A table read in a memory with the same integers. *)
  Lemma table_read (m0 m : mem S) tab cols s k col o : table_is m0 tab cols -> ints m = ints m0 ->
    nth_error cols s = Some col -> nth_error col k = Some o -> loadi m (faddr tab [Z.of_nat k; Z.of_nat s]) = Some o.
  Proof. intros H E Hs Hk. unfold loadi. rewrite E. exact (H s col Hs k o Hk). Qed.

  Lemma facc_unfold lo hi (e : fexp S) step m : facc lo hi e step m = (r <- e m ;; forM (zvals lo hi) (fun s r => step s r m) r).
  Proof. reflexivity. Qed.

  Ltac read_tab T E :=
    repeat match goal with |- context [loadi ?m (faddr ?tab [?k; ?s])] =>
      let kn := eval compute in (Z.to_nat k) in let sn := eval compute in (Z.to_nat s) in
      let H := fresh in pose proof (table_read _ m tab _ sn kn _ _ T E eq_refl eq_refl) as H;
      cbn [Z.of_nat Pos.of_succ_nat Pos.succ] in H; rewrite H; clear H; cbn [bind] end.
  Ltac fixed_body T E :=
    unfold flet, fset; rewrite facc_unfold;
    match goal with |- context [zvals ?a ?b] => let l := eval vm_compute in (zvals a b) in change (zvals a b) with l end;
    unfold fint, fop, fsc, fel; cbn [forM];
    read_tab T E; rewrite ?Z.add_0_r; unfold Z.sub; cbn [Z.opp];
    repeat match goal with |- context [load ?m ?q] => destruct (load m q); cbn [bind]; try reflexivity end.

  Lemma cells5rbgs2d_table : forall lo0 hi0 lo1 hi1 color offset slo0 shi0 slo1 shi1 st flo0 fhi0 flo1 fhi1 f ulo0 uhi0 ulo1 uhi1 u (m : mem S),
    table_is m (mkFa offset [(0, 1); (0, 4)]) [[0; 0]; [-1; 0]; [1; 0]; [0; -1]; [0; 1]] ->
    cells5rbgs2d lo0 hi0 lo1 hi1 color slo0 shi0 slo1 shi1 st flo0 fhi0 flo1 fhi1 f ulo0 uhi0 ulo1 uhi1 u m =
    cellrbgs2d lo0 hi0 lo1 hi1 color 5 offset slo0 shi0 slo1 shi1 st flo0 fhi0 flo1 fhi1 f ulo0 uhi0 ulo1 uhi1 u m.
  Proof.
    intros lo0 hi0 lo1 hi1 color offset slo0 shi0 slo1 shi1 st flo0 fhi0 flo1 fhi1 f ulo0 uhi0 ulo1 uhi1 u m T. unfold cells5rbgs2d, cellrbgs2d. change (5 - 1) with 4.
    apply (do_ext_keeps (fun m' => ints m' = ints m)); [|intros; apply do_step_keeps; intros; apply flet_ints; intros; apply fset_ints|reflexivity].
    intros j m1 _ E1. apply (do_step_ext_keeps (fun m' => ints m' = ints m)); [|intros; apply flet_ints; intros; apply fset_ints|exact E1].
    intros i m2 E2. fixed_body T E2.
  Qed.

  Lemma cells9rbgs2d_table : forall lo0 hi0 lo1 hi1 color offset slo0 shi0 slo1 shi1 st flo0 fhi0 flo1 fhi1 f ulo0 uhi0 ulo1 uhi1 u (m : mem S),
    table_is m (mkFa offset [(0, 1); (0, 8)]) [[0; 0]; [-1; 0]; [1; 0]; [0; -1]; [0; 1]; [-1; -1]; [1; -1]; [-1; 1]; [1; 1]] ->
    cells9rbgs2d lo0 hi0 lo1 hi1 color slo0 shi0 slo1 shi1 st flo0 fhi0 flo1 fhi1 f ulo0 uhi0 ulo1 uhi1 u m =
    cellrbgs2d lo0 hi0 lo1 hi1 color 9 offset slo0 shi0 slo1 shi1 st flo0 fhi0 flo1 fhi1 f ulo0 uhi0 ulo1 uhi1 u m.
  Proof.
    intros lo0 hi0 lo1 hi1 color offset slo0 shi0 slo1 shi1 st flo0 fhi0 flo1 fhi1 f ulo0 uhi0 ulo1 uhi1 u m T. unfold cells9rbgs2d, cellrbgs2d. change (9 - 1) with 8.
    apply (do_ext_keeps (fun m' => ints m' = ints m)); [|intros; apply do_step_keeps; intros; apply flet_ints; intros; apply fset_ints|reflexivity].
    intros j m1 _ E1. apply (do_step_ext_keeps (fun m' => ints m' = ints m)); [|intros; apply flet_ints; intros; apply fset_ints|exact E1].
    intros i m2 E2. fixed_body T E2.
  Qed.

  Lemma cells7rbgs3d_table : forall lo0 hi0 lo1 hi1 lo2 hi2 color offset slo0 shi0 slo1 shi1 slo2 shi2 st flo0 fhi0 flo1 fhi1 flo2 fhi2 f ulo0 uhi0 ulo1 uhi1 ulo2 uhi2 u (m : mem S), fst u <> fst st ->
    table_is m (mkFa offset [(0, 2); (0, 6)]) [[0; 0; 0]; [-1; 0; 0]; [1; 0; 0]; [0; -1; 0]; [0; 1; 0]; [0; 0; -1]; [0; 0; 1]] ->
    cells7rbgs3d lo0 hi0 lo1 hi1 lo2 hi2 color slo0 shi0 slo1 shi1 slo2 shi2 st flo0 fhi0 flo1 fhi1 flo2 fhi2 f ulo0 uhi0 ulo1 uhi1 ulo2 uhi2 u m =
    cellrbgs3d lo0 hi0 lo1 hi1 lo2 hi2 color 7 offset slo0 shi0 slo1 shi1 slo2 shi2 st flo0 fhi0 flo1 fhi1 flo2 fhi2 f ulo0 uhi0 ulo1 uhi1 ulo2 uhi2 u m.
  Proof.
    intros lo0 hi0 lo1 hi1 lo2 hi2 color offset slo0 shi0 slo1 shi1 slo2 shi2 st flo0 fhi0 flo1 fhi1 flo2 fhi2 f ulo0 uhi0 ulo1 uhi1 ulo2 uhi2 u m Au T. unfold cells7rbgs3d, cellrbgs3d. change (7 - 1) with 6.
    apply (do_ext_keeps (fun m' => ints m' = ints m)); [|intros; apply do_keeps; intros; apply do_step_keeps; intros; apply flet_ints; intros; apply fset_ints|reflexivity].
    intros k m1 _ E1. apply (do_ext_keeps (fun m' => ints m' = ints m)); [|intros; apply do_step_keeps; intros; apply flet_ints; intros; apply fset_ints|exact E1].
    intros j m2 _ E2. apply (do_step_ext_keeps (fun m' => ints m' = ints m)); [|intros; apply flet_ints; intros; apply fset_ints|exact E2].
    intros i m3 E3.
    rewrite (fset_fset (mkFa u (CELL3d ulo0 ulo1 ulo2 uhi0 uhi1 uhi2 0)) [i; j; k] _ _ (fun v => fop sdiv (fsc v) (fel (mkFa st ((0, 6) :: CELL3d slo0 slo1 slo2 shi0 shi1 shi2 0)) [0; i; j; k])) m3 ltac:(reflexivity) ltac:(intros; f_blind)).
    fixed_body T E3.
  Qed.

End Fixed.
