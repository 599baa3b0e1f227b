(** * The order of the calls of the homogeneous boundary kernel *)

From Coq Require Import Bool Permutation.
From Verif Require Import Base ModelBounds ModelMatrix ModelIters ModelSpan Spec SpecIter ModelSched
  LemBase LemDomain LemExpr LemExec LemSched SpecAssign LemAssign LemProps LemProps4
  FortranBase SpecKernel SpecBoundary SpecBCOrder LemKernel LemKernel2 KernelNotations KernelsBC FortranHomog LemBC LemBoundary
  LemBCOrder LemBCOrderK LemHomog SpecHomogOrder.
Import ListNotations.
Open Scope Z_scope.

(** ** Steps that commute *)

Section Commute.
  Context {M C : Type} (K : C -> M -> option M).
  Definition commuting (c c' : C) : Prop := forall m, (x <- K c m ;; K c' x) = (x <- K c' m ;; K c x).

  Lemma commuting_perm l l' : Permutation l l' -> (forall c c', In c l -> In c' l -> commuting c c') ->
    forall m, forM l K m = forM l' K m.
  Proof.
    induction 1 as [|x l l' HP IH|x y l|l1 l2 l3 HP1 IH1 HP2 IH2]; intros HC m.
    - reflexivity.
    - cbn [forM]. apply bind_ext. intros m1 _. apply IH. intros; apply HC; right; assumption.
    - cbn [forM]. rewrite <- !bind_assoc. rewrite (HC y x) by (cbn; tauto). reflexivity.
    - rewrite (IH1 HC). apply IH2. intros c c' Hc Hc'.
      apply HC; (eapply Permutation_in; [symmetry; exact HP1|assumption]).
  Qed.

  Lemma commuting_again l : (forall c c', In c l -> In c' l -> commuting c c') ->
    (forall c m m', In c l -> K c m = Some m' -> K c m' = Some m') ->
    forall m m', forM l K m = Some m' -> forM l K m' = Some m'.
  Proof.
    intros HC HI.
    assert (forall c l', incl l' l -> In c l -> forall m m', K c m = Some m -> forM l' K m = Some m' -> K c m' = Some m') as Hk.
    { intros c l' Hin Hc. induction l' as [|x l' IH]; intros m m' Ec E; cbn [forM] in E; [injection E as <-; exact Ec|].
      destruct (K x m) as [m1|] eqn:E1; [|discriminate]. cbn [bind] in E.
      apply (IH ltac:(intros z Hz; apply Hin; right; exact Hz) m1 m'); [|exact E].
      pose proof (HC x c (Hin x (or_introl eq_refl)) Hc m) as H. rewrite E1, Ec in H. cbn [bind] in H. rewrite H. exact E1. }
    assert (forall l', incl l' l -> forall m m', forM l' K m = Some m' -> forall c, In c l' -> K c m' = Some m') as Hfix.
    { induction l' as [|x l' IH]; intros Hin m m' E c Hc; [destruct Hc|]. cbn [forM] in E.
      destruct (K x m) as [m1|] eqn:E1; [|discriminate]. cbn [bind] in E.
      assert (incl l' l) as Hin' by (intros z Hz; apply Hin; right; exact Hz).
      destruct Hc as [<-|Hc]; [|exact (IH Hin' m1 m' E c Hc)].
      apply (Hk x l' Hin' (Hin x (or_introl eq_refl)) m1 m'); [|exact E].
      exact (HI x m m1 (Hin x (or_introl eq_refl)) E1). }
    intros m m' E. pose proof (Hfix l (incl_refl _) m m' E) as H. clear E HC HI Hk Hfix.
    induction l as [|x l IH]; [reflexivity|]. cbn [forM]. rewrite H by (left; reflexivity). cbn [bind].
    apply IH. intros c Hc. apply H. right; exact Hc.
  Qed.
End Commute.

(** ** The steps of a call: the box and the two corners *)

Section Steps.
  Context {S : Scalar} (lo hi : Z -> Z) (u_ : ptr).
  Context (H0 : lo 0 <= hi 0) (H1 : lo 1 <= hi 1).
  Let us := make_md_span_g u_ 1 [Jb (lo 1) (hi 1); Ib (lo 0) (hi 0)].

  Definition hbox (c : bcall S) (m : mem S) : option (mem S) :=
    let exOrder := c_order c in
    let ib := Ib (Z.max (lo 0) (c_lo c 0)) (Z.min (hi 0) (c_hi c 0)) in
    let jb := Jb (Z.max (lo 1) (c_lo c 1)) (Z.min (hi 1) (c_hi c 1)) in
    let il := Ib (lo 0 - 1) (lo 0 - 1) in let ih := Ib (hi 0 + 1) (hi 0 + 1) in
    let jl := Jb (lo 1 - 1) (lo 1 - 1) in let jh := Jb (hi 1 + 1) (hi 1 + 1) in
    let f (u1 u2 u3 u4 : @expr S) (p : list dbnd) (m : mem S) :=
      let t13 := (lit 1 / lit 3)%T in
      let t15 := (lit 1 / lit 5)%T in
      let t45 := (lit 4 / lit 5)%T in
      let t17 := (lit 1 / lit 7)%T in
      if exOrder =? 1 then with_domain p [us ::= lit (-1) .* u1]%E m
      else if exOrder =? 2 then with_domain p [us ::= lit (-2) .* u1 + t13 .* u2]%E m
      else if exOrder =? 3 then with_domain p [us ::= lit (-3) .* u1 + u2 - t15 .* u3]%E m
      else if exOrder =? 4 then with_domain p [us ::= lit (-4) .* u1 + lit 2 .* u2 - t45 .* u3 + t17 .* u4]%E m
      else Some m in
    if c_face c =? 0 then f (shift us dI 1) (shift us dI 2) (shift us dI 3) (shift us dI 4) [jb; il] m
    else if c_face c =? 1 then f (shift us dI (-1)) (shift us dI (-2)) (shift us dI (-3)) (shift us dI (-4)) [jb; ih] m
    else if c_face c =? 2 then f (shift us dJ 1) (shift us dJ 2) (shift us dJ 3) (shift us dJ 4) [jl; ib] m
    else if c_face c =? 3 then f (shift us dJ (-1)) (shift us dJ (-2)) (shift us dJ (-3)) (shift us dJ (-4)) [jh; ib] m
    else Some m.

  Definition hcorner (c : bcall S) (m : mem S) : option (mem S) :=
    let il := Ib (lo 0 - 1) (lo 0 - 1) in let ih := Ib (hi 0 + 1) (hi 0 + 1) in
    let jl := Jb (lo 1 - 1) (lo 1 - 1) in let jh := Jb (hi 1 + 1) (hi 1 + 1) in
    let g (v : @expr S) (p : list dbnd) (m : mem S) := with_domain p [us ::= v]%E m in
    if c_face c =? 0 then g (shift_xy us 1 1) [jl; il] m
    else if c_face c =? 1 then g (shift_xy us (-1) 1) [jl; ih] m
    else if c_face c =? 2 then g (shift_xy us 1 (-1)) [jh; il] m
    else g (shift_xy us (-1) (-1)) [jh; ih] m.

  Definition hstep (c : bcall S) : mem S -> option (mem S) := if c_type c =? 1 then hbox c else hcorner c.

  Definition corner_call (f : Z) : bcall S :=
    let b := fun d => if side 2 2 f d =? -1 then lo d - 1 else hi d + 1 in mkCall 2 f b b 0 0 (lit 0) (lit 0).

  Definition hsteps (c : bcall S) : list (bcall S) :=
    if c_face c =? 0 then [c; corner_call 0; corner_call 2]
    else if c_face c =? 1 then [c; corner_call 1; corner_call 3]
    else if c_face c =? 2 then [c; corner_call 0; corner_call 1]
    else [c; corner_call 2; corner_call 3].

  Lemma hsteps_run (c : bcall S) m : on_face lo hi c -> call_homogenous_2d lo hi u_ c m = forM (hsteps c) hstep m.
  Proof.
    intros [Ht [Hf _]]. rewrite Ht in Hf. cbn in Hf.
    unfold call_homogenous_2d, cd_2d_set_homogenous_bc, hsteps.
    assert (c_face c = 0 \/ c_face c = 1 \/ c_face c = 2 \/ c_face c = 3) as HF by lia.
    assert (forall m, hstep c m = hbox c m) as Hb by (intros; unfold hstep; rewrite Ht; reflexivity).
    destruct HF as [E|[E|[E|E]]]; rewrite E; cbn [Z.eqb Pos.eqb forM]; rewrite Hb; unfold hbox; rewrite E; cbn [Z.eqb Pos.eqb];
      unfold hstep, hcorner; cbn [c_type c_face corner_call Z.eqb Pos.eqb]; apply bind_ext; intros m1 _; apply bind_ext; intros m2 _;
      match goal with |- ?a = bind ?b _ => change b with a; destruct a; reflexivity end.
  Qed.

  Definition Rin (p : ptr) : Prop :=
    fst p <> fst (sp_ptr us) \/ exists pt, in_bounds (sp_b us) pt /\ p = addr us pt /\ outside 2 lo hi (zc pt) < 1.

  Lemma hbox_confined c : on_face lo hi c -> deep lo hi c -> confined Rin (Wset 2 lo hi us c) (hbox c).
  Proof.
    intros [Ht Hp] Hd. pose proof Hp as [Hf Hpl]. destruct c as [type face bl bh bt eo al be].
    cbn [c_type c_face c_lo c_hi c_btype c_order c_alpha c_beta] in * . subst type. cbn in Hf.
    change Rin with (Rset 2 lo hi us (mkCall 1 face bl bh bt eo al be)).
    unfold hbox, deep in * . cbn [c_type c_face c_lo c_hi c_btype c_order c_alpha c_beta] in * . cbv zeta. unfold us; clear us.
    enum face 3; cbn [Z.eqb Pos.eqb]; b_dir Hpl 0; b_dir Hpl 1;
      (match type of Hd with context [?a / ?b] => let v := eval compute in (a / b) in change (a / b) with v in Hd end);
      b_leaf eo eo; b_launch Hp.
  Qed.

  Lemma corner_placed f : 0 <= f < 4 -> placed 2 lo hi (corner_call f).
  Proof.
    intros Hf. split; [exact Hf|]. cbn [corner_call c_type c_face c_lo c_hi].
    enum f 3; intros d Hd; assert (d = 0 \/ d = 1) as [->| ->] by lia; cbn; lia.
  Qed.

  Lemma us_order d : 0 <= d < 2 -> In (axis d) (sp_order us).
  Proof. intros Hd. assert (d = 0 \/ d = 1) as [->| ->] by lia; cbn; tauto. Qed.

  Lemma corner_confined f : 0 <= f < 4 -> confined Rin (Wset 2 lo hi us (corner_call f)) (hcorner (corner_call f)).
  Proof.
    intros Hf. pose proof (corner_placed f Hf) as Hp.
    assert (forall p, Wset 2 lo hi us (corner_call f) p -> ~ Rin p) as Hoff.
    { intros p Hw. apply (writes_reads 2 lo hi ltac:(lia) us us_order (corner_call f) (mkCall 1 0 lo hi 0 0 (lit 0) (lit 0)) p Hp); [cbn; lia|exact Hw]. }
    unfold hcorner. cbn [corner_call c_face]. cbv zeta.
    enum f 3; cbn [Z.eqb Pos.eqb];
      (match goal with |- confined _ _ (fun m => with_domain ?dom [?a] m) => apply (confined_assign dom a) end;
       [k_dom|unfold shift_xy; unfold us; k_assign|exact Hoff| |unfold shift_xy]).
    all: first [ intros pt Hpt; b_coords Hpt; exists pt; split; [unfold us; b_bounds|split; [reflexivity|]];
                 intros d Hd; assert (d = 0 \/ d = 1) as [->| ->] by lia; cbn; unfold zc, axis; cbn; lia
               | change Rin with (Rset 2 lo hi us (mkCall 1 0 lo hi 0 0 (lit 0 : S) (lit 0 : S))); unfold us; b_reads ].
  Qed.

  Definition good (c : bcall S) : Prop := on_face lo hi c /\ deep lo hi c \/ exists f, 0 <= f < 4 /\ c = corner_call f.

  Lemma good_placed c : good c -> placed 2 lo hi c.
  Proof. intros [[[_ H] _]|(f & Hf & ->)]; [exact H|apply corner_placed; exact Hf]. Qed.

  Lemma good_type c : good c -> 1 <= c_type c.
  Proof. intros H. pose proof (placed_type _ _ _ c (good_placed c H)). lia. Qed.

  Lemma good_confined c : good c -> confined Rin (Wset 2 lo hi us c) (hstep c).
  Proof.
    intros [[H Hd]|(f & Hf & ->)].
    - unfold hstep. destruct H as [Ht Hp]. rewrite Ht. cbn [Z.eqb Pos.eqb]. apply hbox_confined; [split; assumption|exact Hd].
    - exact (corner_confined f Hf).
  Qed.

  Lemma good_writes c p : good c -> Wset 2 lo hi us c p -> ~ Rin p.
  Proof. intros H Hw. exact (cf_off _ _ _ (good_confined c H) p Hw). Qed.

  Lemma separate_commuting c c' : good c -> good c' -> c = c' \/ separate 2 lo hi c c' -> commuting hstep c c'.
  Proof.
    intros G G' [<-|Hs] m; [reflexivity|].
    apply (confined_commute (good_confined c G) (good_confined c' G')).
    - intros p. apply (writes_writes 2 lo hi us us_order). exact Hs.
    - intros p. apply good_writes. exact G.
    - intros p. apply good_writes. exact G'.
  Qed.

  Lemma hsteps_good c : on_face lo hi c -> deep lo hi c -> forall s, In s (hsteps c) -> s = c \/ exists f, 0 <= f < 4 /\ s = corner_call f.
  Proof.
    intros _ _ s Hs. unfold hsteps in Hs.
    destruct (c_face c =? 0); [|destruct (c_face c =? 1); [|destruct (c_face c =? 2)]]; cbn [In] in Hs;
      destruct Hs as [<-|[<-|[<-|[]]]]; auto; right; eexists; (split; [|reflexivity]); lia.
  Qed.

  (** A ghost cell is beyond the patch in as many directions as the region. *)
  Lemma kinds_separate (c c' : bcall S) : placed 2 lo hi c -> placed 2 lo hi c' -> c_type c <> c_type c' -> separate 2 lo hi c c'.
  Proof.
    intros P P' Hn q C C'. apply Hn.
    rewrite <- (covers_outside 2 lo hi ltac:(lia) c q P C). exact (covers_outside 2 lo hi ltac:(lia) c' q P' C').
  Qed.

  Lemma corners_separate f f' : 0 <= f < 4 -> 0 <= f' < 4 -> f <> f' -> separate 2 lo hi (corner_call f) (corner_call f').
  Proof.
    intros Hf Hf' Hn q C C'.
    destruct (C 0 ltac:(lia)) as [A _], (C 1 ltac:(lia)) as [B _], (C' 0 ltac:(lia)) as [A' _], (C' 1 ltac:(lia)) as [B' _].
    cbn [corner_call c_lo c_hi] in A, B, A', B'. clear C C'.
    revert A B A' B' Hn. enum f 3; enum f' 3; cbn; lia.
  Qed.

  Context (cs : list (bcall S)) (Hon : Forall (on_face lo hi) cs) (Hdeep : Forall (deep lo hi) cs)
    (Hsep : ForallOrdPairs (separate 2 lo hi) cs).

  Lemma flat_good s : In s (flat_map hsteps cs) -> (In s cs \/ exists f, 0 <= f < 4 /\ s = corner_call f) /\ good s.
  Proof.
    intros Hs. apply in_flat_map in Hs as (c & Hc & Hs). rewrite Forall_forall in Hon, Hdeep.
    destruct (hsteps_good c (Hon c Hc) (Hdeep c Hc) s Hs) as [->|(f & Hf & ->)].
    - split; [left; exact Hc|left; auto].
    - split; right; exists f; auto.
  Qed.

  Lemma separate_sym (c c' : bcall S) : separate 2 lo hi c c' -> separate 2 lo hi c' c.
  Proof. intros H q A B. exact (H q B A). Qed.

  Lemma flat_commuting s s' : In s (flat_map hsteps cs) -> In s' (flat_map hsteps cs) -> commuting hstep s s'.
  Proof.
    intros Hs Hs'. apply flat_good in Hs as [Hs G], Hs' as [Hs' G']. apply separate_commuting; auto.
    rewrite Forall_forall in Hon.
    destruct Hs as [Hs|(f & Hf & ->)], Hs' as [Hs'|(f' & Hf' & ->)].
    - destruct (ForallOrdPairs_In Hsep s s' Hs Hs') as [E|[E|E]]; [left; exact E|right; exact E|right; apply separate_sym; exact E].
    - right. apply kinds_separate; [apply good_placed; exact G|apply good_placed; exact G'|]. destruct (Hon s Hs) as [-> _]. discriminate.
    - right. apply kinds_separate; [apply good_placed; exact G|apply good_placed; exact G'|]. destruct (Hon s' Hs') as [-> _]. discriminate.
    - destruct (Z.eq_dec f f') as [->|Hn]; [left; reflexivity|right; apply corners_separate; auto].
  Qed.

  Lemma flat_run l m : Forall (on_face lo hi) l -> forM l (call_homogenous_2d lo hi u_) m = forM (flat_map hsteps l) hstep m.
  Proof.
    intros Hl. revert m. induction Hl as [|c l Hc Hl IH]; intros m; [reflexivity|].
    cbn [forM flat_map]. rewrite forM_app, hsteps_run by exact Hc. apply bind_ext. intros m1 _. apply IH.
  Qed.

  Lemma homogenous_order cs' m : Permutation cs cs' ->
    forM cs (call_homogenous_2d lo hi u_) m = forM cs' (call_homogenous_2d lo hi u_) m.
  Proof.
    intros HP. rewrite !flat_run; [|rewrite <- HP; exact Hon|exact Hon].
    apply commuting_perm; [apply Permutation_flat_map; exact HP|]. exact flat_commuting.
  Qed.

  Lemma homogenous_again m m' :
    forM cs (call_homogenous_2d lo hi u_) m = Some m' -> forM cs (call_homogenous_2d lo hi u_) m' = Some m'.
  Proof.
    rewrite !flat_run by exact Hon. apply commuting_again; [exact flat_commuting|].
    intros c n n' Hc E. apply flat_good in Hc as [_ G].
    apply (confined_again Rin (Wset 2 lo hi us c) (hstep c) n n' n' (good_confined c G) E); auto.
  Qed.
End Steps.

(** ** The Fortran subroutine *)

Section FortranCalls.
  Context {S : Scalar} (L : field_laws S) (lo hi : Z -> Z) (u : ptr).
  Context (H0 : lo 0 <= hi 0) (H1 : lo 1 <= hi 1).

  Lemma fortran_run (c : bcall S) m : on_face lo hi c -> 1 <= c_order c <= 4 ->
    call_homogenous_2d_fortran lo hi u c m = call_homogenous_2d lo hi u c m.
  Proof.
    intros [Ht [_ Hp]] Ho. unfold call_homogenous_2d, call_homogenous_2d_fortran. symmetry.
    rewrite Ht in Hp. pose proof (Hp 0 ltac:(lia)) as P0. pose proof (Hp 1 ltac:(lia)) as P1. clear Hp.
    apply (cd_2d_set_homogenous_bc_eq L); [exact Ho| |]; intros [E|E]; rewrite E in P0, P1; cbn in P0, P1; auto; split; auto; lia.
  Qed.

  Lemma fortran_runs (cs : list (bcall S)) m : Forall (on_face lo hi) cs -> Forall (fun c : bcall S => 1 <= c_order c <= 4) cs ->
    forM cs (call_homogenous_2d_fortran lo hi u) m = forM cs (call_homogenous_2d lo hi u) m.
  Proof.
    intros A B. rewrite Forall_forall in A, B. apply forM_ext_in. intros c n Hc. apply fortran_run; auto.
  Qed.

  Lemma homogenous_fortran_order (cs cs' : list (bcall S)) m : Forall (on_face lo hi) cs -> Forall (fun c : bcall S => 1 <= c_order c <= 4) cs ->
    Forall (deep lo hi) cs -> ForallOrdPairs (separate 2 lo hi) cs -> Permutation cs cs' ->
    forM cs (call_homogenous_2d_fortran lo hi u) m = forM cs' (call_homogenous_2d_fortran lo hi u) m.
  Proof.
    intros A B C D HP. rewrite fortran_runs by assumption. rewrite fortran_runs by (rewrite <- HP; assumption).
    apply homogenous_order; assumption.
  Qed.

  Lemma homogenous_fortran_again (cs : list (bcall S)) m m' : Forall (on_face lo hi) cs -> Forall (fun c : bcall S => 1 <= c_order c <= 4) cs ->
    Forall (deep lo hi) cs -> ForallOrdPairs (separate 2 lo hi) cs ->
    forM cs (call_homogenous_2d_fortran lo hi u) m = Some m' -> forM cs (call_homogenous_2d_fortran lo hi u) m' = Some m'.
  Proof.
    intros A B C D. rewrite !fortran_runs by assumption. apply homogenous_again; assumption.
  Qed.
End FortranCalls.
