(** * Lemmas behind the tests of the window iterator *)

From Coq Require Import ZifyBool ZifyNat Permutation.
From Verif Require Import Base ModelBounds ModelMatrix ModelIters ModelSpan ModelProxy ModelSched Spec SpecIter
  SpecAssign SpecWindow KernelNotations KernelsTest SpecTest LemBase LemMatrix LemExec LemAssign LemProps LemProps2
  LemProps4 LemWindow LemWindow2 LemKernel LemKernel2 LemTest1.
Import ListNotations.
Open Scope Z_scope.

Section Window.
  Context {S : Scalar}.

  Lemma window_runs st dom (l : list (@wassign S)) (m : mem S) :
    window_ok st dom l -> window_indep st l -> strides_divide dom -> window_local st dom l ->
    (forall pt, In pt (domain_points dom origin) -> exists f, point_spec st l pt m = Some f) ->
    exists m', with_window st dom l m = Some m' /\ ints m' = ints m /\ shape m' = shape m /\
      (forall pt f, In pt (domain_points dom origin) -> point_spec st l pt m = Some f ->
         forall x, In x (flat_map (wwrites st pt) l) -> load m' x = load f x) /\
      (forall x, (forall pt a, In pt (domain_points dom origin) -> In a l -> ~ In x (wwrites st pt a)) ->
         load m' x = load m x).
  Proof.
    intros Hok Hind Hdiv Hloc Hdef.
    pose proof (window_local_disjoint st dom l (ints m) Hok Hloc) as Hdis.
    destruct (window_defined st dom l m Hok Hind Hdis) as [m' E].
    { intros pt Hpt. destruct (Hdef pt Hpt) as [f ->]. discriminate. }
    exists m'. split; [exact E|]. destruct (window_frame st dom l m m' Hok Hind E) as (Hs & Hi & Hf).
    split; [exact Hi|]. split; [exact Hs|]. split; [|exact Hf].
    intros pt f Hpt Ef x Hx. destruct (window_effect st dom l m m' Hok Hind Hdiv Hdis E pt Hpt) as (f' & Ef' & H).
    rewrite Ef in Ef'. injection Ef' as <-. apply H. exact Hx.
  Qed.

  Lemma store_at (m : mem S) p w v : load m p = Some w ->
    exists m', store m p v = Some m' /\ forall q, load m' q = if ptr_dec p q then Some v else load m q.
  Proof.
    intros H. destruct (proj1 (store_Some m p v)) as [m' E]; [eauto|]. exists m'. split; [exact E|].
    intros q. apply (load_store _ _ _ _ _ E).
  Qed.

  Lemma padd_inj (p : ptr) a b : padd p a = padd p b <-> a = b.
  Proof. split; [|intros ->; reflexivity]. intros E. injection E as E. lia. Qed.

  Section Rows.
    Context (v_ : ptr) (w : Z) (Hw : 0 <= w).
    Let st := make_md_span v_ [Ib 1 5; Wb 0 w].
    Let dom := [Ib 1 5].

    Lemma row_entry pt i : entry_at st pt i = padd v_ ((pt dI - 1) * (w + 1) + i).
    Proof.
      unfold entry_at, st. cbn [make_md_span sp_b map d_unit rev app].
      unfold addr. cbn. f_equal. unfold cells_of, prodZ, extent, b_lb, b_ub; cbn. ring.
    Qed.

    Lemma row_points pt : In pt (domain_points dom origin) <-> exists x, 1 <= x <= 5 /\ pt = pset origin dI x.
    Proof.
      unfold dom. split.
      - intros H. apply points1 in H as (x & Hx & ->). apply loop_range in Hx; [|cbn; lia].
        unfold b_lb, b_ub in Hx; cbn in Hx. exists x. split; [lia|reflexivity].
      - intros (x & Hx & ->). apply points1. exists x. split; [|reflexivity]. apply in_loop_values_unit; [reflexivity|].
        unfold b_lb, b_ub; cbn. lia.
    Qed.

    Lemma row_cell k : 0 <= k < 5 * (w + 1) -> exists x i, 1 <= x <= 5 /\ 0 <= i <= w /\ k = (x - 1) * (w + 1) + i.
    Proof.
      intros Hk. exists (k / (w + 1) + 1), (k mod (w + 1)).
      pose proof (Z.div_mod k (w + 1) ltac:(lia)). pose proof (Z.mod_pos_bound k (w + 1) ltac:(lia)).
      split; [|split; [lia|lia]]. split; [pose proof (Z.div_pos k (w + 1)); lia|].
      assert (k / (w + 1) < 5); [|lia]. apply Z.div_lt_upper_bound; lia.
    Qed.
  End Rows.

  (** ** The programs *)

  Ltac t_wok w :=
    split; [k_dom|]; split; [k_span|]; split; [exists [Ib 1 5], dW, (Bnd 0 w); split; [reflexivity|k_perm]|];
    split; [repeat first [apply Forall_nil|apply Forall_cons];
            unfold PNeg; cbn [wa_ok rhs_ok compiles is_proxy andb orb supported_proxy pvecs app];
            repeat first [exact Logic.I|reflexivity|left; reflexivity|solve [k_span]|solve [k_perm]|split]|];
    split; [repeat first [apply Forall_nil|apply Forall_cons];
            unfold PNeg; cbn [wa_vecs pvecs app]; first [solve [k_expr]|repeat first [apply Forall_nil|apply Forall_cons; [solve [k_expr]|]]]|];
    first [ left; solve [repeat first [apply Forall_nil|apply Forall_cons; [reflexivity|]]]
          | right; left; solve [repeat first [apply Forall_nil|apply Forall_cons; [reflexivity|]]]
          | right; right; solve [repeat first [apply Forall_nil|apply Forall_cons; [split; [reflexivity|exact Logic.I]|]]] ].

  Ltac t_windep :=
    split;
    [ repeat first [apply FOP_nil|apply FOP_cons];
      unfold PNeg; cbn [fetched_ok wa_vecs pvecs app];
      repeat first [apply Forall_nil|apply Forall_cons]; right; cbn; repeat split; congruence
    | repeat first [apply Forall_nil|apply Forall_cons; [first [exact Logic.I|left; reflexivity]|]] ].

  Ltac t_case H :=
    cbn [In wa_indices st_indices app PNeg] in H;
    repeat match type of H with _ \/ _ => destruct H as [H|H] | False => destruct H end.

  Ltac t_wlocal w :=
    exists [Ib 1 5], dW, (Bnd 0 w); split; [reflexivity|]; split; [k_within|];
    split; [let a := fresh "a" in let i := fresh "i" in let Ha := fresh in let Hi := fresh in
            intros a i Ha Hi; t_case Ha; subst a; unfold PNeg in Hi; t_case Hi; subst i; unfold extent; cbn; lia|];
    split; [let x := fresh in let p := fresh in let H := fresh in
            intros x p H; t_case H; first [discriminate|injection H as <- <-; split; [k_within|split; [cbn; congruence|]];
            let y := fresh in let q := fresh in let H := fresh in
            intros y q H; t_case H; injection H as <- <-; left; reflexivity]|];
    let a := fresh "a" in let b := fresh "b" in let Ha := fresh in let Hb := fresh in
    intros a b Ha Hb; t_case Ha; subst a; t_case Hb; subst b; unfold PNeg; cbn [wa_vecs pvecs app wa_block];
    repeat first [apply Forall_nil|apply Forall_cons; [cbn; repeat split; congruence|]].

  (** A step of [point_spec]. *)
  Lemma ptr_case (p : ptr) a b (A : Type) (x y : A) : 
    (if ptr_dec (padd p a) (padd p b) then x else y) = if a =? b then x else y.
  Proof.
    destruct (ptr_dec _ _) as [e|e]; rewrite padd_inj in e; destruct (Z.eqb_spec a b); congruence.
  Qed.

  (** Programs of assignments [v(i) = r]. *)
  Lemma rows_run (v_ : ptr) w (La : list (Z * proxy)) (m : mem S) V (R : Z -> Z -> S) :
    let st := make_md_span v_ [Ib 1 5; Wb 0 w] in
    let l := map (fun a => WSet1 (fst a) (snd a)) La in
    0 <= w -> holds m v_ (5 * (w + 1)) V ->
    window_ok st [Ib 1 5] l -> window_indep st l -> window_local st [Ib 1 5] l ->
    (forall a, In a La -> 0 <= fst a <= w) ->
    (forall x, 1 <= x <= 5 -> exists f, point_spec st l (pset origin dI x) m = Some f /\
       forall i, In i (map fst La) -> load f (padd v_ ((x - 1) * (w + 1) + i)) = Some (R x i)) ->
    exists m', with_window st [Ib 1 5] l m = Some m' /\ only v_ (5 * (w + 1)) m m' /\
      forall x i, 1 <= x <= 5 -> 0 <= i <= w ->
        load m' (padd v_ ((x - 1) * (w + 1) + i)) =
        Some (if existsb (Z.eqb i) (map fst La) then R x i else V ((x - 1) * (w + 1) + i)).
  Proof.
    intros st l Hw HV Hok Hind Hloc Hidx PS.
    destruct (window_runs st [Ib 1 5] l m Hok Hind) as (m' & E & Hi & Hs & Hv & Hf); [|exact Hloc|..].
    - repeat first [apply Forall_nil|apply Forall_cons; [apply Z.divide_1_l|]].
    - intros pt Hpt. apply row_points in Hpt as (x & Hx & ->). destruct (PS x Hx) as (f & E & _). exists f. exact E.
    - assert (WR : forall x i, In i (map fst La) ->
                In (padd v_ ((x - 1) * (w + 1) + i)) (flat_map (wwrites st (pset origin dI x)) l)).
      { intros x i Hin. apply in_map_iff in Hin as (a & <- & Ha). apply in_flat_map. exists (WSet1 (fst a) (snd a)).
        split; [apply in_map_iff; exists a; auto|]. left. unfold st. rewrite row_entry. reflexivity. }
      assert (WI : forall x a q, In a l -> In q (wwrites st (pset origin dI x) a) ->
                exists i, In i (map fst La) /\ q = padd v_ ((x - 1) * (w + 1) + i)).
      { intros x a q Ha Hq. apply in_map_iff in Ha as (b & <- & Hb). destruct Hq as [<-|[]].
        exists (fst b). split; [apply in_map; exact Hb|]. unfold st. rewrite row_entry. reflexivity. }
      assert (IR : forall i, In i (map fst La) -> 0 <= i <= w).
      { intros i Hin. apply in_map_iff in Hin as (a & <- & Ha). apply Hidx. exact Ha. }
      exists m'. split; [exact E|]. split; [split; [exact Hi|split; [exact Hs|]]|].
      + intros q Hq. apply Hf. intros pt a Hpt Ha Hin. apply row_points in Hpt as (x & Hx & ->).
        destruct (WI x a q Ha Hin) as (i & Hi' & ->). apply (Hq ((x - 1) * (w + 1) + i)); [|reflexivity].
        specialize (IR i Hi'). nia.
      + intros x i Hx Hi'. destruct (existsb (Z.eqb i) (map fst La)) eqn:B.
        * apply existsb_exists in B as (j & Hj & Ej). apply Z.eqb_eq in Ej. subst j.
          destruct (PS x Hx) as (f & Ef & F). rewrite (Hv (pset origin dI x) f); [apply F; exact Hj| |exact Ef|apply WR; exact Hj].
          apply row_points. exists x; auto.
        * rewrite Hf; [apply HV; nia|]. intros pt a Hpt Ha Hin. apply row_points in Hpt as (y & Hy & ->).
          destruct (WI y a _ Ha Hin) as (j & Hj & Ej). apply padd_inj in Ej. specialize (IR j Hj).
          apply radix in Ej as [_ ->]; [|lia|lia].
          assert (existsb (Z.eqb j) (map fst La) = true); [|congruence]. apply existsb_exists. exists j. split; [exact Hj|apply Z.eqb_refl].
  Qed.

  Lemma row_mod x w i : 0 <= w -> 0 <= i <= w -> ((x - 1) * (w + 1) + i) mod (w + 1) = i.
  Proof. intros Hw Hi. rewrite Z.add_comm, Z.mod_add by lia. apply Z.mod_small. lia. Qed.

  Ltac t_open := cbn [map fst snd]; cbn [point_spec forM wassign_at pvalue bind]; unfold PNeg; cbn [pvalue];
    rewrite !row_entry; cbn [pset dI Nat.eqb].

  Lemma window_transform_lem (v_ : ptr) (m : mem S) V : holds m v_ 10 V ->
    exists m', window_transform v_ 10 m = Some m' /\ only v_ 10 m m' /\
      holds m' v_ 10 (fun k => if k mod 2 =? 0 then lit 1 else (V k + # 2)%T).
  Proof.
    intros HV. unfold window_transform. cbn [require Z.eqb Pos.eqb bind].
    destruct (rows_run v_ 1 [(0, PNum (@lit S 1)); (1, POp OAdd (PSt 1) (PNum (@lit S 2)))] m V
      (fun x i => if i =? 0 then lit 1 else (V ((x - 1) * 2 + 1)%Z + # 2)%T)) as (m' & E & HO & HR).
    - lia.
    - exact HV.
    - cbn [map fst snd]. t_wok 1.
    - cbn [map fst snd]. t_windep.
    - cbn [map fst snd]. t_wlocal 1.
    - intros a [<-|[<-|[]]]; cbn [fst]; lia.
    - intros x Hx. t_open. change (1 + 1) with 2.
      destruct (store_at m (padd v_ ((x - 1) * 2 + 0)) _ (lit 1) (HV ((x - 1) * 2 + 0) ltac:(lia))) as (m1 & E1 & L1). rewrite E1. cbn [bind].
      rewrite (L1 (padd v_ ((x - 1) * 2 + 1))), ptr_case.
      replace ((x - 1) * 2 + 0 =? (x - 1) * 2 + 1) with false by lia. rewrite HV by lia. cbn [bind app_op num_op].
      destruct (store_at m1 (padd v_ ((x - 1) * 2 + 1)) (V ((x - 1) * 2 + 1)) (V ((x - 1) * 2 + 1)%Z + # 2)%T) as (m2 & E2 & L2).
      { rewrite L1, ptr_case. replace ((x - 1) * 2 + 0 =? (x - 1) * 2 + 1) with false by lia. apply HV. lia. }
      rewrite E2. exists m2. split; [reflexivity|]. intros i [<-|[<-|[]]]; rewrite !L2, !ptr_case.
      + replace ((x - 1) * 2 + 1 =? (x - 1) * 2 + 0) with false by lia. rewrite L1, ptr_case, Z.eqb_refl. reflexivity.
      + rewrite Z.eqb_refl. reflexivity.
    - exists m'. split; [exact E|]. split; [exact HO|].
      intros k Hk. destruct (row_cell 1 ltac:(lia) k ltac:(lia)) as (x & i & Hx & Hi' & ->). rewrite HR by assumption.
      change (1 + 1) with 2.
      assert (((x - 1) * 2 + i) mod 2 = i) as -> by (apply (row_mod x 1 i); lia). cbn [map fst existsb].
      assert (i = 0 \/ i = 1) as [->| ->] by lia; reflexivity.
  Qed.

  Lemma window_transform2_lem (v_ : ptr) (m : mem S) V : holds m v_ 15 V ->
    exists m', window_transform2 v_ 15 m = Some m' /\ only v_ 15 m m' /\
      holds m' v_ 15 (fun k => if k mod 3 =? 0 then (# (-1) * (V (k + 1)%Z + V (k + 2)%Z) + # 4 - # 1)%T else V k).
  Proof.
    intros HV. unfold window_transform2. cbn [require Z.eqb Pos.eqb bind]. cbv zeta.
    destruct (rows_run v_ 2 [(0, POp OSub (POp OAdd (PNeg (POp OAdd (PSt 1) (PSt 2))) (PNum (@lit S 4))) (PNum (@lit S 1)))] m V
      (fun x i => let k := (x - 1) * 3 in (# (-1) * (V (k + 1)%Z + V (k + 2)%Z) + # 4 - # 1)%T)) as (m' & E & HO & HR).
    - lia.
    - exact HV.
    - cbn [map fst snd]. t_wok 2.
    - cbn [map fst snd]. t_windep.
    - cbn [map fst snd]. t_wlocal 2.
    - intros a [<-|[]]; cbn [fst]; lia.
    - intros x Hx. t_open. change (2 + 1) with 3.
      rewrite !HV by lia. cbn [bind app_op num_op].
      destruct (store_at m (padd v_ ((x - 1) * 3 + 0)) _
        (# (-1) * (V ((x - 1) * 3 + 1)%Z + V ((x - 1) * 3 + 2)%Z) + # 4 - # 1)%T (HV ((x - 1) * 3 + 0) ltac:(lia))) as (m1 & E1 & L1).
      rewrite E1. exists m1. split; [reflexivity|]. intros i [<-|[]]. rewrite L1, ptr_case, Z.eqb_refl. reflexivity.
    - exists m'. split; [exact E|]. split; [exact HO|].
      intros k Hk. destruct (row_cell 2 ltac:(lia) k ltac:(lia)) as (x & i & Hx & Hi' & ->). rewrite HR by assumption.
      change (2 + 1) with 3.
      assert (((x - 1) * 3 + i) mod 3 = i) as -> by (apply (row_mod x 2 i); lia). cbn [map fst existsb].
      assert (i = 0 \/ i = 1 \/ i = 2) as [->|[->| ->]] by lia; try reflexivity. rewrite Z.add_0_r. reflexivity.
  Qed.

  (** The vector [3*u]. *)
  Lemma addr_u p pt : addr (make_md_span p [Ib 1 5]) pt = padd p (pt dI - 1).
  Proof. apply addr_plain. Qed.

  Lemma window_transform3_lem (v_ u_ : ptr) (m : mem S) V U : fst v_ <> fst u_ ->
    holds m v_ 15 V -> holds m u_ 5 U ->
    exists m', window_transform3 v_ 15 u_ m = Some m' /\ only v_ 15 m m' /\
      holds m' v_ 15 (fun k => if k mod 3 =? 0 then (# (-1) * (V (k + 1)%Z + V (k + 2)%Z) + # 3 * U (k / 3)%Z)%T else V k).
  Proof.
    intros Hne HV HU. unfold window_transform3. cbn [require Z.eqb Pos.eqb bind]. cbv zeta.
    set (e := (@lit S 3 .* $(make_md_span u_ [Ib 1 5]))%E).
    assert (Hd : wf_dom [Ib 1 5]) by k_dom.
    assert (He : wf_expr e [Ib 1 5]) by (unfold e; k_expr).
    destruct (eval_evaluates e [Ib 1 5] Hd He) as (it & Eit & Hit).
    unfold rhs_iters at 1. unfold PNeg at 1 2. cbn [compiles is_proxy andb orb proxy_index Nat.max]. unfold PNeg at 1. cbn [get_iterators bind].
    rewrite Eit. cbn [bind app]. unfold tup_deref, tup_entry. cbn [mapM].
    assert (exists z, it_deref it m = Some z) as (z & Ez).
    { destruct (Hit 0%nat (pset origin dI 1)) as (it' & St & Hv); [reflexivity|]. cbn [steps] in St. injection St as <-.
      rewrite Hv. unfold e. cbn [denote]. rewrite addr_u. cbn [pset dI Nat.eqb]. rewrite HU by lia. cbn [bind app_op num_op]. eauto. }
    assert (P : (if is_ref it then Some (ERef it) else v <- it_deref it m ;; Some (EVal v)) = Some (if is_ref it then ERef it else EVal z)).
    { rewrite Ez. destruct (is_ref it); reflexivity. }
    rewrite P. cbn [bind nth_error].
    assert (P2 : entry_val (if is_ref it then ERef it else EVal z) m = Some z) by (destruct (is_ref it); [exact Ez|reflexivity]).
    rewrite P2. cbn [bind].
    destruct (rows_run v_ 2 [(0, POp OAdd (PNeg (POp OAdd (PSt 1) (PSt 2))) (PVec e))] m V
      (fun x i => let k := (x - 1) * 3 in (# (-1) * (V (k + 1)%Z + V (k + 2)%Z) + # 3 * U (x - 1)%Z)%T)) as (m' & E & HO & HR).
    - lia.
    - exact HV.
    - cbn [map fst snd]. unfold e. t_wok 2.
    - cbn [map fst snd]. unfold e. t_windep.
    - cbn [map fst snd]. unfold e. t_wlocal 2.
    - intros a [<-|[]]; cbn [fst]; lia.
    - intros x Hx. t_open. change (2 + 1) with 3. unfold e. cbn [denote]. rewrite addr_u. cbn [pset dI Nat.eqb].
      rewrite !HV, HU by lia. cbn [bind app_op num_op].
      destruct (store_at m (padd v_ ((x - 1) * 3 + 0)) _
        (# (-1) * (V ((x - 1) * 3 + 1)%Z + V ((x - 1) * 3 + 2)%Z) + # 3 * U (x - 1)%Z)%T (HV ((x - 1) * 3 + 0) ltac:(lia))) as (m1 & E1 & L1).
      rewrite E1. exists m1. split; [reflexivity|]. intros i [<-|[]]. rewrite L1, ptr_case, Z.eqb_refl. reflexivity.
    - exists m'. split; [exact E|]. split; [exact HO|].
      intros k Hk. destruct (row_cell 2 ltac:(lia) k ltac:(lia)) as (x & i & Hx & Hi' & ->). rewrite HR by assumption.
      change (2 + 1) with 3.
      assert (((x - 1) * 3 + i) mod 3 = i) as -> by (apply (row_mod x 2 i); lia). cbn [map fst existsb].
      assert (i = 0 \/ i = 1 \/ i = 2) as [->|[->| ->]] by lia; try reflexivity. rewrite Z.add_0_r, Z.div_mul by lia. reflexivity.
  Qed.

  Lemma window_transform4_lem (v_ u_ : ptr) (m : mem S) V U : fst v_ <> fst u_ ->
    holds m v_ 20 V -> holds m u_ 5 U ->
    exists m', window_transform4 v_ 20 u_ m = Some m' /\ only v_ 20 m m' /\
      holds m' v_ 20 (fun k =>
        if k mod 4 =? 0 then (# (-1) * (V (k + 2)%Z + V (k + 3)%Z) - # 3 * U (k / 4)%Z)%T
        else if k mod 4 =? 1 then (# 2 * (# 3 * U (k / 4)%Z))%T else V k).
  Proof.
    intros Hne HV HU. unfold window_transform4. cbn [require Z.eqb Pos.eqb bind]. cbv zeta.
    change (dI, Bnd_s 1 5 1) with (Ib 1 5).
    set (e := (@lit S 3 .* $(make_md_span u_ [Ib 1 5]))%E).
    destruct (rows_run v_ 3 [(0, POp OSub (PNeg (POp OAdd (PSt 2) (PSt 3))) (PVec e)); (1, PVec (@lit S 2 .* e)%E)] m V
      (fun x i => let k := (x - 1) * 4 in
                  if i =? 0 then (# (-1) * (V (k + 2)%Z + V (k + 3)%Z) - # 3 * U (x - 1)%Z)%T
                  else (# 2 * (# 3 * U (x - 1)%Z))%T)) as (m' & E & HO & HR).
    - lia.
    - exact HV.
    - cbn [map fst snd]. unfold e. t_wok 3.
    - cbn [map fst snd]. unfold e. t_windep.
    - cbn [map fst snd]. unfold e. t_wlocal 3.
    - intros a [<-|[<-|[]]]; cbn [fst]; lia.
    - intros x Hx. t_open. change (3 + 1) with 4. unfold e. cbn [denote]. rewrite !addr_u. cbn [pset dI Nat.eqb].
      rewrite !HV, !HU by lia. cbn [bind app_op num_op].
      destruct (store_at m (padd v_ ((x - 1) * 4 + 0)) _
        (# (-1) * (V ((x - 1) * 4 + 2)%Z + V ((x - 1) * 4 + 3)%Z) - # 3 * U (x - 1)%Z)%T (HV ((x - 1) * 4 + 0) ltac:(lia))) as (m1 & E1 & L1).
      rewrite E1. cbn [bind].
      assert (L1u : load m1 (padd u_ (x - 1)) = Some (U (x - 1))).
      { rewrite L1. destruct (ptr_dec _ _) as [C|C]; [exfalso; apply Hne; exact (f_equal fst C)|]. apply HU. lia. }
      rewrite L1u. cbn [bind app_op num_op].
      destruct (store_at m1 (padd v_ ((x - 1) * 4 + 1)) (V ((x - 1) * 4 + 1)) (# 2 * (# 3 * U (x - 1)%Z))%T) as (m2 & E2 & L2).
      { rewrite L1, ptr_case. replace ((x - 1) * 4 + 0 =? (x - 1) * 4 + 1) with false by lia. apply HV. lia. }
      rewrite E2. exists m2. split; [reflexivity|]. intros i [<-|[<-|[]]]; rewrite !L2, !ptr_case.
      + replace ((x - 1) * 4 + 1 =? (x - 1) * 4 + 0) with false by lia. rewrite L1, ptr_case, Z.eqb_refl. reflexivity.
      + rewrite Z.eqb_refl. reflexivity.
    - exists m'. split; [exact E|]. split; [exact HO|].
      intros k Hk. destruct (row_cell 3 ltac:(lia) k ltac:(lia)) as (x & i & Hx & Hi' & ->). rewrite HR by assumption.
      change (3 + 1) with 4.
      assert (((x - 1) * 4 + i) mod 4 = i) as -> by (apply (row_mod x 3 i); lia). cbn [map fst existsb].
      assert (i = 0 \/ i = 1 \/ i = 2 \/ i = 3) as [->|[->|[->| ->]]] by lia; try reflexivity.
      + rewrite Z.add_0_r, Z.div_mul by lia. reflexivity.
      + rewrite Z.div_add_l by lia. change (1 / 4) with 0. rewrite Z.add_0_r. reflexivity.
  Qed.

  Lemma window_rhs_lem (rhs_ v_ u_ : ptr) (m : mem S) R V U :
    fst rhs_ <> fst v_ -> fst rhs_ <> fst u_ ->
    holds m rhs_ 5 R -> holds m v_ 20 V -> holds m u_ 5 U ->
    exists m', window_rhs rhs_ v_ 20 u_ m = Some m' /\ only rhs_ 5 m m' /\
      holds m' rhs_ 5 (fun k => (# (-1) * (V (4 * k + 1)%Z * U k) + R k)%T).
  Proof.
    intros N1 N2 HR HV HU. unfold window_rhs. cbn [require Z.eqb Pos.eqb bind]. cbv zeta.
    set (rhs := make_md_span rhs_ [Ib 1 5]). set (st := make_md_span v_ [Ib 1 5; Wb 0 3]).
    set (l := [WSub rhs (POp OMul (PSt 1) (PVec ($(make_md_span u_ [Ib 1 5]))%E : @proxy S))]).
    assert (AR : forall pt, addr rhs pt = padd rhs_ (pt dI - 1)) by (intros; apply addr_plain).
    assert (PS : forall x, 1 <= x <= 5 -> exists f, point_spec st l (pset origin dI x) m = Some f /\
      load f (padd rhs_ (x - 1)) = Some (# (-1) * (V (4 * (x - 1) + 1)%Z * U (x - 1)%Z) + R (x - 1)%Z)%T).
    { intros x Hx. unfold l, st. cbn [point_spec forM wassign_at pvalue]. rewrite row_entry. cbn [denote]. rewrite AR, addr_u.
      cbn [pset dI Nat.eqb]. change (3 + 1) with 4. replace ((x - 1) * 4 + 1) with (4 * (x - 1) + 1) by lia.
      rewrite HV, HU, HR by lia. cbn [bind app_op num_op].
      destruct (store_at m (padd rhs_ (x - 1)) _ (# (-1) * (V (4 * (x - 1) + 1)%Z * U (x - 1)%Z) + R (x - 1)%Z)%T (HR (x - 1) ltac:(lia)))
        as (m1 & E1 & L1).
      rewrite E1. exists m1. split; [reflexivity|]. rewrite L1, ptr_case, Z.eqb_refl. reflexivity. }
    destruct (window_runs st [Ib 1 5] l m) as (m' & E & Hi & Hs & Hv & Hf).
    - unfold st, l, rhs. t_wok 3.
    - unfold st, l, rhs. t_windep.
    - repeat first [apply Forall_nil|apply Forall_cons; [apply Z.divide_1_l|]].
    - unfold st, l, rhs. t_wlocal 3.
    - intros pt Hpt. apply row_points in Hpt as (x & Hx & ->). destruct (PS x Hx) as (f & E & _). exists f. exact E.
    - exists m'. split; [exact E|]. split; [split; [exact Hi|split; [exact Hs|]]|].
      + intros q Hq. apply Hf. intros pt a Hpt Ha Hin. apply row_points in Hpt as (x & Hx & ->).
        destruct Ha as [<-|[]]. destruct Hin as [<-|[]]. rewrite AR in Hq. apply (Hq (x - 1)); [lia|reflexivity].
      + intros k Hk. destruct (PS (k + 1) ltac:(lia)) as (f & Ef & F). replace (k + 1 - 1) with k in F by lia.
        rewrite <- F. apply (Hv (pset origin dI (k + 1)) f); [apply row_points; exists (k + 1); split; [lia|reflexivity]|exact Ef|].
        left. cbn [wwrites]. rewrite AR. cbn [pset dI Nat.eqb]. f_equal. lia.
  Qed.

  Lemma window_init_lem (v_ : ptr) (m : mem S) V : holds m v_ 10 V ->
    exists m', window_init v_ 10 m = Some m' /\ only v_ 10 m m' /\
      holds m' v_ 10 (fun k => if k =? 0 then lit 1 else if k =? 1 then lit 2 else if k =? 5 then lit 3
                               else if k =? 6 then lit 4 else V k).
  Proof.
    intros HV. unfold window_init. cbn [require Z.eqb Pos.eqb bind]. cbv zeta.
    set (it := mkMti (padd v_ 0) [5] [0] [2] true).
    assert (call_helper false (make_md_span v_ [Ib 1 2; Wb 0 4]) [Ib 1 2] = Some it) as -> by reflexivity.
    cbn [bind]. change (m_ptr it) with true. cbv iota.
    assert (mti_addr it = padd v_ 0) as ->.
    { unfold mti_addr, it; cbn. destruct v_; unfold padd; cbn. f_equal. lia. }
    assert (mti_addr (mti_inc it) = padd v_ 5) as ->.
    { unfold mti_addr, it; cbn. destruct v_; unfold padd; cbn. f_equal. lia. }
    cbn [run_number]. rewrite !padd_padd. change (0 + 1) with 1. change (5 + 0) with 5. change (5 + 1) with 6.
    destruct (store_at m (padd v_ 0) _ (lit 1) (HV 0 ltac:(lia))) as (m1 & E1 & L1). rewrite E1. cbn [bind].
    destruct (store_at m1 (padd v_ 1) (V 1) (lit 2)) as (m2 & E2 & L2); [rewrite L1, ptr_case; apply HV; lia|]. rewrite E2. cbn [bind].
    destruct (store_at m2 (padd v_ 5) (V 5) (lit 3)) as (m3 & E3 & L3); [rewrite L2, ptr_case, L1, ptr_case; apply HV; lia|]. rewrite E3. cbn [bind].
    destruct (store_at m3 (padd v_ 6) (V 6) (lit 4)) as (m4 & E4 & L4); [rewrite L3, ptr_case, L2, ptr_case, L1, ptr_case; apply HV; lia|]. rewrite E4.
    exists m4. split; [reflexivity|]. split; [split; [|split]|].
    - rewrite (store_ints _ _ _ _ E4), (store_ints _ _ _ _ E3), (store_ints _ _ _ _ E2), (store_ints _ _ _ _ E1). reflexivity.
    - rewrite (store_shape _ _ _ _ E4), (store_shape _ _ _ _ E3), (store_shape _ _ _ _ E2), (store_shape _ _ _ _ E1). reflexivity.
    - intros q Hq. rewrite L4, L3, L2, L1.
      repeat (destruct (ptr_dec _ q) as [C|C]; [exfalso; symmetry in C; revert C; apply Hq; lia|clear C]). reflexivity.
    - intros k Hk. rewrite L4, L3, L2, L1, !ptr_case. rewrite (HV k Hk).
      destruct (Z.eqb_spec 6 k), (Z.eqb_spec k 6); try lia; destruct (Z.eqb_spec 5 k), (Z.eqb_spec k 5); try lia;
      destruct (Z.eqb_spec 1 k), (Z.eqb_spec k 1); try lia; destruct (Z.eqb_spec 0 k), (Z.eqb_spec k 0); try lia; reflexivity.
  Qed.
End Window.
