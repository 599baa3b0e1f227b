(** * Rows of a dense matrix and rows of a stencil *)

From Coq Require Import Field Permutation.
From Verif Require Import Base FortranBase FortranLoops SpecIter LemBase LemDomain LemAssign LemField LemKernel LemKernel2 LemStencil LemSafe
  SpecRow LemSum SpecSmooth SpecBlock SpecBlockJacobi LemFortran LemSmooth LemCells LemSmoothers LemMatrixBlock LemSmoothFinal LemAdjust.
Import ListNotations.
Open Scope Z_scope.

Section Dense.
  Context {S : Scalar} (L : field_laws S).
  Add Field DenseField : (s_field S L) (morphism (lit_morph S L), constants [lit_cst]).

  (** ** Sums over lists *)

  Definition lsum {A} (l : list A) (f : A -> S) : S := fold_right (fun a s => sadd (f a) s) (lit 0) l.

  Lemma lsum_ext {A} (l : list A) f g : (forall a, In a l -> f a = g a) -> lsum l f = lsum l g.
  Proof. induction l as [|a l IH]; intros H; [reflexivity|]. cbn. rewrite H by now left. f_equal. apply IH. intros. apply H. now right. Qed.
  Lemma lsum_perm {A} (l l' : list A) f : Permutation l l' -> lsum l f = lsum l' f.
  Proof. unfold lsum. induction 1; cbn; [reflexivity|congruence|ring|congruence]. Qed.
  Lemma lsum_map {A B} (g : A -> B) l f : lsum (map g l) f = lsum l (fun a => f (g a)).
  Proof. induction l as [|a l IH]; cbn; [reflexivity|]. unfold lsum in IH. rewrite IH. reflexivity. Qed.
  Lemma lsum_add {A} (l : list A) f g : lsum l (fun a => f a + g a)%T = (lsum l f + lsum l g)%T.
  Proof. induction l as [|a l IH]; cbn; [ring|]. unfold lsum in IH. rewrite IH. ring. Qed.
  Lemma lsum_mul {A} (l : list A) c f : lsum l (fun a => c * f a)%T = (c * lsum l f)%T.
  Proof. induction l as [|a l IH]; cbn; [ring|]. unfold lsum in IH. rewrite IH. ring. Qed.
  Lemma lsum_zero {A} (l : list A) f : (forall a, In a l -> f a = lit 0) -> lsum l f = lit 0.
  Proof. induction l as [|a l IH]; intros H; [reflexivity|]. cbn. rewrite H by now left. unfold lsum in IH. rewrite IH by (intros; apply H; now right). ring. Qed.
  Lemma lsum_swap {A B} (l : list A) (l' : list B) f : lsum l (fun a => lsum l' (f a)) = lsum l' (fun b => lsum l (fun a => f a b)).
  Proof.
    induction l as [|a l IH].
    - symmetry. apply lsum_zero. reflexivity.
    - change (lsum l' (f a) + lsum l (fun a => lsum l' (f a)) = lsum l' (fun b => f a b + lsum l (fun a => f a b)))%T. rewrite IH, lsum_add. reflexivity.
  Qed.
  Lemma lsum_single {A} (l : list A) a f : NoDup l -> In a l -> (forall b, In b l -> b <> a -> f b = lit 0) -> lsum l f = f a.
  Proof.
    intros Hn. induction Hn as [|x l Hx Hn IH]; intros Ha H; [destruct Ha|]. destruct Ha as [->|Ha].
    - cbn. fold (lsum l f). rewrite lsum_zero; [ring|]. intros b Hb. apply H; [now right|]. intros ->. exact (Hx Hb).
    - cbn. fold (lsum l f). rewrite IH; [|assumption|intros b Hb; apply H; now right]. rewrite (H x); [ring|now left|]. intros ->. exact (Hx Ha).
  Qed.
  Lemma total_lsum lo hi f : total lo hi f = lsum (zvals lo hi) f.
  Proof. unfold total, zvals. rewrite lsum_map. reflexivity. Qed.

  (** ** Cells of a block and their numbers *)

  Lemma number_cell bx by_ bz j : 1 <= bx -> 1 <= by_ -> 0 <= j <= bx * by_ * bz - 1 -> exists l, in_box (block_box bx by_ bz) l /\ number bx by_ l = j.
  Proof.
    intros Hx Hy Hj. exists [j mod bx; (j / bx) mod by_; (j / bx) / by_].
    pose proof (Z.mod_pos_bound j bx ltac:(lia)). pose proof (Z.mod_pos_bound (j / bx) by_ ltac:(lia)).
    pose proof (Z.div_mod j bx ltac:(lia)). pose proof (Z.div_mod (j / bx) by_ ltac:(lia)).
    assert (0 <= j / bx) by (apply Z.div_pos; lia). assert (0 <= j / bx / by_) by (apply Z.div_pos; lia).
    split.
    - apply in_block. split; [lia|]. split; [lia|]. split; [lia|].
      assert (j / bx / by_ < bz); [|lia]. apply Z.div_lt_upper_bound; [lia|]. apply Z.div_lt_upper_bound; [lia|]. lia.
    - cbn [number]. generalize dependent (j / bx). intros a. intros. nia.
  Qed.

  Lemma block_perm bx by_ bz : 1 <= bx -> 1 <= by_ ->
    Permutation (zvals 0 (bx * by_ * bz - 1)) (map (number bx by_) (box_cells (block_box bx by_ bz))).
  Proof.
    intros Hx Hy. apply NoDup_Permutation.
    - apply zvals_nodup.
    -
      assert (G : forall l, NoDup l -> (forall c, In c l -> in_box (block_box bx by_ bz) c) -> NoDup (map (number bx by_) l)).
      { induction 1 as [|c l Hc Hn IH]; intros H; cbn; constructor.
        - intros Hin. apply in_map_iff in Hin as (c' & E & Hin). apply (number_inj bx by_ bz) in E; [|apply H; now right|apply H; now left]. subst. exact (Hc Hin).
        - apply IH. intros c' Hc'. apply H. now right. }
      apply G; [apply box_cells_nodup|]. intros c. apply box_cells_in.
    - intros j. rewrite zvals_in, in_map_iff. split.
      + intros Hj. destruct (number_cell bx by_ bz j Hx Hy Hj) as (l & Hl & El). exists l. split; [exact El|]. apply box_cells_in. exact Hl.
      + intros (l & <- & Hl). apply box_cells_in in Hl. apply (number_range bx by_ bz). exact Hl.
  Qed.

  (** ** Boxes *)

  Lemma inside_spec bs c : inside bs c = true <-> in_box bs c.
  Proof.
    revert c. induction bs as [|b bs IH]; intros [|i c]; cbn [inside].
    - split; [intros; constructor|reflexivity].
    - split; [discriminate|intros H; inversion H].
    - split; [discriminate|intros H; inversion H].
    - rewrite !andb_true_iff, IH, !Z.leb_le. split.
      + intros [[H1 H2] H3]. constructor; auto.
      + intros H. inversion H; subst. tauto.
  Qed.

  Lemma block_at_in i j k bx by_ bz c : in_box (block_at [i; j; k] [bx; by_; bz]) c <-> exists l, in_box (block_box bx by_ bz) l /\ c = shift [i; j; k] l.
  Proof.
    cbn [block_at combine map fst snd]. split.
    - intros H. pose proof (box3 _ _ _ _ H) as E. revert H. rewrite E. generalize (nth 0 c 0) (nth 1 c 0) (nth 2 c 0). clear E c. intros x y z H.
      inversion_clear H as [|? ? ? ? H1 H2]. inversion_clear H2 as [|? ? ? ? H3 H4]. inversion_clear H4 as [|? ? ? ? H5 H6]. cbn [fst snd] in *.
      exists [x - i; y - j; z - k]. split; [apply in_block; lia|]. cbn [shift]. f_equal; [lia|]. f_equal; [lia|]. f_equal. lia.
    - intros (l & H & ->). pose proof (box3 _ _ _ _ H) as E. revert H. rewrite E. generalize (nth 0 l 0) (nth 1 l 0) (nth 2 l 0). clear E l. intros x y z H.
      apply in_block in H. cbn [shift]. constructor; [cbn; lia|]. constructor; [cbn; lia|]. constructor; [cbn; lia|constructor].
  Qed.

  Lemma shift_inj c l l' : length l = length c -> length l' = length c -> shift c l = shift c l' -> l = l'.
  Proof.
    revert l l'. induction c as [|i c IH]; intros [|x l] [|y l'] H H' E; cbn in *; try discriminate; [reflexivity|].
    injection E as E1 E2. f_equal; [lia|]. apply IH; auto; lia.
  Qed.

  (** ** The row of a cell *)

  Section Row.
    Context (m : mem S) (tab st : farray) (n bx by_ bz : Z) (c0 : list Z) (M : Z -> Z -> S) (l : list Z).
    Let box := block_box bx by_ bz.
    Context (Hx : 1 <= bx).
    Context (Hy : 1 <= by_).
    Context (H0 : length c0 = 3%nat).
    Context (Hl : in_box box l).
    Context (CD : columns_distinct m tab n box).
    (** The dense row: the entry that leads from [l] to [l'], or zero. *)
    Context (HM : forall l', in_box box l' ->
      (forall s, 0 <= s <= n - 1 -> displaced_cell m tab 0 s l l' -> fel st (s :: shift c0 l) m = Some (M (number bx by_ l) (number bx by_ l'))) /\
      ((forall s, 0 <= s <= n - 1 -> ~ displaced_cell m tab 0 s l l') -> M (number bx by_ l) (number bx by_ l') = lit 0)).
    (** The entries are readable. *)
    Context (cf : Z -> S) (cd : Z -> list Z).
    Context (Hcf : forall s, 0 <= s <= n - 1 -> fel st (s :: shift c0 l) m = Some (cf s) /\ displaced_cell m tab 0 s l (cd s)).

    Lemma dense_row (Y : Z -> S) :
      total 0 (bx * by_ * bz - 1) (fun j => M (number bx by_ l) j * Y j)%T =
      total 0 (n - 1) (fun s => cf s * (if inside box (cd s) then Y (number bx by_ (cd s)) else lit 0))%T.
    Proof.
      rewrite !total_lsum, (lsum_perm _ _ _ (block_perm bx by_ bz Hx Hy)), lsum_map. fold box.
      assert (E : forall l', In l' (box_cells box) -> M (number bx by_ l) (number bx by_ l') =
        lsum (zvals 0 (n - 1)) (fun s => if list_eq_dec Z.eq_dec (cd s) l' then cf s else lit 0)).
      { intros l' Hl'. apply box_cells_in in Hl'. destruct (HM l' Hl') as [M1 M2].
        destruct (in_dec (list_eq_dec Z.eq_dec) l' (map cd (zvals 0 (n - 1)))) as [Hin|Hout].
        - apply in_map_iff in Hin as (s & Es & Hs). apply zvals_in in Hs. destruct (Hcf s Hs) as [C D]. rewrite Es in D.
          rewrite (lsum_single _ s); [|apply zvals_nodup|apply zvals_in; exact Hs|].
          + destruct (list_eq_dec Z.eq_dec (cd s) l') as [_|N]; [|contradiction]. specialize (M1 s Hs D). congruence.
          + intros s' Hs' N. apply zvals_in in Hs'. destruct (list_eq_dec Z.eq_dec (cd s') l') as [E'|_]; [|reflexivity]. exfalso. apply N.
            destruct (Hcf s' Hs') as [_ D']. rewrite E' in D'. exact (proj2 (CD l Hl) s' s l' Hs' Hs D' D).
        - rewrite M2.
          + symmetry. apply lsum_zero. intros s Hs. destruct (list_eq_dec Z.eq_dec (cd s) l') as [<-|_]; [|reflexivity].
            exfalso. apply Hout. apply in_map. exact Hs.
          + intros s Hs D. apply Hout. apply in_map_iff. exists s. split; [|apply zvals_in; exact Hs].
            destruct (Hcf s Hs) as [_ D']. exact (displaced_cell_fun _ _ _ _ _ _ _ D' D). }
      rewrite (lsum_ext _ _ (fun l' => lsum (zvals 0 (n - 1)) (fun s => if list_eq_dec Z.eq_dec (cd s) l' then cf s * Y (number bx by_ l') else lit 0)%T)).
      2:{ intros l' Hl'. rewrite (E l' Hl').
          rewrite (lsum_ext _ (fun s => if list_eq_dec Z.eq_dec (cd s) l' then cf s * Y (number bx by_ l') else lit 0)%T (fun s => Y (number bx by_ l') * (if list_eq_dec Z.eq_dec (cd s) l' then cf s else lit 0))%T).
          - rewrite lsum_mul. ring.
          - intros s _. destruct (list_eq_dec Z.eq_dec (cd s) l'); ring. }
      rewrite lsum_swap. apply lsum_ext. intros s Hs. destruct (inside box (cd s)) eqn:I.
      - apply inside_spec in I. rewrite (lsum_single _ (cd s)); [|apply box_cells_nodup|apply box_cells_in; exact I|].
        + destruct (list_eq_dec Z.eq_dec (cd s) (cd s)) as [_|N]; [reflexivity|congruence].
        + intros l' _ N. destruct (list_eq_dec Z.eq_dec (cd s) l'); [congruence|reflexivity].
      - rewrite lsum_zero; [ring|]. intros l' Hl'. destruct (list_eq_dec Z.eq_dec (cd s) l') as [<-|_]; [|reflexivity].
        apply box_cells_in, inside_spec in Hl'. congruence.
    Qed.
  End Row.
End Dense.
