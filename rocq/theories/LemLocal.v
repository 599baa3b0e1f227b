(** * Loops whose steps do not interfere *)

From Verif Require Import Base FortranBase FortranLoops LemBase LemAssign LemKernel LemCells.
Import ListNotations.
Open Scope Z_scope.

Section Local.
  Context {S : Scalar}.

  (** Step [x] writes only in [W x], and no other step writes where [x] writes or reads
      ([F x]).  Then at the turn of [x] the places [F x] are as before the loop, and
      what [x] leaves there is there at the end. *)
  Lemma forM_local {A} (l : list A) (g : A -> mem S -> option (mem S)) (W F : A -> ptr -> Prop) m m' :
    NoDup l ->
    (forall x m1 m2, In x l -> ints m1 = ints m -> g x m1 = Some m2 -> (forall q, ~ W x q -> load m2 q = load m1 q) /\ ints m2 = ints m1) ->
    (forall x y q, In x l -> In y l -> x <> y -> F x q -> ~ W y q) ->
    forM l g m = Some m' ->
    (forall q, (forall x, In x l -> ~ W x q) -> load m' q = load m q) /\ ints m' = ints m /\
    (forall x, In x l -> exists m1 m2, g x m1 = Some m2 /\ ints m1 = ints m /\
       (forall q, F x q -> load m1 q = load m q) /\ (forall q, F x q -> load m' q = load m2 q) /\
       (forall q, (forall y, In y l -> ~ W y q) -> load m1 q = load m q)).
  Proof.
    intros Hn. revert m. induction Hn as [|x l Hx Hn IH]; intros m G D E.
    - injection E as <-. split; [reflexivity|]. split; [reflexivity|]. intros x [].
    - cbn [forM] in E. apply bind_Some_inv in E as (m1 & E1 & E).
      destruct (G x m m1 (or_introl eq_refl) eq_refl E1) as [G1 I1].
      apply IH in E; cycle 1.
      { intros y m2 m3 Hy I2. apply G; [right; exact Hy|congruence]. }
      { intros y z q Hy Hz. apply D; right; assumption. }
      destruct E as (Fr & I & V). split; [|split].
      + intros q Hq. rewrite Fr by (intros y Hy; apply Hq; right; exact Hy). apply G1. apply Hq. left. reflexivity.
      + congruence.
      + intros y [<-|Hy].
        * exists m, m1. split; [exact E1|]. split; [reflexivity|]. split; [reflexivity|]. split; [|reflexivity].
          intros q Hq. apply Fr. intros y Hy. apply (D x y q); auto; [left; reflexivity|right; exact Hy|]. intros ->. exact (Hx Hy).
        * destruct (V y Hy) as (m2 & m3 & E2 & I2 & A2 & A3 & A4). exists m2, m3. split; [exact E2|]. split; [congruence|].
          assert (y <> x) by (intros ->; exact (Hx Hy)).
          split; [|split; [exact A3|]].
          -- intros q Hq. rewrite A2 by exact Hq. apply G1. apply (D y x q); auto; [right; exact Hy|left; reflexivity].
          -- intros q Hq. rewrite A4 by (intros z Hz; apply Hq; right; exact Hz). apply G1. apply Hq. left. reflexivity.
  Qed.

  (** The same with an invariant. *)
  Lemma forM_local_inv {A} (l : list A) (g : A -> mem S -> option (mem S)) (W F : A -> ptr -> Prop) (Inv : mem S -> Prop) m m' :
    NoDup l -> Inv m ->
    (forall x m1 m2, In x l -> Inv m1 -> g x m1 = Some m2 -> Inv m2 /\ (forall q, ~ W x q -> load m2 q = load m1 q)) ->
    (forall x y q, In x l -> In y l -> x <> y -> F x q -> ~ W y q) ->
    forM l g m = Some m' ->
    (forall q, (forall x, In x l -> ~ W x q) -> load m' q = load m q) /\ Inv m' /\
    (forall x, In x l -> exists m1 m2, g x m1 = Some m2 /\ Inv m1 /\
       (forall q, F x q -> load m1 q = load m q) /\ (forall q, F x q -> load m' q = load m2 q)).
  Proof.
    intros Hn. revert m. induction Hn as [|x l Hx Hn IH]; intros m I0 G D E.
    - injection E as <-. split; [reflexivity|]. split; [exact I0|]. intros x [].
    - cbn [forM] in E. apply bind_Some_inv in E as (m1 & E1 & E).
      destruct (G x m m1 (or_introl eq_refl) I0 E1) as [I1 G1].
      apply IH in E; cycle 1.
      { exact I1. }
      { intros y m2 m3 Hy. apply G. right. exact Hy. }
      { intros y z q Hy Hz. apply D; right; assumption. }
      destruct E as (Fr & I & V). split; [|split; [exact I|]].
      + intros q Hq. rewrite Fr by (intros y Hy; apply Hq; right; exact Hy). apply G1. apply Hq. left. reflexivity.
      + intros y [<-|Hy].
        * exists m, m1. split; [exact E1|]. split; [exact I0|]. split; [reflexivity|].
          intros q Hq. apply Fr. intros y Hy. apply (D x y q); auto; [left; reflexivity|right; exact Hy|]. intros ->. exact (Hx Hy).
        * destruct (V y Hy) as (m2 & m3 & E2 & I2 & A2 & A3). exists m2, m3. split; [exact E2|]. split; [exact I2|].
          assert (y <> x) by (intros ->; exact (Hx Hy)).
          split; [|exact A3]. intros q Hq. rewrite A2 by exact Hq. apply G1. apply (D y x q); auto; [right; exact Hy|left; reflexivity].
  Qed.
End Local.
