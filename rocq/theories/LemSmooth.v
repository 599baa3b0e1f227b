(** * Accumulating loops and sweeps *)

From Verif Require Import Base FortranBase FortranLoops SpecIter LemBase LemDomain LemAssign LemKernel LemKernel2 LemStencil LemSafe
  SpecRow SpecSmooth LemFortran.
Import ListNotations.
Open Scope Z_scope.

Section Store.
  Context {S : Scalar}.

  Lemma aset_aset {A} (l : list A) k x y : aset (aset l k x) k y = aset l k y.
  Proof. revert k. induction l as [|a l IH]; intros [|k]; cbn; f_equal; auto. Qed.

  Lemma store_store (m m1 : mem S) p x y : store m p x = Some m1 -> store m1 p y = store m p y.
  Proof.
    unfold store. intros H. apply bind_Some_inv in H as (a & Ha & H). apply bind_Some_inv in H as (b & Hb & H).
    injection H as <-. cbn [cells ints]. rewrite Ha. cbn [bind]. rewrite Hb. cbn [bind].
    assert (forall (l : list (list S)) k v, nth_error l k = Some a -> nth_error (aset l k v) k = Some v) as E.
    { induction l as [|z l IH]; intros [|k] v; cbn; try discriminate; auto. }
    rewrite (E _ _ _ Ha). cbn [bind].
    assert (exists w, nthZ (aset a (Z.to_nat (snd p)) x) (snd p) = Some w) as [w ->].
    { clear -Hb. unfold nthZ in *. destruct (snd p <? 0); [discriminate|]. revert Hb. generalize (Z.to_nat (snd p)).
      induction a as [|z a IH]; intros [|k]; cbn; try discriminate; eauto. }
    cbn [bind]. rewrite !aset_aset. reflexivity.
  Qed.

  Lemma load_stored (m m1 : mem S) p x : store m p x = Some m1 -> load m1 p = Some x.
  Proof. intros H. rewrite (load_store _ _ _ _ _ H). destruct (ptr_dec p p); [reflexivity|congruence]. Qed.

  Lemma blind_fint n tab is (k : Z -> fexp S) : (forall z, blind n (k z)) -> blind n (fint tab is k).
  Proof.
    intros H m m' E. unfold fint. replace (loadi m' (faddr tab is)) with (loadi m (faddr tab is)).
    - destruct (loadi m _) as [z|]; cbn; [apply H; exact E|reflexivity].
    - unfold loadi. rewrite (proj2 E). reflexivity.
  Qed.

  Lemma blind_facc n lo hi e (step : Z -> S -> fexp S) : blind n e -> (forall s r, blind n (step s r)) -> blind n (facc lo hi e step).
  Proof.
    intros H1 H2 m m' E. unfold facc. rewrite (H1 _ _ E). destruct (e m) as [r|]; cbn; [|reflexivity].
    apply do_ext. intros s r' Hs. apply H2. exact E.
  Qed.

  Lemma forM_acc {A} (p : ptr) (step : A -> S -> fexp S) l m r :
    (forall s r, blind (fst p) (step s r)) ->
    (m0 <- store m p r ;; forM l (fun s m => v <- (r <- load m p ;; step s r m) ;; store m p v) m0) =
    (v <- forM l (fun s r => step s r m) r ;; store m p v).
  Proof.
    intros Bl. destruct (store m p r) as [m0|] eqn:E.
    - cbn [bind]. revert r m0 E. induction l as [|s l IH]; intros r m0 E; cbn [forM bind].
      + symmetry. exact E.
      + rewrite (load_stored _ _ _ _ E). cbn [bind].
        rewrite (Bl s r m m0 (same_off_store _ _ _ _ _ E eq_refl)).
        destruct (step s r m) as [v|]; cbn [bind]; [|reflexivity].
        rewrite (store_store _ _ _ _ v E). destruct (store m p v) as [m1|] eqn:E1; cbn [bind].
        * apply IH. exact E1.
        * destruct (forM l _ v) as [w|]; cbn [bind]; [|reflexivity].
          symmetry. destruct (store m p w) as [m2|] eqn:E2; [|reflexivity].
          assert (exists m3, store m p v = Some m3) as [m3 E3].
          { apply store_Some. apply (store_Some m p w). exists m2. exact E2. }
          congruence.
    - cbn [bind]. symmetry. destruct (forM l _ r) as [w|]; cbn [bind]; [|reflexivity].
      destruct (store m p w) as [m2|] eqn:E2; [|reflexivity].
      assert (exists m3, store m p r = Some m3) as [m3 E3].
      { apply store_Some. apply (store_Some m p w). exists m2. exact E2. }
      congruence.
  Qed.

  (** [a(is) = e; do s: a(is) = step s a(is)] assigns the accumulated value. *)
  Lemma acc_put a is lo hi e (body : Z -> mem S -> option (mem S)) (step : Z -> S -> fexp S) m :
    (forall s m, body s m = fset a is (fun m => r <- fel a is m ;; step s r m) m) ->
    (forall s r, blind (fst (fa_ptr a)) (step s r)) ->
    fseq (fset a is e) (do_ lo hi body) m = fset a is (facc lo hi e step) m.
  Proof.
    intros Hb Bl. unfold fseq, fset, facc. destruct (e m) as [r|]; cbn [bind]; [|reflexivity].
    unfold do_. rewrite <- (forM_acc (faddr a is) step _ m r Bl).
    apply bind_ext. intros m0 _. apply forM_ext_in. intros s m1 _. rewrite Hb. reflexivity.
  Qed.
End Store.

Ltac f_blind ::= repeat first [apply blind_fint; intros|apply blind_facc; intros|apply blind_bind; intros|apply blind_fop|apply blind_fneg|apply blind_fsc
  |apply blind_fel; cbn [fa_ptr]; congruence].
Ltac acc_body := intros; unfold fint, fset, fel, fop, fsc;
  repeat match goal with |- context [loadi ?m ?p] => destruct (loadi m p); cbn [bind]; try reflexivity end;
  repeat match goal with |- context [load ?m ?p] => destruct (load m p); cbn [bind]; try reflexivity end.
