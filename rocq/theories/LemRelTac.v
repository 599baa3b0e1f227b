(** * Tactics: kernels and Fortran subroutines respect every relation *)

From Verif Require Import Base ModelBounds ModelMatrix ModelIters ModelSpan ModelProxy SpecRel LemRel.
From Verif Require Import FortranBase FortranLoops LemRelF.
Import ListNotations.
Open Scope Z_scope.

Lemma srel_app {S T : Scalar} (R : S -> T -> Prop) f g m m' : srel R f g -> mrel R m m' -> orel (mrel R) (f m) (g m').
Proof. intros H Hm. apply H, Hm. Qed.

(** Scalars computed on the host. *)
Ltac u_sc := solve [ repeat first
  [ assumption | solve [eauto 1]
  | match goal with
    | HR : sim ?R |- ?R (sadd _ _) (sadd _ _) => apply (sim_add R HR)
    | HR : sim ?R |- ?R (ssub _ _) (ssub _ _) => apply (sim_sub R HR)
    | HR : sim ?R |- ?R (smul _ _) (smul _ _) => apply (sim_mul R HR)
    | HR : sim ?R |- ?R (sdiv _ _) (sdiv _ _) => apply (sim_div R HR)
    | HR : sim ?R |- ?R (sneg _) (sneg _) => apply (sim_neg R HR)
    | HR : sim ?R |- ?R (lit _) (lit _) => apply (sim_lit R HR)
    end ] ].

Ltac u_step :=
  match goal with
  | |- orel _ (if ?b then _ else _) (if ?b then _ else _) => destruct b
  | |- orel _ (with_domain _ _ _) _ => apply with_domain_rel; [assumption| |assumption]
  | |- orel _ (with_lhs_domain _ _) _ => apply with_lhs_domain_rel; [assumption| |assumption]
  | |- orel _ (at_assign _ _ _ _ _) _ => apply at_assign_rel; assumption
  | |- orel _ (with_window _ _ _ _) _ => apply with_window_rel; [assumption| |assumption]
  | |- orel _ (Some _) (Some _) => apply oS; assumption
  | |- orel ?Q (bind _ _) (bind _ _) => eapply (bind_rel Q); [|let a := fresh "m" in let b := fresh "m" in intros a b ?]
  | Hm : mrel _ ?m ?m' |- orel _ (do_ _ _ _ ?m) (do_ _ _ _ ?m') => refine (srel_app _ _ _ m m' _ Hm); clear Hm
  | Hm : mrel _ ?m ?m' |- orel _ (fset _ _ _ ?m) (fset _ _ _ ?m') => refine (srel_app _ _ _ m m' _ Hm); clear Hm
  | |- Forall2 _ [] [] => constructor
  | |- Forall2 _ (_ :: _) (_ :: _) => constructor
  | |- arel _ _ _ => constructor
  | |- erel _ _ _ => unfold shift_xy, shift_xz, shift_yz, shift, grad; constructor
  | |- wrel _ _ _ => constructor
  | |- prel _ (PNeg _) _ => apply pr_neg; [assumption|]
  | |- prel _ _ _ => constructor
  | |- frel _ _ _ => u_fexp
  | |- srel _ _ _ => u_stmt
  | |- _ => u_sc
  end
with u_fexp :=
  match goal with
  | |- frel _ (if ?b then _ else _) (if ?b then _ else _) => destruct b
  | |- frel _ (fun _ => None) _ => intros ? ? ?; apply oN
  | |- frel _ (fel _ _) _ => apply fel_rel
  | |- frel _ (fsc _) _ => apply fsc_rel
  | |- frel _ (fop _ _ _) _ => apply fop_rel; [intros; u_sc| |]
  | |- frel _ (fneg _) _ => apply fneg_rel; [assumption|]
  | |- frel _ (facc _ _ _ _) _ => apply facc_rel; [|intros ? ? ? ?; cbv beta]
  | |- frel _ (fint _ _ _) _ => apply finte_rel; intros ?; cbv beta
  end
with u_stmt :=
  match goal with
  | |- srel _ (if ?b then _ else _) (if ?b then _ else _) => destruct b
  | |- srel _ (fun _ => if _ then _ else _) _ => intros ? ? ?
  | |- srel _ (fun _ => fset _ _ _ _) _ => intros ? ? ?
  | |- srel _ (fset _ _ _) _ => apply fset_rel
  | |- srel _ (fseq _ _) _ => apply fseq_rel
  | |- srel _ fskip _ => apply fskip_rel
  | |- srel _ (flet _ _) _ => apply flet_rel; [|intros ? ? ?; cbv beta]
  | |- srel _ (do_ _ _ _) _ => apply do_rel; intros ?; cbv beta
  | |- srel _ (do_step _ _ _ _) _ => apply do_step_rel; intros ?; cbv beta
  | |- srel _ (fint _ _ _) _ => apply fint_rel; intros ?; cbv beta
  | |- srel _ (fif _ _ _) _ => apply fif_rel
  end.

(** A kernel. *)
Ltac u_kernel := intros S T R HR p p' Hp m m' Hm.
Ltac u_go := cbv zeta beta; repeat u_step.

(** A subroutine. *)
Ltac u_sub :=
  intros S T R HR p p' Hp m m' Hm; refine (srel_app R _ _ m m' _ Hm); clear m m' Hm.
