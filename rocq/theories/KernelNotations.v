(** * Notation for lazy expressions

    So that the kernels of src/cuda read as in C++: [%E] expressions with [$s] for
    a span used as an operand, [x .* e] for number times expression, [e *. x] for
    expression times number, and similarly for the other operators. *)

From Verif Require Import Base ModelBounds ModelIters ModelSpan.

Declare Scope expr_scope.
Delimit Scope expr_scope with E.
Notation "$ s" := (ESpan s) (at level 1, format "$ s") : expr_scope.
Infix "+" := (EBin OAdd) : expr_scope.
Infix "-" := (EBin OSub) : expr_scope.
Infix "*" := (EBin OMul) : expr_scope.
Infix "/" := (EBin ODiv) : expr_scope.
Infix ".+" := (ENumL OAdd) (at level 50, left associativity) : expr_scope.
Infix ".-" := (ENumL OSub) (at level 50, left associativity) : expr_scope.
Infix ".*" := (ENumL OMul) (at level 40, left associativity) : expr_scope.
Infix "./" := (ENumL ODiv) (at level 40, left associativity) : expr_scope.
Infix "+." := (ENumR OAdd) (at level 50, left associativity) : expr_scope.
Infix "-." := (ENumR OSub) (at level 50, left associativity) : expr_scope.
Infix "*." := (ENumR OMul) (at level 40, left associativity) : expr_scope.
Infix "/." := (ENumR ODiv) (at level 40, left associativity) : expr_scope.
Notation "s ::= e" := (AExpr s e%E) (at level 70, e at level 69, no associativity) : expr_scope.
