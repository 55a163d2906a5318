(** * TimesSpec: what the argument of [times] means

    Independent of the model of [Times]: only the Rust meaning of range
    expressions. *)

From Coq Require Import NArith.
From Verif Require Import Times.
Open Scope N_scope.

(** [k] is one of the counts that the argument names. *)
Definition in_arg (x : times_arg) (k : N) : Prop :=
  match x with
  | ANum n => k = n
  | ARange a b => a <= k < b
  | AFrom a => a <= k
  | AFull => True
  | AIncl a b => a <= k <= b
  | ATo b => k < b
  | AToIncl b => k <= b
  end.

(** Every number written in the argument is below [top]. *)
Definition arg_below (top : N) (x : times_arg) : Prop :=
  match x with
  | ANum n => n < top
  | ARange a b => a < top /\ b < top
  | AFrom a => a < top
  | AFull => True
  | AIncl a b => a < top /\ b < top
  | ATo b => b < top
  | AToIncl b => b < top
  end.

(** The argument is a [usize] expression. *)
Definition arg_usize (top : N) (x : times_arg) : Prop := arg_below (top + 1) x.

(** Some count below [top] satisfies the argument. *)
Definition satisfiable (top : N) (x : times_arg) : Prop :=
  exists k, in_arg x k /\ k < top.
