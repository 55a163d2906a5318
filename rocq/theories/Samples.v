(** * Samples: concrete methods, closures and worlds for the examples that stand
    beside the theorems.  Nothing here models code of the repository. *)

From Coq Require Import NArith List Bool String.
From Verif Require Import Base Times Expect Mock Spec.
Import ListNotations.
Open Scope N_scope.

(** Values are numbers; the user state is the list of argument lists that the
    closures were run on. *)
Definition V0 := N.
Definition U0 := list (list N).

Definition show0 (n : N) : string :=
  match n with 0 => "0" | 1 => "1" | 2 => "2" | 3 => "3" | _ => "big" end%string.

Definition me0 : method V0 := Method "MockFoo::bar" "MockFoo::bar" (Some 0) show0.
Definition md0 : mdecl V0 := MDecl me0 KStatic false false.
Definition mdgen : mdecl V0 := MDecl (Method "MockFoo::gen" "MockFoo::gen" None show0) KStatic true false.
Definition mdstat : mdecl V0 := MDecl (Method "MockFoo::stat" "MockFoo::stat" None show0) KStatic false true.
Definition mdref : mdecl V0 := MDecl (Method "MockFoo::get" "MockFoo::get" (Some 0) show0) KRef false false.
Definition mdmut : mdecl V0 := MDecl (Method "MockFoo::get_mut" "MockFoo::get_mut" None show0) KMut false false.

(** Adds its arguments and logs them. *)
Definition adder : ucode U0 (list V0) V0 := fun args u => (u ++ [args], Ret (fold_right N.add 0 args)).
(** Always returns 7 and logs. *)
Definition seven : ucode U0 (list V0) V0 := fun args u => (u ++ [args], Ret 7).
(** Panics. *)
Definition bomb {B} : ucode U0 (list V0) B := fun args u => (u ++ [args], Panic (MUser 13)).

Definition small : list V0 -> bool := fun args => match args with [n] => n <? 10 | _ => false end.

Definition w0 : world U0 := World [] (fun _ => 0) 0%nat false.
Definition t0 : seqtab := sequence_new.

Definition idshuffle : shuffle V0 U0 := fun s => s.

Lemma adder_total : total_fn adder.
Proof. intros a u. eexists; eexists; reflexivity. Qed.
Lemma seven_total : total_fn seven.
Proof. intros a u. eexists; eexists; reflexivity. Qed.
