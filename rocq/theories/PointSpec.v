(** * PointSpec: which line of a test a failure is about *)

From Coq Require Import PeanoNat NArith List Bool String.
From Verif Require Import Base Times TimesSpec Expect Mock Spec.
Import ListNotations.
Open Scope N_scope.

Section PointSpec.
Context {V U : Type}.

(** The places for which a test sets expectations: a method (by its position) of a mock object
    (by the order of creation), or a static function. *)
Inductive site : Type :=
| SiteObj (i j : nat)
| SiteStat (s : nat).

(** The operation sets an expectation for the place, with this chain of setters; it calls the
    function; it validates the expectations. *)
Inductive sets_site : site -> op V U -> list (setter V U) -> Prop :=
| SetsObj i j k l : sets_site (SiteObj i j) (OExpect i j k l) l
| SetsStat s k l : sets_site (SiteStat s) (OCtxExpect s k l) l.

Definition calls_site (st : site) (o : op V U) : bool :=
  match st, o with
  | SiteObj i j, OCall a b _ _ _ => Nat.eqb a i && Nat.eqb b j
  | SiteStat s, OStaticCall a _ _ => Nat.eqb a s
  | _, _ => false
  end.

Inductive validates_site : site -> op V U -> Prop :=
| ValidCheckpoint i j : validates_site (SiteObj i j) (OCheckpoint i)
| ValidDrop i j : validates_site (SiteObj i j) (ODrop i)
| ValidCtxCheckpoint s : validates_site (SiteStat s) (OCtxCheckpoint s)
| ValidCtxDrop s : validates_site (SiteStat s) (OCtxDrop s)
| ValidModule s : validates_site (SiteStat s) OModCheckpoint.

(** The mocks that the operations make, and what the macro knows about a place. *)
Definition news (l : list (op V U)) : list (sdecl V) :=
  flat_map (fun o => match o with ONew sd => [sd] | _ => [] end) l.
Definition site_decl (decls : list (mdecl V)) (l : list (op V U)) (st : site) (md : mdecl V) : Prop :=
  match st with
  | SiteObj i j =>
      exists sd, nth_error (news l) i = Some sd /\ nth_error (struct_fields sd) j = Some md
  | SiteStat s => nth_error decls s = Some md
  end.

(** What a chain of setters says about the arguments. *)
Fixpoint text_from (l : list (setter V U)) (s : string) : string :=
  match l with
  | [] => s
  | StWith ps :: l' => text_from l' (String.concat ", " (map fst ps))
  | StWithf _ :: l' => text_from l' "<function>"
  | StWithfSt _ :: l' => text_from l' "<single threaded function>"
  | _ :: l' => text_from l' s
  end.
Definition text_of (l : list (setter V U)) : string := text_from l "<anything>".

(** What it says about the number of calls: the last [times], [once] or [never]. *)
Definition count_of (l : list (setter V U)) : times_arg := final_count l AFull.

Definition once_setter (s : setter V U) : Prop :=
  match s with StReturnOnce _ | StReturnOnceSt _ => True | _ => False end.

(** ** What a failure has to point to

    This is for tests of any kind: [sets], [calls], [validates] and [has_name] say which
    operations set expectations for a place, call it or validate its expectations, and
    how it is called. *)
Section Points.
Context {O W : Type} (sets : W -> O -> list (setter V U) -> Prop) (calls : W -> O -> bool)
  (validates : W -> O -> Prop) (has_name : W -> string -> Prop).
Context (l : list O) (rs : list (res (option V))) (i : nat).

(** How many of the operations call it. *)
Definition calls_in (w : W) (k : list O) : N := N.of_nat (List.length (filter (calls w) k)).

(** In the test [l], with the results [rs], the failure of the [i]-th operation is about an
    expectation for the place that was set by the setters [done] of an earlier operation (by all
    setters of its chain unless one of them panicked), for a function of that name; the
    expectation has that text.  Since then the function was called [n] times or more, and no
    operation has validated it successfully. *)
Definition points_to (w : W) (name text : string) (n : N) (done : list (setter V U)) : Prop :=
  exists j o rest,
    has_name w name
    /\ (j < i)%nat /\ nth_error l j = Some o /\ sets w o (done ++ rest)
    /\ (nth_error rs j = Some (Ret None) -> rest = [])
    /\ text = text_of done
    /\ n <= calls_in w (skipn (S j) (firstn (S i) l))
    /\ forall k o' r, (j < k < i)%nat -> nth_error l k = Some o' -> validates w o' ->
         nth_error rs k = Some r -> r <> Ret None.

Definition explains (o : O) (m : pmsg) : Prop :=
  match m with
  | MTooFew fn s n k =>
      exists w done, validates w o /\ points_to w fn s n done
        /\ k = arg_min (count_of done) /\ n < k
  | MTooMany fn s n k =>
      exists w done, validates w o /\ points_to w fn s n done
        /\ arg_max (count_of done) = Some k /\ k < n
  | MCall fn s TeNever =>
      exists w done, calls w o = true /\ points_to w fn s 1 done
        /\ arg_max (count_of done) = Some 0
  | MCall fn s (TeTooMany n k) =>
      exists w done, calls w o = true /\ points_to w fn s n done
        /\ arg_max (count_of done) = Some k /\ k < n
  | MRet fn s ReTwice =>
      exists w done, calls w o = true /\ points_to w fn s 2 done
        /\ exists x, In x done /\ once_setter x
  | MRet fn s _ =>
      exists w done, calls w o = true /\ points_to w fn s 1 done
  | MSeqVerify _ _ _ =>
      exists w fn s done q, calls w o = true /\ points_to w fn s 1 done
        /\ In (StInSequence q) done
  | _ => True
  end.
End Points.

(** For the model: *)
Definition site_name (decls : list (mdecl V)) (l : list (op V U)) (st : site) (name : string) : Prop :=
  exists md, site_decl decls l st md /\ name = me_name (md_me md).
Definition calls_of : site -> list (op V U) -> N := calls_in calls_site.
Definition points (decls : list (mdecl V)) (l : list (op V U)) (rs : list (res (option V))) (i : nat) :=
  points_to sets_site calls_site validates_site (site_name decls l) l rs i.
Definition explained (decls : list (mdecl V)) (l : list (op V U)) (rs : list (res (option V))) (i : nat) :=
  explains sets_site calls_site validates_site (site_name decls l) l rs i.

(** Counts are [usize] values, and [times(..0)] does not occur. *)
Definition sound_arg (top : N) (x : times_arg) : Prop := arg_below top x /\ x <> ATo 0.
Definition sound_setters (top : N) (l : list (setter V U)) : Prop :=
  forall x, In (StTimes x) l -> sound_arg top x.
Definition sound_op (top : N) (o : op V U) : Prop :=
  forall st l, sets_site st o l -> sound_setters top l.

End PointSpec.
