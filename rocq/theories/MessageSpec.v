(** * MessageSpec: what the messages of failed tests are about *)

From Coq Require Import NArith List Bool String Ascii.
From Verif Require Import Base Times Expect Mock.
Import ListNotations.
Open Scope N_scope.

(** ** Reading a message *)

Fixpoint has_char (a : ascii) (s : string) : Prop :=
  match s with
  | EmptyString => False
  | String b r => a = b \/ has_char a r
  end.

(** Messages that mockall makes; the names of functions have no blanks. *)
Definition proper (m : pmsg) : Prop :=
  match m with
  | MUser _ => False
  | MCall fn _ _ | MRet fn _ _ | MTooFew fn _ _ _ | MTooMany fn _ _ _ => ~ has_char " " fn
  | _ => True
  end.

(** ** What it is about *)

Section MessageSpec.
Context {V U : Type}.

(** The operation calls a function: what the macro knows about it, its expectations at that
    moment (of those type parameters), and the arguments. *)
Inductive calls (y : sys V U) : op V U -> method V -> list (expectation V U) -> list V -> Prop :=
| CallObj i j k args wr ob f :
    nth_error (y_objs y) i = Some ob -> nth_error ob j = Some f ->
    calls y (OCall i j k args wr) (md_me (f_decl f)) (slot_get (f_slot f) k) args
| CallStat s k args md sm :
    nth_error (y_stats y) s = Some (md, sm) ->
    calls y (OStaticCall s k args) (md_me md) (slot_get (sm_slot sm) k) args.

(** A list of expectations of a method. *)
Definition stored (s : slot V U) (es : list (expectation V U)) : Prop :=
  match s with
  | SPlain l => es = l
  | SGeneric st => exists k, In (k, es) st
  end.

(** The operation validates expectations. *)
Inductive validates (y : sys V U) : op V U -> method V -> list (expectation V U) -> Prop :=
| ValCheckpoint i ob f es :
    nth_error (y_objs y) i = Some ob -> In f ob -> stored (f_slot f) es ->
    validates y (OCheckpoint i) (md_me (f_decl f)) es
| ValDrop i ob f es :
    nth_error (y_objs y) i = Some ob -> In f ob -> stored (f_slot f) es ->
    validates y (ODrop i) (md_me (f_decl f)) es
| ValCtxCheckpoint s md sm es :
    nth_error (y_stats y) s = Some (md, sm) -> stored (sm_slot sm) es ->
    validates y (OCtxCheckpoint s) (md_me md) es
| ValCtxDrop s md sm es :
    nth_error (y_stats y) s = Some (md, sm) -> stored (sm_slot sm) es ->
    validates y (OCtxDrop s) (md_me md) es
| ValModule md sm es :
    In (md, sm) (y_stats y) -> stored (sm_slot sm) es ->
    validates y OModCheckpoint (md_me md) es.

(** The operation sets up an expectation. *)
Inductive sets_up : op V U -> list (setter V U) -> Prop :=
| SetObj i j k l : sets_up (OExpect i j k l) l
| SetStat s k l : sets_up (OCtxExpect s k l) l.

(** How a matcher is shown. *)
Inductive displayed : matcher V U -> string -> Prop :=
| DispAlways : displayed MtAlways "<anything>"
| DispFunc f : displayed (MtFunc f) "<function>"
| DispFuncSt th f : displayed (MtFuncSt th f) "<single threaded function>"
| DispPred ps : displayed (MtPred ps) (String.concat ", " (map fst ps)).

Definition shows (e : expectation V U) (s : string) : Prop := displayed (c_matcher (e_common e)) s.
Definition counted (e : expectation V U) : N := tcount (c_times (e_common e)).
Definition least (e : expectation V U) : N := rstart (trange_of (c_times (e_common e))).
(** One more than the largest number of calls; zero only after [times(..0)]. *)
Definition bound (e : expectation V U) : N := rend (trange_of (c_times (e_common e))).

(** A closure of the expectation's matcher or return action panics that way. *)
Inductive raises (e : expectation V U) (m : pmsg) : Prop :=
| RaiseFunc f args u u' : c_matcher (e_common e) = MtFunc f -> f args u = (u', Panic m) -> raises e m
| RaiseFuncSt th f args u u' :
    c_matcher (e_common e) = MtFuncSt th f -> f args u = (u', Panic m) -> raises e m
| RaisePred ps p a u u' :
    c_matcher (e_common e) = MtPred ps -> In p ps -> snd p a u = (u', Panic m) -> raises e m
| RaiseStatic rf b f args u u' :
    e_action e = AStatic rf b ->
    (rf = SMut f \/ (exists th, rf = SMutSt th f) \/ rf = SOnce f \/ exists th, rf = SOnceSt th f) ->
    f args u = (u', Panic m) -> raises e m
| RaiseMut rf f args u u' :
    e_action e = AMut rf ->
    ((exists o, rf = XMut f o) \/ exists th o, rf = XMutSt th f o) ->
    f args u = (u', Panic m) -> raises e m.

(** The matcher or the return action belongs to the thread. *)
Definition owned (e : expectation V U) (th : nat) : Prop :=
  (exists f, c_matcher (e_common e) = MtFuncSt th f)
  \/ (exists f b, e_action e = AStatic (SMutSt th f) b \/ e_action e = AStatic (SOnceSt th f) b)
  \/ exists f o, e_action e = AMut (XMutSt th f o).

(** No value to return was set. *)
Definition no_value (e : expectation V U) : Prop :=
  (exists b, e_action e = AStatic SDefault b) \/ e_action e = ARef (RDefault None)
  \/ e_action e = AMut (XDefault None).

(** The lock of its matcher, or of its return action, is poisoned. *)
Definition poisoned_matcher (e : expectation V U) : Prop := c_mpoison (e_common e) = true.
Definition poisoned (e : expectation V U) : Prop :=
  poisoned_matcher e \/ exists rf, e_action e = AStatic rf true.

(** The operation locks the store of a static function. *)
Inductive locks (y : sys V U) : op V U -> smutex V U -> Prop :=
| LockExpect s k l md sm : nth_error (y_stats y) s = Some (md, sm) -> locks y (OCtxExpect s k l) sm
| LockCall s k args md sm : nth_error (y_stats y) s = Some (md, sm) -> locks y (OStaticCall s k args) sm
| LockCheckpoint s md sm : nth_error (y_stats y) s = Some (md, sm) -> locks y (OCtxCheckpoint s) sm
| LockDrop s md sm : nth_error (y_stats y) s = Some (md, sm) -> locks y (OCtxDrop s) sm
| LockModule md sm : In (md, sm) (y_stats y) -> locks y OModCheckpoint sm.

(** Some expectation of the called function satisfies [P]. *)
Definition called_with (y : sys V U) (o : op V U)
  (P : method V -> list V -> expectation V U -> Prop) : Prop :=
  exists me es args e, calls y o me es args /\ In e es /\ P me args e.
Definition validated_with (y : sys V U) (o : op V U) (P : method V -> expectation V U -> Prop) : Prop :=
  exists me es e, validates y o me es /\ In e es /\ P me e.

Definition described_call (me : method V) (args : list V) : string :=
  (me_desc me ++ "(" ++ String.concat ", " (map (me_debug me) args) ++ ")")%string.

Definition reason (c : cfg) (y : sys V U) (o : op V U) (m : pmsg) : Prop :=
  match m with
  | MNoMatch d => exists me es args, calls y o me es args /\ d = described_call me args
  | MCall fn s TeNever =>
      called_with y o (fun me _ e => fn = me_name me /\ shows e s /\ bound e = 1)
  | MCall fn s (TeTooMany n mx) =>
      called_with y o (fun me _ e => fn = me_name me /\ shows e s /\ bound e <> 1
        /\ (bound e <> 0 -> n = counted e + 1 /\ bound e = mx + 1 /\ mx < n))
  | MSeqVerify d seq level =>
      called_with y o (fun me args e => d = described_call me args
        /\ (exists h, c_seq (e_common e) = Some h /\ seq = sh_seq h
                      /\ level = w_levels (y_world y) (sh_inner h))
        /\ seq <> level)
  | MSeqSatisfy _ _ => False
  | MRet fn s e =>
      called_with y o (fun me _ x => fn = me_name me /\ shows x s
        /\ match e with
           | ReTwice => exists b, e_action x = AStatic SExpired b
           | ReNeedsNightly => no_value x /\ nightly c = false
           | ReNoDefault => no_value x /\ nightly c = true
               /\ ((exists b, e_action x = AStatic SDefault b) -> me_default me = None)
           end)
  | MTooFew fn s n k =>
      w_panicking (y_world y) = false
      /\ validated_with y o (fun me e => fn = me_name me /\ shows e s
           /\ n = counted e /\ k = least e /\ n < k)
  | MTooMany fn s n k =>
      w_panicking (y_world y) = false
      /\ validated_with y o (fun me e => fn = me_name me /\ shows e s
           /\ n = counted e /\ bound e <= n /\ (bound e <> 0 -> bound e = k + 1 /\ k < n))
  | MNotExact => exists l s, sets_up o l /\ In (StInSequence s) l
  | MBackwards => exists l a b, sets_up o l
      /\ (In (StTimes (ARange a b)) l /\ b <= a \/ In (StTimes (AIncl a b)) l /\ b < a)
  | MWrongThread =>
      called_with y o (fun _ _ e => exists th, owned e th /\ th <> w_thread (y_world y))
  | MOverflow => checks c = true
  | MPoison =>                           (* see [poison_errors_follow_panics] *)
      called_with y o (fun _ _ e => poisoned e) \/ validated_with y o (fun _ e => poisoned_matcher e)
      \/ exists sm, locks y o sm /\ sm_poison sm = true
  | MDropThread => False                 (* see [Fragile.v] *)
  | MUser _ => False
  end.

(** ** Closures that panic in their own words *)

Definition polite {A B} (f : ucode U A B) : Prop :=
  forall a u u' m, f a u = (u', Panic m) -> exists n, m = MUser n.
Definition polite_setter (s : setter V U) : Prop :=
  match s with
  | StWith ps => Forall (fun p => polite (snd p)) ps
  | StWithf f | StWithfSt f => polite f
  | StReturning f | StReturningSt f | StReturnOnce f | StReturnOnceSt f => polite f
  | _ => True
  end.
Definition polite_op (o : op V U) : Prop := forall l, sets_up o l -> Forall polite_setter l.

End MessageSpec.
