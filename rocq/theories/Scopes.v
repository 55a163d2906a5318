(** * Scopes: where the code of a private module names parameters

    The templates of mock_function.rs 893-2545 put the types of a mocked function
    into structures, functions and closures, which declare the lifetime and type
    parameters that may be named in them.  [uses] lists, for every such place of
    the private module of one function, the parameter lists around it and the
    types in it.  Left out are the types without any of the function's types in
    them ([::mockall::Times]), the parameters that the templates add themselves
    ([MockallF], [MockallMatcher0], ...) and the bodies of the functions, which name
    the same types as their signatures. *)

From Coq Require Import List Bool String NArith Arith.
From Verif Require Import Ast Rewrite Derive Names Sig MockFn Item MockItem.
Import ListNotations.
Open Scope string_scope.
Open Scope list_scope.

(** The parameter lists around the types, outermost first: those of the item
    ([impl<..>], [struct<..>]), of the function and of [for<..>].  The templates are
    those of mock_function.rs 893-2545. *)
Record use : Type := Use {
  us_scopes : list generics;
  us_types : list ty
}.

(** A type of the private module with its own parameters as arguments: [Expectation
    #tg].  As at mock_function.rs 2053-2058, 2317-2322. *)
Definition local (n : ident) (g : generics) : ty := TPath (Path false [Seg n (type_args g)]).

(** The parameter ['__mockall_lt] (mock_function.rs 1408-1415). *)
Definition with_guard_lt (g : generics) : generics :=
  Generics true (params g ++ [GpLifetime "__mockall_lt" []]) (where_clause g).
(** ... without angle brackets, if there were none: mock_function.rs 1565-1572.
    [ImplGenerics] prints them if there are parameters (syn). *)

Section uses.
Context (p : gen_privmod).
Local Notation C := (gp_common_generics p).
Local Notation E := (gp_generics p).
Local Notation L := (lifetimes_to_generics (gp_lifetimes p)).   (* [lg], [hrtb] *)
Local Notation A := (map snd (gp_args p)).
Local Notation P := (gp_predty p).
Local Notation RP := (map (TRef None false) (gp_predty p)).
Local Notation O := (gp_output p).
Local Notation W := (gp_owned p).
Local Notation PH := (map ty_of (gp_phantom p)).

(** [Common]: mock_function.rs 893-1060. *)
Definition common_uses : list use :=
  [Use [C] [local "Common" C; local "Matcher" C];                 (* the structure *)
   Use [C; L] RP;                                                 (* matches *)
   Use [C; L] (if gp_with p then P else []);                      (* with *)
   Use [C; L] RP].                                                (* withf, withf_st *)

(** [CommonExpectationMethods]: mock_function.rs 1063-1190. *)
Definition expectation_uses : list use :=
  [Use [E; L] RP;
   Use [E; L] (if gp_with p then P else []);
   Use [E; L] RP].

(** [Matcher]: mock_function.rs 1653-1757. *)
Definition matcher_uses : list use :=
  [Use [C; L] RP;                                                 (* Func, FuncSt *)
   Use [C; L] (if gp_with p then P else []);                      (* Pred *)
   Use [C] PH;                                                    (* _Phantom *)
   Use [C] [local "Matcher" C];
   Use [C; L] RP].                                                (* matches *)

(** [RefRfunc], [RefMutRfunc], [StaticRfunc]: mock_function.rs 1759-1995.  The
    closures of [RefMutRfunc] have no [for<..>]. *)
Definition rfunc_uses : list use :=
  Use [E] (local "Rfunc" E :: PH)
  :: match gp_kind p with
     | KRef => [Use [E] [W]; Use [E; L] [W]]
     | KRefMut => [Use [E] (A ++ [W]); Use [E; L] (A ++ [O])]
     | KStatic => [Use [E; L] (A ++ [O]); Use [E; L] (A ++ [O])]
     end.

(** [RefExpectation], [RefMutExpectation], [StaticExpectation]: mock_function.rs
    1997-2327. *)
Definition kind_uses : list use :=
  Use [E] [local "Expectation" E; local "Common" C; local "Rfunc" E]
  :: match gp_kind p with
     | KRef => [Use [E; L] (A ++ [O]); Use [E] [W]]
     | KRefMut => [Use [E; L] (A ++ [W]); Use [E] [W]; Use [E] (A ++ [W])]
     | KStatic => [Use [E; L] (A ++ [O]); Use [E] [O]; Use [E; L] (A ++ [O])]
     end.

(** [CommonExpectationsMethods], [RefExpectations], [RefMutExpectations],
    [StaticExpectations]: mock_function.rs 1191-1237, 2329-2440. *)
Definition expectations_uses : list use :=
  [Use [E] [local "Expectations" E; local "Expectation" E];
   Use [E; L] (A ++ [O])].

(** [GenericExpectations], [StaticGenericExpectations]: mock_function.rs
    2442-2545.  [call] has the parameters of the expectation, and no others. *)
Definition generic_uses : list use :=
  match gp_generic p with
  | None => []
  | Some k =>
      [Use [Generics (lt_token E) (params E) (gk_any_where k)]
           [local "Expectations" E; local "Expectation" E];
       Use [Generics (lt_token E) (params E) (gk_call_where k)] (A ++ [O]);
       Use [E] [TPath (Path true [seg_of "mockall"; Seg "Key" (PaAngle (gk_key k))])]]
  end.

(** [ExpectationGuardCommonMethods], [ConcreteExpectationGuard],
    [GenericExpectationGuard] and [Context], for functions without [self]:
    mock_function.rs 1238-1652.  The parameters of [Context]'s phantom are the
    struct's type parameters (1575-1577). *)
Definition static_uses : list use :=
  match gp_context p with
  | None => []
  | Some (tg, mg) =>
      (if gp_generic_guard p
       then [Use [with_guard_lt E] PH]
       else [Use [] [local "Expectations" E]])                    (* static EXPECTATIONS *)
      ++ [Use [with_guard_lt E] [local "ExpectationGuard" (with_guard_lt E);
                                 local "Expectations" E; local "Expectation" E];
          Use [with_guard_lt E] [O];                              (* return_const *)
          Use [with_guard_lt E; L] (A ++ [O]);                    (* returning, ... *)
          Use [with_guard_lt E; L] (if gp_with p then P else []);
          Use [with_guard_lt E; L] RP;
          Use [tg] (local "Context" tg :: map ty_of (type_idents tg));
          Use [tg; with_guard_lt mg] [local "ExpectationGuard" (with_guard_lt E)]]
  end.

(** [priv_module]: mock_function.rs 824-890. *)
Definition uses : list use :=
  common_uses ++ expectation_uses ++ matcher_uses ++ rfunc_uses ++ kind_uses
  ++ expectations_uses ++ generic_uses ++ static_uses.
End uses.
