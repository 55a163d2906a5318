(** * AutoTraits: may mocks be moved to and shared between threads?

    The types of the generated code as far as [Send] and [Sync] depend on them
    (mockall_derive/src/mock_function.rs 893-2545, mock_item_struct.rs 30-60, 244-452;
    mockall/src/lib.rs 1430-1785), and the rules by which rustc derives these two traits.

    - The rules are those of the Rust reference and of the impls in [std] and in the crate
      [fragile].  Lifetimes do not matter to them.
    - The user's own types are arbitrary: what they implement is a parameter.
    - Simplified: [#[cfg]] on fields is ignored; all fields are there. *)

From Coq Require Import List Bool String.
From Verif Require Import Ast Derive Names Sig MockFn MockItem GenRun.
Import ListNotations.
Open Scope list_scope.

(** The traits of [std::marker]; wanted at lib.rs 1430, mock_function.rs 1710-1713.
    *)
Inductive marker : Type := Send | Sync.

(** The types of the fields at mock_function.rs 893-2545, as far as the two traits
    depend on them; the user's own types by name. *)
Inductive gty : Type :=
| GUser (m : list ident) (t : ty)  (* a type of the user, written in the generated module [m] *)
| GWord                            (* [usize], [AtomicUsize], [TypeId], [()]: both *)
| GAll (l : list gty)              (* struct, enum, tuple, [Box], [Vec], [Option], [HashMap], [PhantomData] *)
| GMutex (t : gty)
| GOnceLock (t : gty)
| GArc (t : gty)
| GGuard (t : gty)                 (* [MutexGuard] *)
| GFragile (t : gty)
| GDyn (l : list marker).          (* a trait object with these as bounds or supertraits *)

(** Does the type implement the trait?  [user]: do the user's? *)
Section Auto.
Context (user : marker -> list ident -> ty -> Prop).

(** The rules of rustc and std, for the types of mock_function.rs 893-2545. *)
Fixpoint auto (a : marker) (t : gty) : Prop :=
  match t with
  | GUser m t => user a m t
  | GWord => True
  | GAll l => (fix all (l : list gty) : Prop :=
                 match l with [] => True | t :: r => auto a t /\ all r end) l
  | GMutex t => auto Send t
  | GOnceLock t => auto Send t /\ (a = Sync -> auto Sync t)
  | GArc t => auto Send t /\ auto Sync t
  | GGuard t => a = Sync /\ auto Sync t
  | GFragile _ => True
  | GDyn l => In a l
  end.
End Auto.

(** ** mockall/src/lib.rs *)

(** [Times]: 1579-1582. *)
Definition times_gty : gty := GAll [GWord; GWord].
(** [SeqHandle], [SeqInner]: 1682-1702. *)
Definition seq_handle_gty : gty := GAll [GArc (GAll [GWord]); GWord].
(** [Box<dyn AnyExpectations>]: 1430. *)
Definition any_gty : gty := GDyn [Send; Sync].

(** ** Private modules: mock_function.rs *)

(** [Matcher]: 1684-1718.  Without [with] the predicates are [()]. *)
Definition matcher_gty (p : gen_privmod) : gty :=
  GAll [GWord;
        GDyn [Send];
        GFragile (GDyn []);
        (if gp_with p then GAll (map (fun _ => GDyn [Send]) (gp_predty p)) else GWord);
        GDyn [Send]].

(** [Common]: 938-942. *)
Definition common_gty (p : gen_privmod) : gty :=
  GAll [GMutex (matcher_gty p); seq_handle_gty; times_gty].

(** [Rfunc]: 1778-1785, 1842-1856, 1925-1944. *)
Definition rfunc_gty (m : list ident) (p : gen_privmod) : gty :=
  let owned := GUser m (gp_owned p) in
  match gp_kind p with
  | KRef => GAll [owned; owned; GMutex (GDyn [Send])]
  | KRefMut => GAll [owned; GAll [GDyn [Send; Sync]; owned]; GAll [GFragile (GDyn []); owned]; owned;
                     GMutex (GDyn [Send])]
  | KStatic => GAll [GWord; GWord; GDyn [Send]; GFragile (GDyn []); GDyn [Send]; GFragile (GDyn []);
                     GDyn [Send]]
  end.

(** [Expectation]: 2020-2023, 2085-2088, 2175-2178. *)
Definition expectation_gty (m : list ident) (p : gen_privmod) : gty :=
  GAll [common_gty p;
        match gp_kind p with
        | KStatic => GMutex (rfunc_gty m p)
        | _ => rfunc_gty m p
        end].

(** [Expectations]: 1205; [GenericExpectations]: 2464-2467. *)
Definition expectations_gty (m : list ident) (p : gen_privmod) : gty := GAll [expectation_gty m p].
(** [GenericExpectations]: mock_function.rs 2464-2467. *)
Definition generic_gty : gty := GAll [GWord; any_gty].

(** The static with the expectations of a static function: 1434-1439, 1505-1508. *)
Definition static_gty (m : list ident) (p : gen_privmod) : gty :=
  if gp_generic_guard p then GOnceLock (GMutex generic_gty) else GMutex (expectations_gty m p).

(** [Context]: 1596-1602. *)
Definition context_gty : gty := GDyn [Send].

(** [ExpectationGuard]: 1453-1456, 1513-1517. *)
Definition guard_gty (m : list ident) (p : gen_privmod) : gty :=
  if gp_generic_guard p
  then GAll [GGuard generic_gty; GWord; GAll (map (fun i => GUser m (ty_of i)) (gp_phantom p))]
  else GAll [GGuard (expectations_gty m p); GWord].

(** ** The mock: mock_item_struct.rs 332-338, 427-433 *)

(** The type of a field that is not a structure: mock_function.rs 736-763,
    mock_item_struct.rs 30-60. *)
Definition field_gty (g : gen_mock) (t : field_ty) : option gty :=
  match t with
  | FtExpectations m generic _ =>
      match find_mod g m with
      | Some p => Some (if generic then generic_gty else expectations_gty m p)
      | None => None
      end
  | FtSub _ _ => None
  | FtPhantomLifetime _ => Some GWord
  | FtPhantomType i => Some (GUser [] (ty_of i))
  end.

(** The fields of a structure: mock_item_struct.rs 335-338, 430-433. *)
Definition fields_gty (val : field_ty -> option gty) (l : list gen_field) : option gty :=
  option_map GAll (all_some (fun f => val (gf_ty f)) l).

(** The type of a field of the mock: mock_item_struct.rs 292-304. *)
Definition outer_gty (g : gen_mock) (t : field_ty) : option gty :=
  match t with
  | FtSub n _ =>
      match find_by gs_name n (gm_substructs g) with
      | Some ss => fields_gty (field_gty g) (gs_fields ss)
      | None => None
      end
  | t => field_gty g t
  end.

(** The mock: mock_item_struct.rs 335-338. *)
Definition mock_gty (g : gen_mock) : option gty := fields_gty (outer_gty g) (gm_fields g).
