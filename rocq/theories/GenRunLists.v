(** * GenRunLists: lemmas about names, statements and drop glue *)

From Coq Require Import List Bool String NArith Arith.
From Verif Require Import Base Times Expect Mock.
From Verif Require Import Ast Rewrite Derive Names Sig MockFn Item MockItem GenRun.
Import ListNotations.
Open Scope string_scope.
Open Scope list_scope.

(** ** Lists *)

Lemma NoDup_app_l {A} (l k : list A) : NoDup (l ++ k) -> NoDup l.
Proof.
  induction l as [|a l IH]; cbn; [constructor|]. intros N. inversion N as [|? ? N1 N2]; subst.
  constructor; auto. intros I. apply N1. apply in_app_iff. auto.
Qed.

Lemma NoDup_app_r {A} (l k : list A) : NoDup (l ++ k) -> NoDup k.
Proof. induction l as [|a l IH]; cbn; auto. intros N. inversion N; subst. auto. Qed.

Lemma NoDup_app_disj {A} (l k : list A) x : NoDup (l ++ k) -> In x l -> In x k -> False.
Proof.
  induction l as [|a l IH]; cbn; [tauto|]. intros N [->|I] K; inversion N as [|? ? N1 N2]; subst; eauto.
  apply N1. apply in_app_iff. auto.
Qed.

Lemma NoDup_app_intro {A} (l k : list A) :
  NoDup l -> NoDup k -> (forall x, In x l -> In x k -> False) -> NoDup (l ++ k).
Proof.
  induction l as [|a l IH]; cbn; auto. intros N K D. inversion N as [|? ? N1 N2]; subst.
  constructor.
  - intros I. apply in_app_iff in I as [I|I]; [auto|]. apply (D a); auto.
  - apply IH; auto. intros x I J. apply (D x); auto.
Qed.

(** A function that depends on another one only. *)
Lemma NoDup_map_factor {A B C} (f : A -> B) (g : A -> C) l :
  (forall x y, In x l -> In y l -> g x = g y -> f x = f y) -> NoDup (map f l) -> NoDup (map g l).
Proof.
  induction l as [|a l IH]; cbn; [constructor|]. intros H N. inversion N as [|? ? N1 N2]; subst.
  constructor.
  - intros I. apply in_map_iff in I as (b & E & I). apply N1. apply in_map_iff. exists b. split; [apply H|]; auto.
  - apply IH; auto.
Qed.

Lemma NoDup_map_eq {A B} (f : A -> B) l x y :
  NoDup (map f l) -> In x l -> In y l -> f x = f y -> x = y.
Proof.
  induction l as [|a l IH]; cbn; [tauto|]. intros N I J E. inversion N as [|? ? N1 N2]; subst.
  destruct I as [->|I], J as [->|J]; auto.
  - elim N1. rewrite E. now apply in_map.
  - elim N1. rewrite <- E. now apply in_map.
Qed.

Lemma NoDup_filter_map {A B} (f : A -> B) p l : NoDup (map f l) -> NoDup (map f (filter p l)).
Proof.
  induction l as [|a l IH]; cbn; auto. intros N. inversion N as [|? ? N1 N2]; subst.
  destruct (p a); cbn; auto. constructor; auto. intros I. apply N1.
  apply in_map_iff in I as (b & E & I). apply filter_In in I as [I _]. apply in_map_iff. eauto.
Qed.

Lemma all_some_map {A B} (f : A -> option B) (h : A -> B) l :
  (forall x, In x l -> f x = Some (h x)) -> all_some f l = Some (map h l).
Proof.
  induction l as [|a l IH]; intros H; cbn; auto.
  rewrite (H a) by (cbn; auto). rewrite IH by (intros; apply H; cbn; auto). reflexivity.
Qed.

Lemma all_some_on_map {A B C} (f : B -> option C) (g : A -> B) (h : A -> C) l :
  (forall x, In x l -> f (g x) = Some (h x)) -> all_some f (map g l) = Some (map h l).
Proof.
  induction l as [|a l IH]; intros H; cbn; auto.
  rewrite (H a) by (cbn; auto). rewrite IH by (intros; apply H; cbn; auto). reflexivity.
Qed.

Lemma all_some_app {A B} (f : A -> option B) l k a b :
  all_some f l = Some a -> all_some f k = Some b -> all_some f (l ++ k) = Some (a ++ b).
Proof.
  revert a. induction l as [|x l IH]; cbn; intros a E F.
  - now injection E as <-.
  - destruct (f x); [|discriminate]. destruct (all_some f l); [|discriminate]. injection E as <-.
    now rewrite (IH l0).
Qed.

Lemma filter_flat_map {A B} (p : B -> bool) (f : A -> list B) l :
  filter p (flat_map f l) = flat_map (fun x => filter p (f x)) l.
Proof. induction l as [|a l IH]; cbn; auto. now rewrite filter_app, IH. Qed.

Lemma map_flat_map {A B C} (h : B -> C) (f : A -> list B) l :
  map h (flat_map f l) = flat_map (fun x => map h (f x)) l.
Proof. induction l as [|a l IH]; cbn; auto. now rewrite map_app, IH. Qed.

Lemma flat_map_ext_in {A B} (f g : A -> list B) l :
  (forall x, In x l -> f x = g x) -> flat_map f l = flat_map g l.
Proof.
  induction l as [|a l IH]; intros H; cbn; auto. rewrite (H a), IH; cbn; auto.
  intros; apply H; cbn; auto.
Qed.

Lemma filter_map {A B} (p : B -> bool) (f : A -> B) l :
  filter p (map f l) = map f (filter (fun x => p (f x)) l).
Proof. induction l as [|a l IH]; cbn; auto. destruct (p (f a)); cbn; now rewrite IH. Qed.

Lemma filter_ext_in' {A} (p q : A -> bool) l :
  (forall x, In x l -> p x = q x) -> filter p l = filter q l.
Proof.
  induction l as [|a l IH]; intros H; cbn; auto. rewrite (H a) by (cbn; auto).
  rewrite IH by (intros; apply H; cbn; auto). reflexivity.
Qed.

Lemma Forall2_nth {A B} (R : A -> B -> Prop) l k i a :
  Forall2 R l k -> nth_error l i = Some a -> exists b, nth_error k i = Some b /\ R a b.
Proof.
  intros F. revert i. induction F as [|x y l k H F IH]; intros [|i] E; try discriminate.
  - injection E as <-. exists y. auto.
  - apply IH. exact E.
Qed.

Lemma Forall2_nth_none {A B} (R : A -> B -> Prop) l k i :
  Forall2 R l k -> nth_error l i = None -> nth_error k i = None.
Proof.
  intros F. revert i. induction F as [|x y l k H F IH]; intros [|i] E; try discriminate; auto.
  apply IH. exact E.
Qed.

Lemma Forall2_set_nth {A B} (R : A -> B -> Prop) l k i a b :
  Forall2 R l k -> R a b -> Forall2 R (set_nth l i a) (set_nth k i b).
Proof.
  intros F H. revert i. induction F as [|x y l k E F IH]; intros [|i]; cbn; constructor; auto.
Qed.

Lemma Forall2_flat_map {A B C D} (R : C -> D -> Prop) (f : A -> list C) (g : B -> list D) l k Q :
  Forall2 Q l k -> (forall a b, Q a b -> Forall2 R (f a) (g b)) ->
  Forall2 R (flat_map f l) (flat_map g k).
Proof.
  intros F H. induction F as [|x y l k E F IH]; cbn; [constructor|]. apply Forall2_app; auto.
Qed.

(** ** Lookup *)

Lemma find_by_in {A} (name : A -> ident) i l x :
  find_by name i l = Some x -> In x l /\ name x = i.
Proof.
  induction l as [|a l IH]; cbn; [discriminate|]. destruct (String.eqb_spec (name a) i).
  - intros E. injection E as <-. auto.
  - intros E. destruct (IH E). auto.
Qed.

Lemma find_by_none {A} (name : A -> ident) i l :
  find_by name i l = None <-> (forall x, In x l -> name x <> i).
Proof.
  induction l as [|a l IH]; cbn; [split; auto; intros _ ? []|].
  destruct (String.eqb_spec (name a) i) as [E|E].
  - split; [discriminate|]. intros H. elim (H a); auto.
  - rewrite IH. split; intros H x; [intros [<-|I]; auto|intros I; auto].
Qed.

Lemma find_by_some {A} (name : A -> ident) l x :
  In x l -> exists y, find_by name (name x) l = Some y /\ In y l /\ name y = name x.
Proof.
  intros I. destruct (find_by name (name x) l) as [y|] eqn:E.
  - exists y. split; auto. apply find_by_in. exact E.
  - exfalso. exact (proj1 (find_by_none _ _ _) E x I eq_refl).
Qed.

Lemma find_by_unique {A} (name : A -> ident) l x :
  NoDup (map name l) -> In x l -> find_by name (name x) l = Some x.
Proof.
  intros N I. destruct (find_by_some name l x I) as (y & E & J & K). rewrite E. f_equal.
  eapply NoDup_map_eq; eauto.
Qed.

Lemma look_app_l {A} i (l k : list (ident * A)) : In i (map fst l) -> look i (l ++ k) = look i l.
Proof.
  induction l as [|[j a] l IH]; cbn; [tauto|]. destruct (String.eqb_spec j i); auto.
  intros [E|I]; [contradiction|auto].
Qed.

Lemma look_app_r {A} i (l k : list (ident * A)) : ~ In i (map fst l) -> look i (l ++ k) = look i k.
Proof.
  induction l as [|[j a] l IH]; cbn; auto. intros N. destruct (String.eqb_spec j i); [tauto|]. apply IH. tauto.
Qed.

Lemma put_app_l {A} i a (l k : list (ident * A)) :
  In i (map fst l) -> put i a (l ++ k) = put i a l ++ k.
Proof.
  induction l as [|[j b] l IH]; cbn; [tauto|]. destruct (String.eqb_spec j i); auto.
  intros [E|I]; [contradiction|]. cbn. now rewrite IH.
Qed.

Lemma put_app_r {A} i a (l k : list (ident * A)) :
  ~ In i (map fst l) -> put i a (l ++ k) = l ++ put i a k.
Proof.
  induction l as [|[j b] l IH]; cbn; auto. intros N. destruct (String.eqb_spec j i); [tauto|].
  f_equal. apply IH. tauto.
Qed.

(** A list of named values, made from a list without duplicate names. *)
Lemma look_map {A B} (name : A -> ident) (val : A -> B) l x :
  NoDup (map name l) -> In x l -> look (name x) (map (fun y => (name y, val y)) l) = Some (val x).
Proof.
  induction l as [|a l IH]; cbn; [tauto|]. intros N I. inversion N as [|? ? N1 N2]; subst.
  destruct (String.eqb_spec (name a) (name x)) as [E|E].
  - destruct I as [->|I]; auto. elim N1. rewrite E. now apply in_map.
  - destruct I as [->|I]; [contradiction|]. auto.
Qed.

Lemma put_map {A B} (name : A -> ident) (val val' : A -> B) l x b :
  NoDup (map name l) -> In x l -> val' x = b ->
  (forall y, In y l -> y <> x -> val' y = val y) ->
  put (name x) b (map (fun y => (name y, val y)) l) = map (fun y => (name y, val' y)) l.
Proof.
  induction l as [|a l IH]; cbn; [tauto|]. intros N I E H. inversion N as [|? ? N1 N2]; subst.
  destruct (String.eqb_spec (name a) (name x)) as [F|F].
  - assert (a = x).
    { destruct I as [->|I]; auto. elim N1. rewrite F. now apply in_map. } subst a.
    f_equal. apply map_ext_in. intros y J. f_equal. symmetry. apply H; auto.
    intros ->. apply N1. now apply in_map.
  - destruct I as [->|I]; [contradiction|]. f_equal.
    + f_equal. symmetry. apply H; auto. congruence.
    + apply IH; auto.
Qed.

Lemma path_eq_spec x y : path_eq x y = true <-> x = y.
Proof. unfold path_eq. destruct (list_eq_dec string_dec x y); split; congruence. Qed.

Lemma path_eq_refl x : path_eq x x = true.
Proof. apply path_eq_spec. reflexivity. Qed.

(** ** Static expectations *)

Section Stats.
Context {V U : Type}.

Definition at_path {B} (s : list ident -> B) (p : list ident) (x : B) : list ident -> B :=
  fun q => if path_eq q p then x else s q.

Lemma at_same {B} (s : list ident -> B) p x : at_path s p x p = x.
Proof. unfold at_path. now rewrite path_eq_refl. Qed.

Lemma at_other {B} (s : list ident -> B) p x q : q <> p -> at_path s p x q = s q.
Proof.
  unfold at_path. intros N. destruct (path_eq q p) eqn:E; auto. apply path_eq_spec in E. contradiction.
Qed.

Lemma get_stat_map {A} (mu : list ident -> smutex V U) (l : list (list ident * A)) p f :
  In (p, f) l -> get_stat p (map (fun x => (fst x, mu (fst x))) l) = Some (mu p).
Proof.
  induction l as [|[q h] l IH]; cbn; [tauto|]. intros I. destruct (path_eq q p) eqn:E.
  - apply path_eq_spec in E. now subst.
  - destruct I as [I|I]; auto. injection I as <- <-. now rewrite path_eq_refl in E.
Qed.

Lemma put_stat_map {A} (mu : list ident -> smutex V U) (l : list (list ident * A)) p x :
  NoDup (map fst l) ->
  put_stat p x (map (fun y => (fst y, mu (fst y))) l)
  = map (fun y => (fst y, at_path mu p x (fst y))) l.
Proof.
  induction l as [|[q h] l IH]; cbn; auto. intros N. inversion N as [|? ? N1 N2]; subst.
  unfold at_path at 1. destruct (path_eq q p) eqn:E.
  - apply path_eq_spec in E. subst q. f_equal. apply map_ext_in. intros [r k] I. cbn. f_equal.
    rewrite at_other; auto. intros ->. apply N1. apply in_map_iff. exists (p, k). auto.
  - now rewrite IH.
Qed.

(** The same, by position. *)
Lemma set_nth_map {A B} (l : list (list ident * A)) (C : Type)
    (mk : list ident * A -> (list ident -> B) -> C) i p f (s : list ident -> B) x :
  (forall y a b, a (fst y) = b (fst y) -> mk y a = mk y b) ->
  NoDup (map fst l) -> nth_error l i = Some (p, f) ->
  set_nth (map (fun y => mk y s) l) i (mk (p, f) (at_path s p x))
  = map (fun y => mk y (at_path s p x)) l.
Proof.
  intros EX. revert i. induction l as [|[q h] l IH]; intros [|i] N E; try discriminate.
  - injection E as <- <-. cbn. f_equal. inversion N as [|? ? N1 N2]; subst.
    apply map_ext_in. intros [r k] I. apply EX. cbn. rewrite at_other; auto.
    intros ->. apply N1. apply in_map_iff. exists (q, k). auto.
  - cbn. inversion N as [|? ? N1 N2]; subst. f_equal.
    + apply EX. cbn. rewrite at_other; auto. intros EQ. apply N1. cbn in E. apply nth_error_In in E.
      rewrite EQ. exact (in_map fst _ _ E).
    + apply IH; auto.
Qed.

End Stats.

(** ** Statements and drop glue *)

Lemma statements_app {A B} (f : A -> B -> option (B * res unit)) l k b :
  statements f (l ++ k) b
  = match statements f l b with
    | Some (b', Ret _) => statements f k b'
    | x => x
    end.
Proof.
  revert b. induction l as [|a l IH]; intros b; cbn; auto.
  destruct (f a b) as [[b' [x| |]]|]; auto.
Qed.

Fixpoint tglue {A} (h : A -> bool -> res unit) (l : list A) (p : bool) : res unit :=
  match l with
  | [] => Ret tt
  | a :: r =>
      match h a p with
      | Ret _ => tglue h r p
      | Abort => Abort
      | Panic m => match tglue h r true with Ret _ => Panic m | _ => Abort end
      end
  end.

Lemma glue_total {A} f (h : A -> bool -> res unit) l p :
  (forall a p, In a l -> f a p = Some (h a p)) -> glue f l p = Some (tglue h l p).
Proof.
  revert p. induction l as [|a l IH]; intros p H; cbn; auto.
  assert (IH' : forall q, glue f l q = Some (tglue h l q)).
  { intros q. apply IH. intros; apply H; cbn; auto. }
  rewrite H by (cbn; auto). destruct (h a p); auto. rewrite IH'. now destruct (tglue h l true).
Qed.

Lemma tglue_app {A} (h : A -> bool -> res unit) l k p :
  tglue h (l ++ k) p
  = match tglue h l p with
    | Ret _ => tglue h k p
    | Abort => Abort
    | Panic m => match tglue h k true with Ret _ => Panic m | _ => Abort end
    end.
Proof.
  revert p. induction l as [|a l IH]; intros p; cbn; auto.
  destruct (h a p); auto. rewrite IH. destruct (tglue h l true); auto.
  now destruct (tglue h k true).
Qed.

Lemma tglue_flat {A B} (h : B -> bool -> res unit) (L : A -> list B) l p :
  tglue (fun a => tglue h (L a)) l p = tglue h (flat_map L l) p.
Proof.
  revert p. induction l as [|a l IH]; intros p; cbn; auto. rewrite tglue_app, !IH.
  reflexivity.
Qed.

Lemma tglue_map {A B} (h : B -> bool -> res unit) (f : A -> B) l p :
  tglue h (map f l) p = tglue (fun a => h (f a)) l p.
Proof. revert p. induction l as [|a l IH]; intros p; cbn; auto. now rewrite !IH. Qed.

Lemma tglue_ext {A} (h k : A -> bool -> res unit) l p :
  (forall a p, In a l -> h a p = k a p) -> tglue h l p = tglue k l p.
Proof.
  revert p. induction l as [|a l IH]; intros p H; cbn; auto. rewrite H by (cbn; auto).
  rewrite !IH by (intros; apply H; cbn; auto). reflexivity.
Qed.

Lemma tglue_ret {A} (h : A -> bool -> res unit) l p :
  (forall a p, In a l -> h a p = Ret tt) -> tglue h l p = Ret tt.
Proof.
  revert p. induction l as [|a l IH]; intros p H; cbn; auto. rewrite H by (cbn; auto).
  apply IH. intros; apply H; cbn; auto.
Qed.

Lemma object_drop_glue {V U} c sh (o : object V U) p :
  object_drop c sh o p = tglue (fun f => slot_drop c (f_decl f) sh (f_slot f)) o p.
Proof.
  revert p. induction o as [|f o IH]; intros p; cbn; auto.
  destruct (slot_drop c (f_decl f) sh (f_slot f) p); auto. now rewrite IH.
Qed.
