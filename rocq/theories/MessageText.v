(** * MessageText: different failures have different texts *)

From Coq Require Import NArith List Bool String Ascii DecimalString Decimal DecimalN.
From Verif Require Import Base Names NameProofs Messages MessageSpec.
Import ListNotations.
Open Scope string_scope.

(** ** Cutting at blanks *)

Lemma has_app a s t : has_char a (s ++ t) <-> has_char a s \/ has_char a t.
Proof. induction s as [|b s IH]; cbn; tauto. Qed.

Lemma cut_first s t x y : ~ has_char " " s -> ~ has_char " " t ->
  s ++ String " " x = t ++ String " " y -> s = t /\ x = y.
Proof.
  revert t. induction s as [|a s IH]; intros [|b t] S T E; cbn in *.
  - injection E as ->. auto.
  - injection E as <- _. tauto.
  - injection E as -> _. tauto.
  - injection E as -> E. destruct (IH t) as [-> ->]; auto.
Qed.

Lemma cut_last s t x y : ~ has_char " " x -> ~ has_char " " y ->
  s ++ String " " x = t ++ String " " y -> s = t /\ x = y.
Proof.
  intros X Y. revert t. induction s as [|a s IH]; intros [|b t] E; cbn in *.
  - injection E as ->. auto.
  - injection E as <- E. subst x. destruct X. apply has_app. right. cbn. auto.
  - injection E as -> E. subst y. destruct Y. apply has_app. right. cbn. auto.
  - injection E as -> E. destruct (IH t) as [-> ->]; auto.
Qed.

(** ** Reading backwards *)

Fixpoint back (s : string) (acc : list ascii) : list ascii :=
  match s with EmptyString => acc | String a r => back r (a :: acc) end.
Lemma back_app s t acc : back (s ++ t) acc = back t (back s acc).
Proof. revert acc. induction s as [|a s IH]; intros acc; cbn; auto. Qed.
Definition digit (a : ascii) : Prop := In a ["0"; "1"; "2"; "3"; "4"; "5"; "6"; "7"; "8"; "9"]%char.

Inductive digits : string -> Prop :=
| digits_nil : digits ""
| digits_cons a s : digit a -> digits s -> digits (String a s).

Lemma uint_digits d : digits (NilEmpty.string_of_uint d).
Proof. induction d; cbn; constructor; auto; unfold digit; cbn; auto 12. Qed.
Lemma show_digits n : digits (show_N n).
Proof.
  unfold show_N, NilZero.string_of_uint. destruct (N.to_uint n) eqn:E; try (rewrite <- E; apply uint_digits);
    try apply (uint_digits (_ _)).
  constructor; [unfold digit; cbn; auto|constructor].
Qed.
Lemma show_some n : show_N n <> "".
Proof. unfold show_N, NilZero.string_of_uint. destruct (N.to_uint n); discriminate. Qed.
Lemma digits_blank s : digits s -> ~ has_char " " s.
Proof.
  induction 1 as [|a s D _ IH]; cbn; auto. intros [E|E]; [|auto]. subst a. unfold digit in D. cbn in D.
  intuition discriminate.
Qed.
Lemma show_blank n : ~ has_char " " (show_N n).
Proof. apply digits_blank, show_digits. Qed.

Lemma back_digits s acc : digits s -> s <> "" -> exists a r, back s acc = a :: r /\ digit a.
Proof.
  intros D. revert acc. induction D as [|a s A D IH]; intros acc N; [contradiction|]. cbn.
  destruct s as [|b s]; [cbn; eauto|]. apply IH. discriminate.
Qed.
Lemma back_show n acc : exists a r, back (show_N n) acc = a :: r /\ digit a.
Proof. apply back_digits; [apply show_digits|apply show_some]. Qed.

(** ** The texts *)

Section Texts.
Context (user : N -> string).
Notation msg := (message user).

(** Messages that end with a number: the text before it, and the number. *)
Definition numbered (m : pmsg) : option (string * N) :=
  match m with
  | MCall fn s (TeTooMany n mx) =>
      Some (about fn s ("called " ++ show_N n ++ " times which is more than the expected"), mx)
  | MTooFew fn s n k =>
      Some (about fn s ("called " ++ show_N n ++ " time(s) which is fewer than expected"), k)
  | MTooMany fn s n k =>
      Some (about fn s ("called " ++ show_N n ++ " time(s) which is more than expected"), k)
  | MSeqVerify d seq level =>
      Some ("assertion `left == right` failed: " ++ (d ++ ": Method sequence violation")
            ++ newline ++ "  left: " ++ show_N seq ++ newline ++ " right:", level)
  | MSeqSatisfy old seq =>
      Some ("assertion `left == right` failed: "
            ++ ("Method sequence violation.  Was an already-satisfied method called another" ++ " time?")
            ++ newline ++ "  left: " ++ show_N old ++ newline ++ " right:", seq)
  | _ => None
  end.
Lemma numbered_text m p n : numbered m = Some (p, n) -> msg m = p ++ String " " (show_N n).
Proof.
  destruct m; cbn [numbered]; try discriminate; [destruct e; try discriminate| | | | ];
    intros E; injection E as <- <-; cbn [message timeserr_text]; unfold about, assert_eq, newline;
    repeat first [rewrite <- append_assoc|progress cbn [append]]; reflexivity.
Qed.

(** The others: the last two characters. *)
Definition ending (m : pmsg) : option (ascii * ascii) :=
  match m with
  | MBackwards => Some ("e", "g")
  | MOverflow => Some ("w", "o")
  | MPoison => Some ("}", " ")
  | MWrongThread => Some (".", "d")
  | MDropThread => Some ("d", "a")
  | MCall _ _ TeNever => Some ("d", "e")
  | MRet _ _ ReNeedsNightly => Some ("e", "r")
  | MRet _ _ ReNoDefault => Some ("t", "l")
  | MRet _ _ ReTwice => Some ("e", "v")
  | MNotExact => Some ("s", "e")
  | MNoMatch _ => Some ("d", "n")
  | _ => None
  end%char.
Lemma ending_text m a b : ending m = Some (a, b) -> exists r, back (msg m) [] = a :: b :: r.
Proof.
  destruct m; cbn [ending]; try discriminate; try destruct e; try discriminate;
    intros E; injection E as <- <-; cbn [message timeserr_text rferr_text]; unfold about;
    rewrite ?back_app; cbn [back]; eauto.
Qed.
Lemma ending_not_digit m a b : ending m = Some (a, b) -> ~ digit a.
Proof.
  destruct m; cbn [ending]; try discriminate; try destruct e; try discriminate;
    intros E; injection E as <- <-; unfold digit; cbn; intuition discriminate.
Qed.
Lemma either m : proper m -> (exists p n, numbered m = Some (p, n)) \/ exists a b, ending m = Some (a, b).
Proof. destruct m; cbn; try contradiction; intros _; try destruct e; eauto. Qed.

(** Different kinds of messages with numbers. *)
Lemma about_parts fn s rest fn' s' rest' : ~ has_char " " fn -> ~ has_char " " fn' ->
  about fn s rest = about fn' s' rest' -> fn = fn' /\ s ++ ") " ++ rest = s' ++ ") " ++ rest'.
Proof.
  unfold about. intros F F' E.
  change (": Expectation(" ++ s ++ ") " ++ rest) with (":" ++ String " " ("Expectation(" ++ s ++ ") " ++ rest)) in E.
  change (": Expectation(" ++ s' ++ ") " ++ rest') with (":" ++ String " " ("Expectation(" ++ s' ++ ") " ++ rest')) in E.
  rewrite !append_assoc in E. apply cut_first in E as [E1 E2].
  - split; [exact (append_inj_r _ _ _ E1)|]. rewrite <- !append_assoc in E2. exact (append_inj_l _ _ _ E2).
  - rewrite has_app. cbn. intuition discriminate.
  - rewrite has_app. cbn. intuition discriminate.
Qed.

Lemma counted_parts s n s' n' rest :
  s ++ ") " ++ "called " ++ show_N n ++ rest = s' ++ ") " ++ "called " ++ show_N n' ++ rest ->
  s = s' /\ n = n'.
Proof.
  rewrite !append_assoc. intros E. apply append_inj_r in E. rewrite <- !append_assoc in E.
  change (") " ++ "called " ++ show_N n) with (") called" ++ String " " (show_N n)) in E.
  change (") " ++ "called " ++ show_N n') with (") called" ++ String " " (show_N n')) in E.
  rewrite !append_assoc in E. apply cut_last in E as [E1 E2]; try apply show_blank.
  split; [exact (append_inj_r _ _ _ E1)|now apply show_inj].
Qed.

Lemma left_parts s n t n' :
  s ++ newline ++ "  left: " ++ show_N n ++ newline ++ " right:"
  = t ++ newline ++ "  left: " ++ show_N n' ++ newline ++ " right:" ->
  s = t /\ n = n'.
Proof.
  intros E. rewrite !append_assoc in E. apply append_inj_r, append_inj_r in E.
  rewrite <- !append_assoc in E.
  change ("  left: " ++ show_N n) with ("  left:" ++ String " " (show_N n)) in E.
  change ("  left: " ++ show_N n') with ("  left:" ++ String " " (show_N n')) in E.
  rewrite !append_assoc in E. apply cut_last in E as [E1 E2]; try apply show_blank.
  split; [|now apply show_inj]. apply append_inj_r, append_inj_r in E1. exact E1.
Qed.

Lemma some_pair {A B} (x y : A) (u v : B) : Some (x, u) = Some (y, v) -> x = y /\ u = v.
Proof. intros E. now injection E. Qed.

Lemma numbered_inj a b p n : proper a -> proper b ->
  numbered a = Some (p, n) -> numbered b = Some (p, n) -> a = b.
Proof.
  destruct a; cbn [numbered proper]; try discriminate; try (destruct e; try discriminate);
    intros PA PB E; apply some_pair in E as [<- <-];
    destruct b; cbn [numbered proper] in *; try discriminate; try (destruct e; try discriminate);
    intros E; apply some_pair in E as [E E2]; subst.
  all: try solve [exfalso; apply (f_equal (fun t => back t [])) in E; unfold about, newline in E;
                  repeat first [rewrite back_app in E|progress cbn [back] in E]; discriminate].
  - apply about_parts in E as [-> E]; auto. apply counted_parts in E as [-> ->]. reflexivity.
  - apply about_parts in E as [-> E]; auto. apply counted_parts in E as [-> ->]. reflexivity.
  - apply about_parts in E as [-> E]; auto. apply counted_parts in E as [-> ->]. reflexivity.
  - apply append_inj_l, left_parts in E as [E ->]. apply append_inj_r in E as ->. reflexivity.
  - exfalso. apply append_inj_l, left_parts in E as [E _]. apply (f_equal (fun t => back t [])) in E.
    repeat first [rewrite back_app in E|progress cbn [back] in E]. discriminate.
  - exfalso. apply append_inj_l, left_parts in E as [E _]. apply (f_equal (fun t => back t [])) in E.
    repeat first [rewrite back_app in E|progress cbn [back] in E]. discriminate.
  - apply append_inj_l, left_parts in E as [_ ->]. reflexivity.
Qed.

Lemma ending_inj a b x y : proper a -> proper b -> ending a = Some (x, y) -> ending b = Some (x, y) ->
  msg a = msg b -> a = b.
Proof.
  destruct a; cbn [ending proper]; try discriminate; try (destruct e; try discriminate);
    intros PA PB E; injection E as <- <-;
    destruct b; cbn [ending proper] in *; try discriminate; try (destruct e; try discriminate);
    intros _; auto; cbn [message timeserr_text rferr_text]; intros E.
  1-4: apply about_parts in E as [-> E]; auto; apply append_inj_r in E as ->; reflexivity.
  apply append_inj_r in E as ->. reflexivity.
Qed.

Lemma message_inj a b : proper a -> proper b -> msg a = msg b -> a = b.
Proof.
  intros PA PB E. destruct (either a PA) as [(p & n & A)|(x & y & A)], (either b PB) as [(q & k & B)|(z & t & B)].
  - assert (E' := E). rewrite (numbered_text _ _ _ A), (numbered_text _ _ _ B) in E'.
    apply cut_last in E' as [-> E2]; try apply show_blank. apply show_inj in E2 as ->.
    exact (numbered_inj _ _ _ _ PA PB A B).
  - exfalso. destruct (ending_text _ _ _ B) as [r R]. rewrite <- E, (numbered_text _ _ _ A), back_app in R.
    cbn [back] in R. destruct (back_show n (" "%char :: back p [])) as (d & l & D & G).
    rewrite D in R. injection R as -> _. exact (ending_not_digit _ _ _ B G).
  - exfalso. destruct (ending_text _ _ _ A) as [r R]. rewrite E, (numbered_text _ _ _ B), back_app in R.
    cbn [back] in R. destruct (back_show k (" "%char :: back q [])) as (d & l & D & G).
    rewrite D in R. injection R as -> _. exact (ending_not_digit _ _ _ A G).
  - destruct (ending_text _ _ _ A) as [r R], (ending_text _ _ _ B) as [r' R']. rewrite E in R.
    rewrite R in R'. injection R' as -> -> _. exact (ending_inj _ _ _ _ PA PB A B E).
Qed.
End Texts.
