(** * ExpectProofs: lemmas about expectations *)

From Coq Require Import NArith List Bool String Lia.
From Verif Require Import Base Times TimesSpec TimesProofs Expect.
Import ListNotations.
Open Scope N_scope.

Section P.
Context {V U : Type}.
Implicit Types (w : world U) (me : method V) (k : common V U) (e : expectation V U).

(** ** World projections *)
Lemma set_levels_id w : set_levels w (w_levels w) = w.
Proof. destruct w; reflexivity. Qed.
Lemma set_user_id w : set_user w (w_user w) = w.
Proof. destruct w; reflexivity. Qed.
Lemma set_times_times k t : c_times (set_times k t) = t.
Proof. reflexivity. Qed.
Lemma set_common_id e : set_common e (e_common e) = e.
Proof. destruct e; reflexivity. Qed.

(** ** Common::call *)

(** The times part of a call, in terms of the number of earlier calls. *)
Lemma times_call_lt c t :
  tcount t < umax c -> tcount t + 1 < rend (trange_of t) ->
  times_call c t = (Times (tcount t + 1) (trange_of t), Ret (Ok tt)).
Proof.
  intros H1 H2. unfold times_call. rewrite uwrap1_ok, uadd1_ok by lia. simpl.
  ncase; try lia. reflexivity.
Qed.

Lemma times_call_ge c t :
  tcount t < umax c -> 1 <= rend (trange_of t) -> rend (trange_of t) <= tcount t + 1 ->
  times_call c t =
    (Times (tcount t + 1) (trange_of t),
     Ret (Err (if rend (trange_of t) =? 1 then TeNever
               else TeTooMany (tcount t + 1) (rend (trange_of t) - 1)))).
Proof.
  intros H1 H2 H3. unfold times_call. rewrite uwrap1_ok, uadd1_ok by lia. simpl.
  ncase; try lia; auto. rewrite usub_ok by lia. reflexivity.
Qed.

Lemma is_done_ok c t :
  1 <= rend (trange_of t) ->
  times_is_done c t = Ret (rend (trange_of t) <=? tcount t + 1).
Proof.
  intros H. unfold times_is_done. rewrite usub_ok by lia. simpl.
  ncase; auto; try lia.
Qed.

(** A call that is over the maximum. *)
Lemma common_call_over c me k d w :
  tcount (c_times k) < umax c ->
  1 <= rend (trange_of (c_times k)) ->
  rend (trange_of (c_times k)) <= tcount (c_times k) + 1 ->
  common_call c me k d w =
    (set_times k (Times (tcount (c_times k) + 1) (trange_of (c_times k))), w,
     let? s := show_locked k in
     Panic (MCall (me_name me) s
              (if rend (trange_of (c_times k)) =? 1 then TeNever
               else TeTooMany (tcount (c_times k) + 1) (rend (trange_of (c_times k)) - 1)))).
Proof.
  intros. unfold common_call. rewrite times_call_ge by lia. reflexivity.
Qed.

(** A call within the maximum, without a sequence. *)
Lemma common_call_noseq c me k d w :
  c_seq k = None ->
  tcount (c_times k) < umax c ->
  tcount (c_times k) + 1 < rend (trange_of (c_times k)) ->
  common_call c me k d w =
    (set_times k (Times (tcount (c_times k) + 1) (trange_of (c_times k))), w, Ret tt).
Proof.
  intros HS H1 H2. unfold common_call. rewrite times_call_lt by lia.
  unfold verify_sequence, satisfy_sequence. simpl. rewrite HS.
  destruct (times_is_satisfied _); reflexivity.
Qed.

(** A call within the maximum, with a sequence. *)
Lemma common_call_seq c me k d w h :
  c_seq k = Some h ->
  tcount (c_times k) < umax c ->
  tcount (c_times k) + 1 < rend (trange_of (c_times k)) ->
  let k' := set_times k (Times (tcount (c_times k) + 1) (trange_of (c_times k))) in
  common_call c me k d w =
    if sh_seq h =? w_levels w (sh_inner h) then
      if tcount (c_times k) + 1 <? rstart (trange_of (c_times k)) then (k', w, Ret tt)
      else (k', set_levels w (set_level (w_levels w) (sh_inner h)
                                (uwrap1 c (w_levels w (sh_inner h)))), Ret tt)
    else (k', w, Panic (MSeqVerify d (sh_seq h) (w_levels w (sh_inner h)))).
Proof.
  intros HS H1 H2. simpl. unfold common_call. rewrite times_call_lt by lia.
  unfold verify_sequence, satisfy_sequence, handle_verify, handle_satisfy,
    inner_verify, inner_satisfy. simpl. rewrite HS.
  pose proof (is_satisfied_spec (Times (tcount (c_times k) + 1) (trange_of (c_times k)))) as S.
  simpl in S.
  destruct (N.eqb_spec (sh_seq h) (w_levels w (sh_inner h))) as [E|E].
  - rewrite <- E. rewrite N.eqb_refl.
    destruct (times_is_satisfied _); ncase; try lia; auto.
  - reflexivity.
Qed.

End P.
