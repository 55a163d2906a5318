(** * AskLocks: who holds which mutex when closures and predicates call mocks *)

From Coq Require Import Arith NArith List Bool String Lia.
From Verif Require Import Base Times Expect Conc ConcSpec ConcProofs LockProofs ThreadProofs
  LinProofs Nest NestSpec NestProofs NestSim NestLocks Ask AskSpec.
Import ListNotations.

Local Arguments set_nth : simpl never.
Local Arguments pstep : simpl never.
Local Arguments put_exp : simpl never.

Section AskLocks.
Context {V U : Type}.
Notation rval := (rval V U).
Notation ncall := (ncall V).
Notation csys := (csys rval U).
Notation pc := (pc rval U).
Notation aval := (aval V U).
Notation asks := (asks V U).
Notation frame := (frame V U).
Notation athread := (athread V U).
Notation asys := (asys V U).

(** A running predicate is where [PEval] is. *)
Definition fpc (q : frame) : pc := match q with FCall p => p | FAsk x i _ => PEval x i end.

(** ** The cases of a step *)
Inductive acase (c : cfg) (ps : asks) (b : csys) (t : nat) : athread -> csys -> athread -> Prop :=
| ac_stay th : acase c ps b t th b th
| ac_enter y rest p o : enter b y = Some p ->
    acase c ps b t (AThread (y :: rest) [] o) b (AThread rest [FCall p] o)
| ac_push todo q y l p o : request q = Some y -> enter b y = Some p ->
    acase c ps b t (AThread todo (q :: l) o) b (AThread todo (FCall p :: q :: l) o)
| ac_inner todo p l o x cm b' p' ev :
    request (FCall p) = None -> asking ps b p = None ->
    pc_call p = Some x -> nth_error (cs_meths b) (cc_m x) = Some cm ->
    pstep c b t cm p = (b', p', ev) -> pc_call p' = Some x ->
    acase c ps b t (AThread todo (FCall p :: l) o) b' (AThread todo (FCall p' :: l) o)
| ac_out todo p o x cm b' ev r :
    request (FCall p) = None -> asking ps b p = None ->
    pc_call p = Some x -> nth_error (cs_meths b) (cc_m x) = Some cm ->
    pstep c b t cm p = (b', PIdle, ev) -> ret_of ev = Some r ->
    acase c ps b t (AThread todo [FCall p] o) b' (AThread todo [] (o ++ [to_val r]))
| ac_resume todo p l o x cm b' ev r xq i y k u r' :
    request (FCall p) = None -> asking ps b p = None ->
    pc_call p = Some x -> nth_error (cs_meths b) (cc_m x) = Some cm ->
    pstep c b t cm p = (b', PIdle, ev) -> ret_of ev = Some r -> k (to_val r) (cs_user b') = (u, r') ->
    acase c ps b t (AThread todo (FCall p :: FCall (PExit xq i (Ret (RReq y k))) :: l) o)
      (put_user b' u) (AThread todo (FCall (PExit xq i r') :: l) o)
| ac_resume_ask todo p l o x cm b' ev r xq i y k u r' :
    request (FCall p) = None -> asking ps b p = None ->
    pc_call p = Some x -> nth_error (cs_meths b) (cc_m x) = Some cm ->
    pstep c b t cm p = (b', PIdle, ev) -> ret_of ev = Some r -> k (to_val r) (cs_user b') = (u, r') ->
    acase c ps b t (AThread todo (FCall p :: FAsk xq i (Ret (AReq y k)) :: l) o)
      (put_user b' u) (AThread todo (FAsk xq i r' :: l) o)
| ac_ask todo x i a l o u y k :
    asking ps b (PEval x i) = Some (x, i, a) -> ask_first a (cc_args x) t (cs_user b) = (u, Ret (AReq y k)) ->
    acase c ps b t (AThread todo (FCall (PEval x i) :: l) o)
      (put_user b u) (AThread todo (FAsk x i (Ret (AReq y k)) :: l) o)
| ac_verdict todo x i a l o u r b' p :
    asking ps b (PEval x i) = Some (x, i, a) -> ask_first a (cc_args x) t (cs_user b) = (u, r) ->
    (forall y k, r <> Ret (AReq y k)) -> ask_end (put_user b u) x i (verdict r) = (b', p) ->
    acase c ps b t (AThread todo (FCall (PEval x i) :: l) o) b' (AThread todo (FCall p :: l) o)
| ac_end todo x i r l o b' p :
    (forall y k, r <> Ret (AReq y k)) -> ask_end b x i (verdict r) = (b', p) ->
    acase c ps b t (AThread todo (FAsk x i r :: l) o) b' (AThread todo (FCall p :: l) o).

(** A call waits for a call that its closure or predicate has made. *)
Fixpoint chain (stack : list frame) : Prop :=
  match stack with
  | [] => True
  | p :: rest =>
      match rest with
      | [] => True
      | q :: _ => exists y, request q = Some y /\ forall xp, pc_call (fpc p) = Some xp -> cc_m xp = nc_m y
      end /\ chain rest
  end.

Lemma request_cases (q : frame) y : request q = Some y ->
  (exists x i k, q = FCall (PExit x i (Ret (RReq y k)))) \/ (exists x i k, q = FAsk x i (Ret (AReq y k))).
Proof.
  destruct q as [p|x i r]; simpl.
  - destruct p; try discriminate. destruct r as [[v|y' k]|m|]; try discriminate. intros [= ->]. left. eauto.
  - destruct r as [[v|y' k]|m|]; try discriminate. intros [= ->]. right. eauto.
Qed.

Lemma asking_some (ps : asks) (b : csys) p x i a : asking ps b p = Some (x, i, a) ->
  p = PEval x i /\ ps (cc_m x) i = Some a /\ exists e, cexp b (cc_m x) i = Some e /\ c_mpoison (e_common e) = false.
Proof.
  destruct p; try discriminate. simpl. destruct (cexp b (cc_m x0) i0) as [e|] eqn:E; [|discriminate].
  destruct (c_mpoison (e_common e)) eqn:M; [discriminate|]. destruct (ps (cc_m x0) i0) eqn:P; [|discriminate].
  intros [= -> -> ->]. eauto 6.
Qed.

Lemma atstep_case c ps (b : csys) t th b' th' :
  chain (at_stack th) -> atstep c ps b t th = (b', th') -> acase c ps b t th b' th'.
Proof.
  destruct th as [todo stack out]. cbn [at_stack]. intros CH T. unfold atstep in T. destruct stack as [|q below].
  - destruct todo as [|y rest]; [injection T as <- <-; constructor|].
    destruct (enter b y) as [p|] eqn:E; injection T as <- <-; constructor. auto.
  - destruct (request q) as [y|] eqn:RQ.
    + destruct (enter b y) as [p|] eqn:E; injection T as <- <-; [|constructor]. eapply ac_push; eauto.
    + destruct q as [p|x i r].
      * destruct (asking ps b p) as [[[x i] a]|] eqn:AK.
        -- pose proof AK as AK'. apply asking_some in AK' as [-> _].
           destruct (ask_first a (cc_args x) t (cs_user b)) as [u r] eqn:AF.
           destruct r as [[v|y k]|m|].
           ++ destruct (ask_end (put_user b u) x i (verdict (Ret (ABool v)))) as [b1 p1] eqn:AE. injection T as <- <-.
              eapply ac_verdict; eauto. discriminate.
           ++ injection T as <- <-. eapply ac_ask; eauto.
           ++ destruct (ask_end (put_user b u) x i (verdict (Panic m))) as [b1 p1] eqn:AE. injection T as <- <-.
              eapply ac_verdict; eauto. discriminate.
           ++ destruct (ask_end (put_user b u) x i (verdict Abort)) as [b1 p1] eqn:AE. injection T as <- <-.
              eapply ac_verdict; eauto. discriminate.
        -- destruct (pc_call p) as [x|] eqn:PX; [|injection T as <- <-; constructor].
           destruct (nth_error (cs_meths b) (cc_m x)) as [cm|] eqn:CM; [|injection T as <- <-; constructor].
           destruct (pstep c b t cm p) as [[b1 p1] ev] eqn:PS.
           pose proof (pstep_return _ _ _ _ _ _ _ _ _ PX PS) as RET.
           destruct (ret_of ev) as [r|] eqn:RO.
           ++ subst p1. destruct below as [|q rest].
              ** simpl in T. injection T as <- <-. eapply ac_out; eauto.
              ** destruct CH as [(y & RY & _) _]. apply request_cases in RY as [(xq & i & k & ->)|(xq & i & k & ->)];
                   cbn [aresume] in T; destruct (k (to_val r) (cs_user b1)) as [u r'] eqn:K; injection T as <- <-;
                   [eapply ac_resume; eauto|eapply ac_resume_ask; eauto].
           ++ injection T as <- <-. eapply ac_inner; eauto.
      * destruct (ask_end b x i (verdict r)) as [b1 p1] eqn:AE. injection T as <- <-.
        eapply ac_end; eauto. intros y k ->. discriminate RQ.
Qed.

(** ** What a step of the innermost frame does to the mutexes *)
Record moves (t : nat) (b : csys) (p : pc) (b' : csys) (p' : pc) : Prop := {
  mv_decls : map decl_of (cs_meths b') = map decl_of (cs_meths b);
  mv_static : forall m i, static_at b' m i = static_at b m i;
  mv_index : forall m i, cexp b' m i <> None <-> cexp b m i <> None;
  mv_ml : forall m i, cs_ml b' m i =
     if holds eq2 (mheld p') (m, i) then Some t
     else if holds eq2 (mheld p) (m, i) then None else cs_ml b m i;
  mv_ml2 : forall m i, mheld p' = Some (m, i) -> mheld p = Some (m, i) \/ cs_ml b m i = None;
  mv_rl : forall m i, cs_rl b' m i =
     if holds eq2 (rheld b p') (m, i) then Some t
     else if holds eq2 (rheld b p) (m, i) then None else cs_rl b m i;
  mv_rl2 : forall m i, rheld b p' = Some (m, i) -> rheld b p = Some (m, i) \/ cs_rl b m i = None;
  mv_sl : forall g, cs_sl b' g =
     if holds Nat.eq_dec (sheld b p') g then Some t
     else if holds Nat.eq_dec (sheld b p) g then None else cs_sl b g;
  mv_sl2 : forall g, sheld b p' = Some g -> sheld b p = Some g \/ cs_sl b g = None;
  mv_ok : pc_ok b p'
}.

Definition aholder {K} (f : pc -> option K) (l : list athread) (t : nat) (k : K) : Prop :=
  exists th, nth_error l t = Some th /\ sthold f (map fpc (at_stack th)) k.

Record alocks (s : asys) : Prop := {
  al_m : agrees (fun k => cs_ml (as_base s) (fst k) (snd k)) (aholder mheld (as_threads s));
  al_r : agrees (fun k => cs_rl (as_base s) (fst k) (snd k)) (aholder (rheld (as_base s)) (as_threads s));
  al_s : agrees (cs_sl (as_base s)) (aholder (sheld (as_base s)) (as_threads s));
  al_md : forall t th, nth_error (as_threads s) t = Some th -> distinct mheld (map fpc (at_stack th));
  al_rd : forall t th, nth_error (as_threads s) t = Some th -> distinct (rheld (as_base s)) (map fpc (at_stack th));
  al_sd : forall t th, nth_error (as_threads s) t = Some th -> distinct (sheld (as_base s)) (map fpc (at_stack th));
  al_ok : forall t th q, nth_error (as_threads s) t = Some th -> In q (at_stack th) ->
    pc_ok (as_base s) (fpc q);
  al_chain : forall t th, nth_error (as_threads s) t = Some th -> chain (at_stack th)
}.

Lemma aholder_set {K} (f : pc -> option K) l t th th' t' k :
  nth_error l t = Some th ->
  aholder f (set_nth l t th') t' k <->
  if Nat.eqb t' t then sthold f (map fpc (at_stack th')) k else aholder f l t' k.
Proof.
  intros N. unfold aholder. rewrite nth_set_nth, N. destruct (Nat.eqb_spec t' t) as [->|NE].
  - split; [intros (x & [= <-] & E); auto|eauto].
  - tauto.
Qed.

(** The innermost frame makes a step; it may become [PIdle]. *)
Lemma alocks_top (b : csys) l t todo out q below b' q' todo' out' :
  alocks (ASys b l) -> nth_error l t = Some (AThread todo (q :: below) out) ->
  moves t b (fpc q) b' (fpc q') ->
  chain (q' :: below) ->
  alocks (ASys b' (set_nth l t (AThread todo' (q' :: below) out'))).
Proof.
  intros [LM LR LS MD RD SD OK CH] N [DE ST IX M1 M2 R1 R2 S1 S2 PO] CH'. simpl in *.
  set (p := fpc q) in *. set (p' := fpc q') in *.
  set (l' := set_nth l t (AThread todo' (q' :: below) out')).
  assert (RH : forall p, rheld b' p = rheld b p) by (intros; apply rheld_same; auto).
  assert (SH : forall p, sheld b' p = sheld b p) by (intros; apply sheld_same; auto).
  assert (PS : forall p, pc_ok b p -> pc_ok b' p) by (intros z; apply pc_ok_same; auto).
  assert (OT : forall K (f g : pc -> option K) t' k, (forall p, f p = g p) -> t' <> t ->
     (aholder f l' t' k <-> aholder g l t' k)).
  { intros K f g t' k FG NE. unfold l'. rewrite (aholder_set _ _ _ _ _ _ _ N).
    destruct (Nat.eqb_spec t' t); [contradiction|].
    unfold aholder. split; intros (y & E1 & E2); exists y; split; auto;
      [apply (proj1 (sthold_ext f g _ _ FG))|apply (proj2 (sthold_ext f g _ _ FG))]; exact E2. }
  assert (HT : forall K (f : pc -> option K) k, aholder f l t k <-> f p = Some k \/ sthold f (map fpc below) k).
  { intros K f k. rewrite <- sthold_cons. unfold aholder. rewrite N.
    split; [intros (y & [= <-] & E); auto|intros E; eexists; split; [reflexivity|exact E]]. }
  assert (HT' : forall K (f g : pc -> option K) k, (forall p, f p = g p) ->
     (aholder f l' t k <-> g p' = Some k \/ sthold g (map fpc below) k)).
  { intros K f g k FG. unfold l'. rewrite (aholder_set _ _ _ _ _ _ _ N), Nat.eqb_refl. cbn [at_stack map].
    rewrite sthold_cons, FG. rewrite (sthold_ext f g) by auto. tauto. }
  pose proof (MD _ _ N) as [DM DM2]. pose proof (RD _ _ N) as [DR DR2]. pose proof (SD _ _ N) as [DS DS2].
  cbn [at_stack map] in *. fold (map fpc below) in *.
  destruct (agrees_step eq2 _ (fun k => cs_ml b' (fst k) (snd k)) _ (aholder mheld l') t (mheld p) (mheld p')
    (sthold mheld (map fpc below)) LM) as [AM DM'].
  { intros. apply OT; auto. } { apply HT. } { intros. apply HT'; auto. } { apply DM. }
  { intros [m i]. apply M1. } { intros [m i]. apply M2. }
  destruct (agrees_step eq2 _ (fun k => cs_rl b' (fst k) (snd k)) _ (aholder (rheld b') l') t (rheld b p) (rheld b p')
    (sthold (rheld b) (map fpc below)) LR) as [AR DR'].
  { intros. apply OT; auto. } { apply HT. } { intros. apply HT'; auto. } { apply DR. }
  { intros [m i]. apply R1. } { intros [m i]. apply R2. }
  destruct (agrees_step Nat.eq_dec _ (cs_sl b') _ (aholder (sheld b') l') t (sheld b p) (sheld b p')
    (sthold (sheld b) (map fpc below)) LS) as [AS DS'].
  { intros. apply OT; auto. } { apply HT. } { intros. apply HT'; auto. } { apply DS. }
  { apply S1. } { apply S2. }
  constructor; cbn [as_base as_threads]; auto; fold l'.
  - intros t' th E. unfold l' in E. rewrite nth_set_nth, N in E. destruct (Nat.eqb_spec t' t); [|eauto].
    injection E as <-. cbn. auto.
  - intros t' th E. unfold l' in E. rewrite nth_set_nth, N in E. destruct (Nat.eqb_spec t' t).
    + injection E as <-. apply (distinct_ext (rheld b)); auto. cbn. auto.
    + apply (distinct_ext (rheld b)); eauto.
  - intros t' th E. unfold l' in E. rewrite nth_set_nth, N in E. destruct (Nat.eqb_spec t' t).
    + injection E as <-. apply (distinct_ext (sheld b)); auto. cbn. auto.
    + apply (distinct_ext (sheld b)); eauto.
  - intros t' th q1 E I. unfold l' in E. rewrite nth_set_nth, N in E. apply PS. destruct (Nat.eqb_spec t' t).
    + injection E as <-. destruct I as [<-|I]; [exact PO|]. apply (OK _ _ q1 N). right. exact I.
    + eauto.
  - intros t' th E. unfold l' in E. rewrite nth_set_nth, N in E. destruct (Nat.eqb_spec t' t).
    + injection E as <-. exact CH'.
    + eauto.
Qed.

(** Another stack that holds the same. *)
Definition same_held {K} (f : pc -> option K) (st st' : list frame) : Prop :=
  (forall k, sthold f (map fpc st') k <-> sthold f (map fpc st) k) /\
  (distinct f (map fpc st) -> distinct f (map fpc st')).

Lemma alocks_replace (b : csys) l t th th' :
  alocks (ASys b l) -> nth_error l t = Some th ->
  same_held mheld (at_stack th) (at_stack th') -> same_held (rheld b) (at_stack th) (at_stack th') ->
  same_held (sheld b) (at_stack th) (at_stack th') ->
  (forall q, In q (at_stack th') -> pc_ok b (fpc q)) -> chain (at_stack th') ->
  alocks (ASys b (set_nth l t th')).
Proof.
  intros [LM LR LS MD RD SD OK CH] N [HM DM] [HR DR] [HS DS] PO CH'. simpl in *.
  assert (HL : forall K (f : pc -> option K) t' k,
     (forall k, sthold f (map fpc (at_stack th')) k <-> sthold f (map fpc (at_stack th)) k) ->
     aholder f (set_nth l t th') t' k <-> aholder f l t' k).
  { intros K f t' k F1. rewrite (aholder_set _ _ _ _ _ _ _ N). destruct (Nat.eqb_spec t' t) as [->|NE]; [|tauto].
    rewrite F1. unfold aholder. rewrite N. split; [eauto|intros (x & [= <-] & E); auto]. }
  constructor; simpl.
  - intros k t'. rewrite HL by auto. apply LM.
  - intros k t'. rewrite HL by auto. apply LR.
  - intros k t'. rewrite HL by auto. apply LS.
  - intros t' th1. rewrite nth_set_nth, N. destruct (Nat.eqb_spec t' t); intros E; [|eauto].
    injection E as <-. eauto.
  - intros t' th1. rewrite nth_set_nth, N. destruct (Nat.eqb_spec t' t); intros E; [|eauto].
    injection E as <-. eauto.
  - intros t' th1. rewrite nth_set_nth, N. destruct (Nat.eqb_spec t' t); intros E; [|eauto].
    injection E as <-. eauto.
  - intros t' th1 q. rewrite nth_set_nth, N. destruct (Nat.eqb_spec t' t); intros E; [|eauto].
    injection E as <-. auto.
  - intros t' th1. rewrite nth_set_nth, N. destruct (Nat.eqb_spec t' t); intros E; [|eauto].
    injection E as <-. auto.
Qed.

Lemma same_push {K} (f : pc -> option K) q st : f (fpc q) = None -> same_held f st (q :: st).
Proof.
  intros E. split; cbn [map].
  - intros k. apply push_same. exact E.
  - intros D. split; [|exact D]. intros k X. congruence.
Qed.

Lemma same_pop {K} (f : pc -> option K) q st : f (fpc q) = None -> same_held f (q :: st) st.
Proof.
  intros E. split; cbn [map].
  - intros k. symmetry. apply push_same. exact E.
  - intros [_ D]. exact D.
Qed.

Lemma alocks_push (b : csys) l t todo stack out y p todo' :
  alocks (ASys b l) -> nth_error l t = Some (AThread todo stack out) -> enter b y = Some p ->
  match stack with [] => True | q :: _ => request q = Some y end ->
  alocks (ASys b (set_nth l t (AThread todo' (FCall p :: stack) out))).
Proof.
  intros L N E RQ. destruct (enter_ok _ _ _ E) as (PO & PX & M & R & S).
  apply (alocks_replace b l t (AThread todo stack out)); auto; cbn [at_stack].
  1-3: apply same_push; assumption.
  - intros q [<-|I]; [exact PO|]. apply (al_ok _ L _ _ q N I).
  - split; [|apply (al_chain _ L _ _ N)]. destruct stack as [|q rest]; [exact I|].
    exists y. split; [exact RQ|]. intros xp Z. cbn [fpc] in Z. rewrite PX in Z. injection Z as <-. reflexivity.
Qed.

Lemma alocks_pop (b : csys) l t todo stack out todo' out' :
  alocks (ASys b l) -> nth_error l t = Some (AThread todo (FCall PIdle :: stack) out) ->
  alocks (ASys b (set_nth l t (AThread todo' stack out'))).
Proof.
  intros L N. apply (alocks_replace b l t (AThread todo (FCall PIdle :: stack) out)); auto; cbn [at_stack].
  1-3: apply same_pop; reflexivity.
  - intros q I. apply (al_ok _ L _ _ q N). right. exact I.
  - pose proof (al_chain _ L _ _ N) as [_ CH]. exact CH.
Qed.

(** ** The three kinds of steps *)
Lemma pstep_steps c (b : csys) t cm p x b' p' ev :
  pc_call p = Some x -> nth_error (cs_meths b) (cc_m x) = Some cm -> pc_ok b p ->
  (forall m i, mheld p = Some (m, i) -> cs_ml b m i = Some t) ->
  (forall m i, rheld b p = Some (m, i) -> cs_rl b m i = Some t) ->
  (forall g, sheld b p = Some g -> cs_sl b g = Some t) ->
  pstep c b t cm p = (b', p', ev) -> moves t b p b' p'.
Proof.
  intros PX CM PC HM HR HS PS.
  destruct (pstep_ml _ _ _ _ _ _ _ _ PS PC HM) as [M1 M2].
  destruct (pstep_rl _ _ _ _ _ _ _ _ PC PS HR) as [R1 R2].
  destruct (pstep_sl _ _ _ _ _ _ _ _ _ PX CM PS PC HS) as [S1 S2].
  constructor; auto.
  - exact (pstep_decls _ _ _ _ _ _ _ _ PS).
  - intros m i. exact (pstep_static _ _ _ _ _ _ _ _ m i PS).
  - intros m i. exact (pstep_index _ _ _ _ _ _ _ _ m i PS).
  - exact (pstep_pc_ok _ _ _ _ _ _ _ _ _ PX CM PS PC).
Qed.

Lemma held_same {K} (keq : forall a b : K, {a = b} + {a <> b}) (h : option K) (lk : K -> option nat) t k :
  (forall k, h = Some k -> lk k = Some t) ->
  lk k = if holds keq h k then Some t else if holds keq h k then None else lk k.
Proof. intros H. destruct (holds keq h k) eqn:E; [apply holds_iff in E; auto|reflexivity]. Qed.

Lemma put_user_steps (b : csys) t p u :
  pc_ok b p ->
  (forall m i, mheld p = Some (m, i) -> cs_ml b m i = Some t) ->
  (forall m i, rheld b p = Some (m, i) -> cs_rl b m i = Some t) ->
  (forall g, sheld b p = Some g -> cs_sl b g = Some t) ->
  moves t b p (put_user b u) p.
Proof.
  intros PC HM HR HS. constructor; auto; try reflexivity; try (intros; tauto).
  - intros m i. apply (held_same eq2 (mheld p) (fun k => cs_ml b (fst k) (snd k)) t (m, i)). intros [m' i']. apply HM.
  - intros m i. apply (held_same eq2 (rheld b p) (fun k => cs_rl b (fst k) (snd k)) t (m, i)). intros [m' i']. apply HR.
  - intros g. apply (held_same Nat.eq_dec (sheld b p) (cs_sl b) t g). apply HS.
Qed.

Lemma ask_end_pc (b : csys) x i v b' p :
  cexp b (cc_m x) i <> None -> ask_end b x i v = (b', p) ->
  pc_call p = Some x /\ mheld p = None /\ rheld b p = None /\ request (FCall p) = None /\
  sheld b p = sheld b (PEval x i) /\ (pc_ok b (PEval x i) -> pc_ok b p).
Proof.
  intros NE. unfold ask_end. destruct (cexp b (cc_m x) i) as [e|] eqn:E; [|congruence].
  intros [= _ <-].
  assert (OK : forall p, pc_call p = Some x -> (pc_index p = None \/ pc_index p = Some (cc_m x, i)) ->
     match p with PLockS _ | PExec _ _ _ | PExit _ _ _ | PRun _ _ => False | _ => True end ->
     pc_ok b (PEval x i) -> pc_ok b p).
  { intros p PX PI NS (P1 & P2 & _ & _). split; [|split; [|split]].
    - intros z Z. apply (P1 z). cbn [pc_call]. congruence.
    - intros m j Z. destruct PI as [PI|PI]; rewrite PI in Z; [discriminate|]. apply (P2 m j). exact Z.
    - intros z ->. destruct NS.
    - intros z j [[f ->]|[[r ->]| ->]]; destruct NS. }
  destruct v as [[|]|m|]; repeat split; try reflexivity; apply OK; simpl; auto.
Qed.

Lemma ask_end_steps (b : csys) t x i v b' p :
  pc_ok b (PEval x i) ->
  (forall m j, mheld (PEval x i : pc) = Some (m, j) -> cs_ml b m j = Some t) ->
  (forall g, sheld b (PEval x i) = Some g -> cs_sl b g = Some t) ->
  ask_end b x i v = (b', p) -> moves t b (PEval x i) b' p.
Proof.
  intros PC HM HS AE.
  assert (NE : cexp b (cc_m x) i <> None) by (apply (proj1 (proj2 PC)); reflexivity).
  destruct (ask_end_pc _ _ _ _ _ _ NE AE) as (PX & M & R & _ & S & OK).
  unfold ask_end in AE. destruct (cexp b (cc_m x) i) as [e|] eqn:E; [|congruence]. injection AE as <- <-.
  match goal with |- moves _ _ _ (put_ml (put_exp _ _ _ ?e1) _ _ _) _ => set (e' := e1) in * end.
  assert (AC : e_action e' = e_action e) by reflexivity. clearbody e'.
  assert (CX : forall m j, cexp (put_ml (put_exp b (cc_m x) i e') x i None) m j =
     if (Nat.eqb m (cc_m x) && Nat.eqb j i)%bool then Some e' else cexp b m j).
  { intros m j. rewrite cexp_put_ml, cexp_put_exp. destruct (Nat.eqb m (cc_m x) && Nat.eqb j i)%bool eqn:Q; [|reflexivity].
    apply andb_true_iff in Q as [Q1 Q2]. apply Nat.eqb_eq in Q1, Q2. subst. rewrite E. reflexivity. }
  constructor; auto.
  - simpl. apply put_exp_decls.
  - intros m j. unfold static_at. rewrite CX. destruct (Nat.eqb m (cc_m x) && Nat.eqb j i)%bool eqn:Q; [|reflexivity].
    apply andb_true_iff in Q as [Q1 Q2]. apply Nat.eqb_eq in Q1, Q2. subst. rewrite E, AC. reflexivity.
  - intros m j. rewrite CX. destruct (Nat.eqb m (cc_m x) && Nat.eqb j i)%bool eqn:Q; [|tauto].
    apply andb_true_iff in Q as [Q1 Q2]. apply Nat.eqb_eq in Q1, Q2. subst. rewrite E. split; discriminate.
  - intros m j. rewrite M. unfold mheld at 1. cbn [holds]. cbn [put_ml cs_ml]. rewrite set2_spec.
    destruct (holds eq2 (Some (cc_m x, i)) (m, j)); [reflexivity|].
    unfold put_exp. destruct (nth_error (cs_meths b) (cc_m x)); reflexivity.
  - intros m j Z. congruence.
  - intros m j. rewrite R. cbn [holds rheld put_ml cs_rl]. unfold put_exp. destruct (nth_error (cs_meths b) (cc_m x)); reflexivity.
  - intros m j Z. congruence.
  - intros g. rewrite S. transitivity (cs_sl b g).
    + cbn [put_ml cs_sl]. unfold put_exp. destruct (nth_error (cs_meths b) (cc_m x)); reflexivity.
    + apply (held_same Nat.eq_dec (sheld b (PEval x i)) (cs_sl b) t g). exact HS.
  - intros g Z. left. congruence.
Qed.

(** What the thread itself holds. *)
Lemma top_holds (b : csys) l t todo q below out :
  alocks (ASys b l) -> nth_error l t = Some (AThread todo (q :: below) out) ->
  pc_ok b (fpc q) /\
  (forall m i, mheld (fpc q) = Some (m, i) -> cs_ml b m i = Some t) /\
  (forall m i, rheld b (fpc q) = Some (m, i) -> cs_rl b m i = Some t) /\
  (forall g, sheld b (fpc q) = Some g -> cs_sl b g = Some t).
Proof.
  intros L N. split; [apply (al_ok _ L _ _ q N); left; reflexivity|].
  assert (H : forall K (f : pc -> option K) k, f (fpc q) = Some k -> aholder f l t k).
  { intros K f k E. eexists. split; [exact N|]. cbn [at_stack map]. rewrite sthold_cons. auto. }
  split; [|split].
  - intros m i E. apply (al_m _ L (m, i)). apply H. exact E.
  - intros m i E. apply (al_r _ L (m, i)). apply H. exact E.
  - intros g E. apply (al_s _ L g). apply H. exact E.
Qed.

Lemma chain_same (q q' : frame) l : pc_call (fpc q') = pc_call (fpc q) -> chain (q :: l) -> chain (q' :: l).
Proof. intros E [A B]. split; [|exact B]. destruct l; [exact I|]. rewrite E. exact A. Qed.

Lemma pc_ok_exit (b : csys) x i r r' : pc_ok b (PExit x i r) -> pc_ok b (PExit x i r').
Proof.
  intros (P1 & P2 & P3 & P4). split; [|split; [|split]]; auto; try discriminate.
  intros z j [[f EQ]|[[r1 EQ]|EQ]]; try discriminate EQ. injection EQ as <- <- _. apply P4. right. left. eauto.
Qed.

Lemma alocks_astep c ps (s : asys) t : alocks s -> alocks (astep c ps s t).
Proof.
  intros L. unfold astep. destruct (nth_error (as_threads s) t) as [th|] eqn:N; [|exact L].
  destruct s as [b l]. cbn [as_base as_threads] in *.
  destruct (atstep c ps b t th) as [b' th'] eqn:T.
  pose proof (al_chain _ L _ _ N) as CH.
  apply atstep_case in T; [|exact CH].
  assert (FIN : forall p below todo out x cm b1 ev, th = AThread todo (FCall p :: below) out ->
    pc_call p = Some x -> nth_error (cs_meths b) (cc_m x) = Some cm -> pstep c b t cm p = (b1, PIdle, ev) ->
    alocks (ASys b1 (set_nth l t (AThread todo below out)))).
  { intros p below todo out x cm b1 ev -> PX CM PS.
    destruct (top_holds _ _ _ _ _ _ _ L N) as (PO & HM & HR & HS).
    pose proof (pstep_steps _ _ _ _ _ _ _ _ _ PX CM PO HM HR HS PS) as ST.
    pose proof (alocks_top b l t todo out (FCall p) below b1 (FCall PIdle) todo out L N ST) as L1.
    cbn [fpc] in L1.
    assert (L2 : alocks (ASys b1 (set_nth l t (AThread todo (FCall PIdle :: below) out)))).
    { apply L1. destruct CH as [A B]. split; [|exact B]. destruct below as [|q r]; [exact I|].
      destruct A as (y & A & _). exists y. split; [exact A|discriminate]. }
    pose proof (alocks_pop b1 _ t todo below out todo out L2) as L3.
    rewrite set_nth_again in L3. apply L3. rewrite nth_set_nth, Nat.eqb_refl, N. reflexivity. }
  assert (AGAIN : forall th1, nth_error (set_nth l t th1) t = Some th1).
  { intros th1. rewrite nth_set_nth, Nat.eqb_refl, N. reflexivity. }
  (* a waiting frame goes on after its call has ended *)
  assert (WAKE : forall b1 todo below out q q' u, alocks (ASys b1 (set_nth l t (AThread todo (q :: below) out))) ->
     (q' = q \/ (exists x i r r', q = FCall (PExit x i r) /\ q' = FCall (PExit x i r')) \/
      (exists x i r r', q = FAsk x i r /\ q' = FAsk x i r')) ->
     alocks (ASys (put_user b1 u) (set_nth l t (AThread todo (q' :: below) out)))).
  { intros b1 todo below out q q' u L1 Q.
    pose proof (top_holds _ _ _ _ _ _ _ L1 (AGAIN _)) as (PO & HM & HR & HS).
    pose proof (al_chain _ L1 _ _ (AGAIN _)) as CH1.
    assert (E : fpc q' = fpc q \/ exists x i r r', fpc q = PExit x i r /\ fpc q' = PExit x i r').
    { destruct Q as [->|[(x & i & r & r' & -> & ->)|(x & i & r & r' & -> & ->)]]; simpl; eauto 8. }
    rewrite <- (set_nth_again l t (AThread todo (q :: below) out)).
    apply (alocks_top b1 _ t todo out q below _ q' todo out L1 (AGAIN _)).
    - pose proof (put_user_steps b1 t (fpc q) u PO HM HR HS) as ST.
      destruct E as [E|(x & i & r & r' & E1 & E2)]; [rewrite E; exact ST|].
      rewrite E1 in *. rewrite E2. destruct ST as [A1 A2 A3 A4 A5 A6 A7 A8 A9 A10]. constructor; auto.
      apply (pc_ok_exit b1 x i r r'). exact PO.
    - apply (chain_same q q'); [|exact CH1].
      destruct E as [E|(x & i & r & r' & E1 & E2)]; [rewrite E; reflexivity|]. rewrite E1, E2. reflexivity. }
  destruct T as [th|y rest p o E|todo q y l0 p o RQ E|todo p l0 o x cm b' p' ev RQ AK PX CM PS PX'
    |todo p o x cm b' ev r RQ AK PX CM PS RO|todo p l0 o x cm b' ev r xq i y k u r' RQ AK PX CM PS RO K
    |todo p l0 o x cm b' ev r xq i y k u r' RQ AK PX CM PS RO K
    |todo x i a l0 o u y k AK AF|todo x i a l0 o u r b' p AK AF NR AE|todo x i r l0 o b' p NR AE].
  - rewrite set_nth_self; auto.
  - eapply (alocks_push b l t (y :: rest) [] o y p rest); eauto.
  - eapply (alocks_push b l t todo (q :: l0) o y p todo); eauto.
  - destruct (top_holds _ _ _ _ _ _ _ L N) as (PO & HM & HR & HS).
    apply (alocks_top b l t todo o (FCall p) l0 b' (FCall p') todo o L N).
    + eapply pstep_steps; eauto.
    + apply (chain_same (FCall p)); [cbn [fpc]; congruence|exact CH].
  - pose proof (FIN p [] todo o x cm b' ev eq_refl PX CM PS) as L1.
    rewrite <- (set_nth_again l t (AThread todo [] o)).
    apply (alocks_replace b' _ t (AThread todo [] o)); auto; cbn [at_stack].
    1-3: split; [intros; tauto|auto].
    + intros q [].
    + exact I.
  - pose proof (FIN p _ todo o x cm b' ev eq_refl PX CM PS) as L1.
    eapply WAKE; [exact L1|]. right. left. exists xq, i, (Ret (RReq y k)), r'. auto.
  - pose proof (FIN p _ todo o x cm b' ev eq_refl PX CM PS) as L1.
    eapply WAKE; [exact L1|]. right. right. exists xq, i, (Ret (AReq y k)), r'. auto.
  - destruct (top_holds _ _ _ _ _ _ _ L N) as (PO & HM & HR & HS).
    apply (alocks_top b l t todo o (FCall (PEval x i)) l0 _ (FAsk x i (Ret (AReq y k))) todo o L N).
    + apply (put_user_steps b t (PEval x i) u); auto.
    + apply (chain_same (FCall (PEval x i))); [reflexivity|exact CH].
  - assert (L1 : alocks (ASys (put_user b u) (set_nth l t (AThread todo (FCall (PEval x i) :: l0) o)))).
    { apply (WAKE b todo l0 o (FCall (PEval x i))); [|auto]. rewrite set_nth_self; auto. }
    destruct (top_holds _ _ _ _ _ _ _ L1 (AGAIN _)) as (PO & HM & HR & HS).
    rewrite <- (set_nth_again l t (AThread todo (FCall (PEval x i) :: l0) o)).
    assert (NE : cexp (put_user b u) (cc_m x) i <> None) by (apply (proj1 (proj2 PO)); reflexivity).
    pose proof (ask_end_pc _ _ _ _ _ _ NE AE) as (PX & _).
    apply (alocks_top (put_user b u) _ t todo o (FCall (PEval x i)) l0 b' (FCall p) todo o L1 (AGAIN _)).
    + eapply ask_end_steps; eauto.
    + apply (chain_same (FCall (PEval x i))); [exact PX|exact CH].
  - destruct (top_holds _ _ _ _ _ _ _ L N) as (PO & HM & HR & HS). cbn [fpc] in *.
    assert (NE : cexp b (cc_m x) i <> None) by (apply (proj1 (proj2 PO)); reflexivity).
    pose proof (ask_end_pc _ _ _ _ _ _ NE AE) as (PX & _).
    apply (alocks_top b l t todo o (FAsk x i r) l0 b' (FCall p) todo o L N).
    + eapply ask_end_steps; eauto.
    + apply (chain_same (FAsk x i r)); [exact PX|exact CH].
Qed.

Lemma alocks_arun c ps sched : forall s, alocks s -> alocks (arun c ps s sched).
Proof. induction sched as [|t sched IH]; intros s L; simpl; auto. apply IH. apply alocks_astep. auto. Qed.

Lemma alocks_start u lv ms sp progs : alocks (astart u lv ms sp progs).
Proof.
  assert (E : forall t th, nth_error (as_threads (astart u lv ms sp progs)) t = Some th -> at_stack th = []).
  { intros t th. unfold astart. simpl. rewrite nth_error_map. destruct (nth_error progs t); [|discriminate].
    intros [= <-]. reflexivity. }
  assert (H : forall K (f : pc -> option K) t k, ~ aholder f (as_threads (astart u lv ms sp progs)) t k).
  { intros K f t k (th & N & p & I & _). rewrite (E _ _ N) in I. destruct I. }
  constructor.
  1-3: intros k t; split; [discriminate|intros X; destruct (H _ _ _ _ X)].
  1-3: intros t th N; rewrite (E _ _ N); exact I.
  - intros t th q N I. rewrite (E _ _ N) in I. destruct I.
  - intros t th N. rewrite (E _ _ N). exact I.
Qed.

End AskLocks.
