(** Processes end one by one, on top of System.v: a process may end at any moment, also
    between two of its sends, and whoever dials a process that has ended ends too (used for
    C100). *)
From Coq Require Import ZArith Znumtheory Lia List Bool Permutation.
From Coq Require Import Strings.Byte.
From Coq Require String.
From Verif Require Import ZMod Bytes Suite Pedersen ElGamal FujiOkam Equality Codec Maps Net Bridge Client
  Perm SimpleShuffle PairShuffle Server Coordinator History System Depart Restart.
Import ListNotations.
Import String.StringSyntax.
Open Scope Z_scope.
Delimit Scope string_scope with str.

(** The whole system and the addresses of the processes that have ended. *)
Record world := World { w_sys : sys; w_dead : list addr }.

(** The process that takes a step: a handler or a command runs in the process it is sent to
    or typed into, the main loop (CoordinatorLauncher.go:226-292) in the coordinator. *)
Definition acting (y : sys) (a : action) : option addr :=
  match a with
  | ALaunch x _ _ | AJoin x _ _ | ACommand x _ => Some x
  | ADeliver i _ _ _ => option_map mDst (nth_error (y_msgs y) i)
  | ALoop _ => Some (co_addr (y_coord y))
  end.
(** What is in flight when the step begins to send: a delivered message is gone. *)
Definition remaining (y : sys) (a : action) : list msg :=
  match a with
  | ADeliver i _ _ _ => firstn i (y_msgs y) ++ skipn (Datatypes.S i) (y_msgs y)
  | _ => y_msgs y
  end.
Definition with_msgs (y : sys) (M : list msg) : sys := Sys (y_coord y) (y_servers y) (y_clients y) M (y_log y).

(** Some of the messages of a step, each at most once. *)
Definition some_of (keep : list bool) (out : list msg) : list msg := map snd (filter fst (combine keep out)).

(** What happens: a step is done, completely or ([Some keep]) with the process ending
    after it has sent the messages in [keep]; or a process ends between two steps. *)
Inductive deed := Do (a : action) (cut : option (list bool)) | Die (b : addr).

(** Util.go:61-71 SendEvent dials for every message and CheckErr (81-86) panics when nobody
    listens, so a step that sends to an ended process cannot be completed: its process
    ends while sending ([cut]).  A message that an ended process has not handled is lost.
    A handler that panics is [Die] of its process followed by the loss of the message.
    Simplifications: the order in which the messages of one step are sent is not modelled,
    so any of them may be out when the process ends; a process that has ended is not
    started again at the same address (for that see Restart.v and Prop_Reboot.v); what an ended
    process held in memory is kept in the state but never used again. *)
Definition w_step (S : suite) (H : oracle) (G : gob) (w : world) (d : deed) : option world :=
  let y := w_sys w in
  match d with
  | Die b => Some (World y (b :: w_dead w))
  | Do a cut =>
      olet x := acting y a in
      if is_down (w_dead w) x then
        match a with ADeliver _ _ _ _ => Some (World (with_msgs y (remaining y a)) (w_dead w)) | _ => None end
      else
        olet y' := sys_step S H G y a in
        let out := skipn (length (remaining y a)) (y_msgs y') in
        match cut with
        | None => if sent_all (w_dead w) out then Some (World y' (w_dead w)) else None
        | Some keep =>
            if sent_all (w_dead w) (some_of keep out)
            then Some (World (with_msgs y (remaining y a ++ some_of keep out)) (x :: w_dead w))
            else None
        end
  end.
Fixpoint w_run (S : suite) (H : oracle) (G : gob) (w : world) (l : list deed) : option world :=
  match l with
  | [] => Some w
  | d :: r => olet w' := w_step S H G w d in w_run S H G w' r
  end.

(** ** Lemmas *)
Lemma some_of_in keep out m : In m (some_of keep out) -> In m out.
Proof.
  unfold some_of. rewrite in_map_iff. intros ([b z] & <- & I). apply filter_In in I. destruct I as [I _]. now apply in_combine_r in I.
Qed.

(** A step adds its messages at the end. *)
Lemma step_msgs S H G y a y' : sys_step S H G y a = Some y' ->
  exists out, y_msgs y' = remaining y a ++ out.
Proof.
  intros E. destruct a as [x pv rk|x pv s|i cr sr chal|e|x cmd]; cbn [sys_step remaining] in *; odestruct E; injection E as <-; cbn [y_msgs];
    try (eexists; reflexivity); exists []; now rewrite app_nil_r.
Qed.
Lemma remaining_in y a m : In m (remaining y a) -> In m (y_msgs y).
Proof. destruct a; cbn [remaining]; auto. apply rest_in. Qed.
Lemma skip_out {A} (l out : list A) : skipn (length l) (l ++ out) = out.
Proof. now rewrite skipn_app, skipn_all, Nat.sub_diag. Qed.

(** ** A dead server *)
(** The same system with the record of the ended server [d] replaced by one that points to
    itself: nobody can see a difference, since [d] does not act any more. *)
Record graved (d : addr) (y z : sys) : Prop := {
  gr_coord : y_coord z = y_coord y;
  gr_clients : y_clients z = y_clients y;
  gr_msgs : y_msgs z = y_msgs y;
  gr_others : forall x, x <> d -> mget (y_servers z) x = mget (y_servers y) x;
  gr_self : exists t, mget (y_servers z) d = Some t /\ sv_next t = d /\ sv_prev t = d;
  gr_was : mget (y_servers y) d <> None
}.
Lemma graved_msgs d y z M : graved d y z -> graved d (with_msgs y M) (with_msgs z M).
Proof. intros [A1 A2 A3 A4 A5 A6]. now constructor. Qed.
Lemma graved_step S H G d y z a y' : graved d y z -> acting y a <> Some d -> sys_step S H G y a = Some y' ->
  exists z', sys_step S H G z a = Some z' /\ graved d y' z'.
Proof.
  intros [A1 A2 A3 A4 A5 A6] NA E. assert (SD : forall x, mget (y_servers z) x = None <-> mget (y_servers y) x = None).
  { intros x. destruct (keq x d) as [->|N]; [|now rewrite A4]. destruct A5 as (t & T & _). rewrite T. split; [discriminate|contradiction]. }
  destruct a as [x pv rk|x pv s|i cr sr chal|e|x cmd]; cbn [sys_step acting] in *; rewrite ?A1, ?A2, ?A3.
  - destruct (keq x (co_addr (y_coord y))); [discriminate|]. destruct (mget (y_servers y) x) eqn:Ex; [discriminate|].
    rewrite (proj2 (SD x) Ex). destruct (mget (y_clients y) x); [discriminate|]. injection E as <-. eexists. split; [reflexivity|].
    assert (x <> d) by congruence. constructor; cbn [y_coord y_clients y_msgs y_servers]; try reflexivity.
    + intros b Nb. rewrite !mget_mset. destruct (keq b x); auto.
    + rewrite mget_mset_ne by assumption. exact A5.
    + now rewrite mget_mset_ne by assumption.
  - destruct (keq x (co_addr (y_coord y))); [discriminate|]. destruct (mget (y_servers y) x) eqn:Ex; [discriminate|].
    rewrite (proj2 (SD x) Ex). destruct (mget (y_clients y) x); [discriminate|]. injection E as <-. eexists. split; [reflexivity|]. now constructor.
  - destruct (nth_error (y_msgs y) i) as [m|]; [|discriminate]. cbn [option_map] in NA.
    destruct (keq (mDst m) (co_addr (y_coord y))).
    { destruct (co_handle _ _ _ _ _ _ _) as [[c' out]|]; [|discriminate]. injection E as <-. eexists. split; [reflexivity|]. now constructor. }
    assert (ND : mDst m <> d) by congruence. rewrite A4 by assumption. destruct (mget (y_servers y) (mDst m)) as [s|] eqn:Es.
    + destruct (sv_handle _ _ _ _ _ _ _ _) as [[s' out]|]; [|discriminate]. injection E as <-. eexists. split; [reflexivity|].
      constructor; cbn [y_coord y_clients y_msgs y_servers]; try reflexivity.
      * intros b Nb. rewrite !mget_mset. destruct (keq b (mDst m)); auto.
      * rewrite mget_mset_ne by assumption. exact A5.
      * now rewrite mget_mset_ne by assumption.
    + destruct (mget (y_clients y) (mDst m)) as [c|]; [|discriminate]. destruct (cl_handle _ _ _ _ _ _) as [[c' out]|]; [|discriminate].
      injection E as <-. eexists. split; [reflexivity|]. now constructor.
  - destruct (is_loop e); [|discriminate]. destruct (co_step _ _ _ _) as [[c' out]|]; [|discriminate]. injection E as <-. eexists. split; [reflexivity|]. now constructor.
  - destruct (mget (y_clients y) x) as [c|]; [|discriminate]. destruct (cl_command _ _ _ _) as [out|]; [|discriminate]. injection E as <-. eexists. split; [reflexivity|]. now constructor.
Qed.

(** Fewer messages do not disturb a flow. *)
Lemma flow_fewer back Q R y M : flow back Q R y -> (forall m, In m M -> (along back (mType m) = true -> Q (mDst m) \/ R (mDst m)) /\ ~ linking (mType m)) ->
  flow back Q R (with_msgs y M).
Proof. intros [F1 F2 F3 F4 F5 F6] X. constructor; try assumption; intros m I; now apply X. Qed.

(** ** Announcements that do not return *)
(** No message that opens a round at a client or confirms a registration. *)
Definition none_opened (y : sys) : Prop := forall m, In m (y_msgs y) ->
  mType m <> ANNOUNCEMENT_FINALIZE /\ mType m <> CLIENT_REGISTER_CONFIRMATION.
Lemma forth_step S H G Q y a y' : ordinary a -> flow false Q (fun _ => False) y -> none_opened y -> sys_step S H G y a = Some y' ->
  co_G (y_coord y') = co_G (y_coord y) /\ none_opened y'.
Proof.
  intros O [F1 F2 F3 F4 F5 F6] NO E. destruct a as [x pv rk|x pv s|i cr sr chal|e|x cmd]; [destruct O| | | |]; cbn [sys_step] in E.
  - destruct (keq x (co_addr (y_coord y))); [discriminate|].
    destruct (mget (y_servers y) x); [discriminate|]. destruct (mget (y_clients y) x); [discriminate|].
    injection E as <-. split; [reflexivity|]. intros m I. cbn [y_msgs] in I. apply in_app_iff in I. destruct I as [I|[<-|[]]]; [now apply NO|]. split; discriminate.
  - destruct (nth_error (y_msgs y) i) as [m|] eqn:Em; [|discriminate]. pose proof (nth_error_In _ _ Em) as Im.
    destruct (keq (mDst m) (co_addr (y_coord y))) as [D|D].
    + destruct (co_handle S G (y_coord y) (mType m) (mParams m) (mSrc m) cr) as [[c' out]|] eqn:EC; [|discriminate]. injection E as <-.
      assert (N : mType m <> ANNOUNCEMENT /\ mType m <> CLIENT_REGISTER_SERVERSIDE).
      { split; intros X; (destruct (F5 m Im) as [U|[]]; [now rewrite X|]); rewrite D in U; contradiction. }
      destruct (co_step_frame S G (y_coord y) (EMsg (mType m) (mParams m) (mSrc m) cr) c' out EC) as [FW FE]. cbn [writes_ev emits_ev] in FW, FE.
      split.
      * specialize (FW FG). cbn [agree] in FW. cbn [y_coord]. apply FW. unfold writes.
        repeat match goal with |- ~ In _ (if ?u =? ?v then _ else _) => destruct (Z.eqb_spec u v); [first [tauto|cbn; intuition discriminate]|] end.
        cbn; tauto.
      * intros z I. cbn [y_msgs] in I. apply in_app_iff in I. destruct I as [I|I]; [apply NO; now apply rest_in in I|].
        specialize (FE z I). unfold emits in FE.
        repeat match type of FE with In _ (if ?u =? ?v then _ else _) => destruct (Z.eqb_spec u v); [first [tauto|cbn in FE; destruct FE as [<-|FE]; [split; discriminate|]; try destruct FE as [<-|FE]; try (split; discriminate); destruct FE]|] end.
        destruct FE.
    + destruct (mget (y_servers y) (mDst m)) as [s|] eqn:Es.
      * destruct (sv_handle S H G s (mType m) (mParams m) (mSrc m) sr) as [[s' out]|] eqn:EC; [|discriminate].
        injection E as <-. destruct (sv_links S H G s _ _ _ _ s' out EC) as (_ & _ & _ & _ & A5). split; [reflexivity|].
        intros z I. cbn [y_msgs] in I. apply in_app_iff in I. destruct I as [I|I]; [apply NO; now apply rest_in in I|].
        destruct (A5 z I) as [(U1 & _)|[(U1 & _)|[(U1 & _)|[(U1 & _)|(U1 & _)]]]]; rewrite U1; split; discriminate.
      * destruct (mget (y_clients y) (mDst m)) as [c|]; [|discriminate].
        destruct (cl_handle S G c (mType m) (mParams m) chal) as [[c' out]|] eqn:EC; [|discriminate].
        injection E as <-. destruct (cl_sends S G c _ _ _ c' out EC) as [_ A]. split; [reflexivity|].
        intros z I. cbn [y_msgs] in I. apply in_app_iff in I. destruct I as [I|I]; [apply NO; now apply rest_in in I|]. rewrite (A z I). split; discriminate.
  - destruct (is_loop e) eqn:IL; [|discriminate].
    destruct (co_step S G (y_coord y) e) as [[c' out]|] eqn:EC; [|discriminate]. injection E as <-.
    destruct (co_step_frame S G (y_coord y) e c' out EC) as [FW FE]. destruct e as [ty p src rn| |fakes ord| |ord rs]; [discriminate|destruct O| | |];
      cbn [writes_ev emits_ev] in FW, FE; (split; [apply (FW FG); cbn; intuition discriminate|]);
      intros z I; cbn [y_msgs] in I; apply in_app_iff in I; (destruct I as [I|I]; [now apply NO|]); specialize (FE z I); cbn in FE; intuition (match goal with U : _ = mType z |- _ => rewrite <- U in * end; discriminate).
  - destruct (mget (y_clients y) x) as [c|]; [|discriminate].
    destruct (cl_command S G c cmd) as [out|] eqn:EC; [|discriminate]. injection E as <-. split; [reflexivity|].
    pose proof (cmd_sends S G c cmd out EC) as A. intros z I. cbn [y_msgs] in I. apply in_app_iff in I. destruct I as [I|I]; [now apply NO|].
    destruct (A z I) as [U|[U|U]]; rewrite U; split; discriminate.
Qed.
