(** More about C05 (the servers' copy of the commitment base after the configuration),
    C06 and C10 (what the two random generators can yield) and C60 (message numbers). *)
From Coq Require Import ZArith Znumtheory Lia List Bool.
From Coq Require Import Strings.Byte.
From Coq Require String.
From Verif Require Import ZMod Bytes Suite Spec Pedersen FujiOkam Codec Maps Net Bridge Client Perm SimpleShuffle PairShuffle
  Server Coordinator History System Prop_FujiOkam Prop_Codec Prop_Bridge Prop_Shuffle Prop_Assign Prop_Topology.
Import ListNotations.
Import String.StringSyntax.
Open Scope Z_scope.
Delimit Scope string_scope with str.

(** ** C05: after the configuration all servers hold the coordinator's base *)
Section Config.
Context (S : suite) (OK : suite_ok S) (H : oracle) (G : gob).

(** Until the first round nobody changes GT. *)
Definition same_gt (y : sys) : Prop :=
  pb_GT (co_pb (y_coord y)) = pt_mul_base S 1 /\
  forall a s, mget (y_servers y) a = Some s -> pb_GT (sv_pb s) = pt_mul_base S 1.

Lemma gt_set sv a s' : (forall b s, mget sv b = Some s -> pb_GT (sv_pb s) = pt_mul_base S 1) ->
  pb_GT (sv_pb s') = pt_mul_base S 1 ->
  forall b s, mget (mset sv a s') b = Some s -> pb_GT (sv_pb s) = pt_mul_base S 1.
Proof. intros X Y b s. rewrite mget_mset. destruct (keq b a); [now intros [= <-]|apply X]. Qed.

Lemma conf_gt st y a y' : cinv S st y -> same_gt y -> is_conf a -> sys_step S H G y a = Some y' -> same_gt y'.
Proof.
  intros I [X Y] C E. destruct a as [b p r|?|i cr sr ch|?|?]; try destruct C; cbn [sys_step] in E.
  - destruct (keq b (co_addr (y_coord y))); [discriminate|].
    destruct (mget (y_servers y) b); [discriminate|]. destruct (mget (y_clients y) b); [discriminate|].
    injection E as <-. split; [exact X|]. cbn [y_servers]. apply gt_set; [exact Y|reflexivity].
  - destruct (nth_error (y_msgs y) i) as [m|] eqn:Em; [|discriminate].
    pose proof (i_msgs _ _ _ I) as F. rewrite Forall_forall in F. specialize (F m (nth_error_In _ _ Em)).
    assert (SV : forall s s' out ty p src, mget (y_servers y) (mDst m) = Some s -> In ty [SERVER_REGISTER_REPLY; UPDATE_NEXT_HOP] ->
      sv_handle S H G s ty p src sr = Some (s', out) -> pb_GT (sv_pb s') = pt_mul_base S 1).
    { intros s s' out ty p src Hs [<-|[<-|[]]] EH.
      - change (sv_register_reply S s p src (srKey sr) = Some (s', out)) in EH. unfold sv_register_reply in EH.
        assert (Z1 : sv_pb s' = sv_pb s) by (odestruct EH; now injection EH as <- _). rewrite Z1. exact (Y _ _ Hs).
      - change (sv_update_next s p = Some (s', out)) in EH. unfold sv_update_next in EH.
        assert (Z1 : sv_pb s' = sv_pb s) by (odestruct EH; now injection EH as <- _). rewrite Z1. exact (Y _ _ Hs). }
    destruct (keq (mDst m) (co_addr (y_coord y))) as [ED|ND].
    + assert (CO : forall c' out, co_handle S G (y_coord y) (mType m) (mParams m) (mSrc m) cr = Some (c', out) -> pb_GT (co_pb c') = pt_mul_base S 1).
      { intros c' out EH. destruct F as [a b s Hs|j a h Hj Hh|j a b Hj Hj'|a h Hh].
        - rewrite reg_step in EH. injection EH as <- _. exact X.
        - exfalso. cbn [reply_msg mDst] in ED. subst a. destruct (i_in _ _ _ I _ (nth_error_In _ _ Hj)) as (s & Hs).
          pose proof (i_self _ _ _ I) as Z1. pose proof (i_static _ _ _ I) as Z2. unfold co_addr in Hs. rewrite Z2 in Hs. congruence.
        - exfalso. cbn [hop_msg mDst] in ED. subst a. destruct (i_in _ _ _ I _ (nth_error_In _ _ Hj)) as (s & Hs).
          pose proof (i_self _ _ _ I) as Z1. pose proof (i_static _ _ _ I) as Z2. unfold co_addr in Hs. rewrite Z2 in Hs. congruence.
        - cbn [ped_msg mType mSrc] in EH. rewrite (ped_step S OK G _ a h cr Hh) in EH. injection EH as <- _. exact X. }
      destruct (co_handle S G (y_coord y) (mType m) (mParams m) (mSrc m) cr) as [[c' out]|] eqn:EH; [|discriminate].
      injection E as <-. split; [exact (CO _ _ eq_refl)|exact Y].
    + destruct (mget (y_servers y) (mDst m)) as [s|] eqn:Hs.
      * destruct (sv_handle S H G s (mType m) (mParams m) (mSrc m) sr) as [[s' out]|] eqn:EH; [|discriminate]. injection E as <-.
        split; [exact X|]. cbn [y_servers]. apply gt_set; [exact Y|].
        destruct F as [a b t Ht|j a h Hj Hh|j a b Hj Hj'|a h Hh]; cbn [reg_msg reply_msg hop_msg ped_msg mDst mType mParams] in *.
        -- now elim ND.
        -- eapply SV; [reflexivity| |exact EH]. now left.
        -- eapply SV; [reflexivity| |exact EH]. right; now left.
        -- now elim ND.
      * exfalso. destruct F as [a b t Ht|j a h Hj Hh|j a b Hj Hj'|a h Hh]; cbn [reg_msg reply_msg hop_msg ped_msg mDst] in *;
          try (now elim ND); destruct (i_in _ _ _ I _ (nth_error_In _ _ Hj)) as (s & Hs'); congruence.
Qed.

Lemma conf_run_gt self a fb trap gammas l y : Forall is_conf l ->
  sys_run S H G (init_sys S self a fb trap gammas) l = Some y -> same_gt y.
Proof.
  intros F E. set (st := co_static (y_coord (init_sys S self a fb trap gammas))).
  assert (P : forall l y0 y, Forall is_conf l -> cinv S st y0 -> same_gt y0 -> sys_run S H G y0 l = Some y -> same_gt y).
  { clear E F l y. induction l as [|x l IH]; intros y0 y F I X E; cbn [sys_run] in E; [now injection E as <-|].
    inversion F as [|? ? Fx Fl]; subst. destruct (sys_step S H G y0 x) as [y1|] eqn:E1; [|discriminate].
    apply (IH y1 y Fl); [| |assumption].
    - destruct x as [b p r|?|i cr sr ch|?|?]; try destruct Fx.
      + eapply launch_inv; eauto.
      + destruct (nth_error (y_msgs y0) i) as [m|] eqn:Em; [|cbn [sys_step] in E1; rewrite Em in E1; discriminate].
        destruct (deliver_ok S OK H G st y0 i m cr sr ch I Em) as (y2 & E2 & I2). congruence.
    - eapply conf_gt; eauto. }
  eapply P; [exact F|now apply init_cinv| |exact E].
  split; [|intros b s X; discriminate]. unfold init_sys, init_coord. cbn [y_coord]. now destruct (gn_generate_all fb gammas).
Qed.

(** The broadcast is under way: it carries the coordinator's h, and whoever it is not
    under way to holds the coordinator's base. *)
Record spread (pb : pbase) (y : sys) : Prop := {
  sp_pb : co_pb (y_coord y) = pb;
  sp_msgs : Forall (fun m => In (mDst m) (chain_addrs y) /\ mType m = BCAST_PEDERSEN_H /\
     mParams m = [("h"%str, VBytes (enc_point S (pb_HT pb)))]) (y_msgs y);
  sp_in : forall a, In a (chain_addrs y) -> a <> co_addr (y_coord y) /\ exists s, mget (y_servers y) a = Some s /\
     pb_GT (sv_pb s) = pb_GT pb /\ (sv_pb s = pb \/ exists m, In m (y_msgs y) /\ mDst m = a)
}.

Lemma spread_step pb y i cr sr ch y' : in_group S (pb_HT pb) -> spread pb y ->
  sys_step S H G y (ADeliver i cr sr ch) = Some y' -> spread pb y' /\ chain_addrs y' = chain_addrs y.
Proof.
  intros GH [A1 A2 A3] E. cbn [sys_step] in E. destruct (nth_error (y_msgs y) i) as [m|] eqn:Em; [|discriminate].
  destruct (pick_split i _ m Em) as (l1 & l2 & EM & ER). rewrite ER in E. rewrite EM in A2. apply Forall_app in A2. destruct A2 as [F1 F2].
  inversion F2 as [|? ? (D & T & P) F2']; subst. destruct (A3 _ D) as (N & s & Hs & Hg & _).
  destruct (keq (mDst m) (co_addr (y_coord y))) as [|_]; [contradiction|]. rewrite Hs, T, P in E.
  change (sv_handle S H G s BCAST_PEDERSEN_H ?p ?src sr) with (sv_pedersen_h S s p) in E.
  unfold sv_pedersen_h, get_bytes in E. cbn [lookup String.eqb Ascii.eqb Bool.eqb] in E. rewrite (dec_enc_point S OK _ GH) in E.
  injection E as <-. split; [|reflexivity]. constructor; cbn [y_coord y_msgs y_servers].
  - reflexivity.
  - rewrite app_nil_r. apply Forall_app. split; assumption.
  - intros a Ia. destruct (A3 a Ia) as (Na & s1 & Hs1 & Hg1 & Q). split; [exact Na|]. rewrite mget_mset. destruct (keq a (mDst m)) as [->|Nm].
    + eexists. split; [reflexivity|]. cbn [sv_pb pb_GT]. split; [exact Hg|]. left. rewrite Hg. now destruct (co_pb (y_coord y)).
    + exists s1. split; [exact Hs1|]. split; [exact Hg1|]. destruct Q as [Q|(m' & I1 & I2)]; [now left|]. right. exists m'. split; [|exact I2].
      rewrite EM in I1. rewrite app_nil_r. apply in_app_iff in I1. apply in_app_iff. destruct I1 as [I1|[<-|I1]]; [now left|congruence|now right].
Qed.

(** Servers start and register in any order, the coordinator is configured when nothing is
    on its way, and the broadcast is delivered in any order: then every registered server
    holds the base of the coordinator. *)
Theorem C05_servers_hold_base : forall self a fb trap gammas l y1 y2 l2 y3,
  Forall is_conf l -> sys_run S H G (init_sys S self a fb trap gammas) l = Some y1 -> y_msgs y1 = [] ->
  sys_step S H G y1 (ALoop EConfigure) = Some y2 ->
  Forall (fun x => match x with ADeliver _ _ _ _ => True | _ => False end) l2 -> sys_run S H G y2 l2 = Some y3 -> y_msgs y3 = [] ->
  co_pb (y_coord y3) = co_pb (y_coord y1) /\ chain_addrs y3 = chain_addrs y1 /\
  forall x, In x (chain_addrs y3) -> exists s, mget (y_servers y3) x = Some s /\ sv_pb s = co_pb (y_coord y3).
Proof.
  intros self a fb trap gammas l y1 y2 l2 y3 F1 E1 M1 E2 F3 E3 M3.
  destruct (conf_run_inv S OK H G self a fb trap gammas l y1 F1 E1) as [I1 I2 I3 _ I5 _ _].
  destruct (conf_run_gt self a fb trap gammas l y1 F1 E1) as [X Y].
  cbn [sys_step is_loop co_step co_configure] in E2. injection E2 as E2.
  assert (CH : chain_addrs y2 = chain_addrs y1) by (rewrite <- E2; reflexivity).
  assert (SP : spread (co_pb (y_coord y1)) y2).
  { rewrite <- E2. constructor; cbn [y_coord y_msgs y_servers].
    - reflexivity.
    - rewrite M1. cbn [app]. unfold to_servers. apply Forall_forall. intros m Im. apply in_map_iff in Im. destruct Im as (kv & <- & Ik).
      split; [|split; reflexivity]. cbn [mDst]. apply in_map_iff. exists kv. auto.
    - intros b Ib. change (In b (chain_addrs y1)) in Ib. destruct (I3 b Ib) as (s & Hs).
      split. { intros Eb. rewrite Eb in Hs. unfold co_addr in Hs. cbn in Hs. rewrite I1 in Hs. congruence. }
      exists s. split; [exact Hs|]. rewrite (Y _ _ Hs), X. split; [reflexivity|]. right.
      apply in_map_iff in Ib. destruct Ib as (kv & <- & Ik).
      exists (Msg (fst kv) BCAST_PEDERSEN_H [("h"%str, VBytes (enc_point S (pb_HT (co_pb (y_coord y1)))))] (co_addr (y_coord y1))). split; [|reflexivity].
      rewrite M1. cbn [app]. unfold to_servers. apply in_map_iff. exists kv. split; [reflexivity|exact Ik]. }
  assert (P : forall l y, Forall (fun x => match x with ADeliver _ _ _ _ => True | _ => False end) l -> spread (co_pb (y_coord y1)) y ->
    sys_run S H G y l = Some y3 -> spread (co_pb (y_coord y1)) y3 /\ chain_addrs y3 = chain_addrs y).
  { clear - I5 OK. induction l as [|x l IH]; intros y F Q E; cbn [sys_run] in E; [injection E as <-; auto|].
    inversion F as [|? ? Fx Fl]; subst. destruct (sys_step S H G y x) as [y'|] eqn:Ex; [|discriminate]. destruct x as [| |i cr sr ch| |]; try destruct Fx.
    destruct (spread_step _ _ _ _ _ _ _ I5 Q Ex) as [Q' C']. destruct (IH y' Fl Q' E) as [Q3 C3]. split; [exact Q3|congruence]. }
  destruct (P l2 y2 F3 SP E3) as [[A1 A2 A3] C3]. split; [exact A1|]. split; [congruence|].
  intros x Ix. destruct (A3 x Ix) as (_ & s & Hs & _ & [Q|(m & Im & _)]); [exists s; split; [exact Hs|congruence]|]. rewrite M3 in Im. destruct Im.
Qed.
End Config.

(** ** C06 and C10: what is drawn *)
(** Every number of the interval can be drawn, and no other. *)
Theorem C06_secret_exact : forall N s, 0 < N ->
  (- (2 ^ 80 * N) <= s < 2 ^ 80 * N <-> exists u, 0 <= u < fo_diameter N /\ gen_random_secret N u = s).
Proof.
  intros N s HN. unfold fo_diameter, gen_random_secret, fo_radius. set (R := 2 ^ 80 * N). split.
  - intros L. exists (s + R). lia.
  - intros (u & L & <-). lia.
Qed.

(** The sampler returns the first draw that is neither 1 nor divisible by p or q. *)
Definition usable (p q r : Z) : Prop := r <> 1 /\ ~ (p | r) /\ ~ (q | r).
Theorem C10_sampled_exact : forall p q draws r, 0 < p -> 0 < q ->
  (sample_zpq p q draws = Some r <->
   exists pre post, draws = pre ++ r :: post /\ Forall (fun x => ~ usable p q x) pre /\ usable p q r).
Proof.
  intros p q draws r Hp Hq.
  assert (D : forall x, (x =? 1) = true \/ (x mod p =? 0) = true \/ (x mod q =? 0) = true \/
     (usable p q x /\ (x =? 1) = false /\ (x mod p =? 0) = false /\ (x mod q =? 0) = false)).
  { intros x. destruct (Z.eqb_spec x 1) as [|N1]; [now left|]. destruct (Z.eqb_spec (x mod p) 0) as [|N2]; [auto|].
    destruct (Z.eqb_spec (x mod q) 0) as [|N3]; [auto|]. right. right. right. split; [|auto].
    split; [assumption|]. split; intros X; [apply N2|apply N3]; apply Z.mod_divide; try assumption; lia. }
  assert (U : forall x, usable p q x -> (x =? 1) = false /\ (x mod p =? 0) = false /\ (x mod q =? 0) = false).
  { intros x (N1 & N2 & N3). split; [now apply Z.eqb_neq|]. split; apply Z.eqb_neq; intros X; [apply N2|apply N3]; apply Z.mod_divide; try assumption; lia. }
  split.
  - induction draws as [|x l IH]; cbn [sample_zpq]; [discriminate|].
    assert (SK : sample_zpq p q l = Some r -> ~ usable p q x ->
      exists pre post, x :: l = pre ++ r :: post /\ Forall (fun x => ~ usable p q x) pre /\ usable p q r).
    { intros E N. destruct (IH E) as (pre & post & -> & F & V). exists (x :: pre), post. split; [reflexivity|]. split; [now constructor|exact V]. }
    destruct (D x) as [E1|[E1|[E1|(V & E1 & E2 & E3)]]].
    + rewrite E1. intros E. apply SK; [exact E|]. intros V. destruct (U x V). congruence.
    + rewrite E1. intros E. apply SK; [destruct (x =? 1); exact E|]. intros V. destruct (U x V) as (_ & X & _). congruence.
    + rewrite E1. intros E. apply SK; [destruct (x =? 1), (x mod p =? 0); exact E|]. intros V. destruct (U x V) as (_ & _ & X). congruence.
    + rewrite E1, E2, E3. intros [= <-]. exists [], l. split; [reflexivity|]. split; [constructor|exact V].
  - intros (pre & post & -> & F & V). induction F as [|x pre N F IH]; cbn [app sample_zpq].
    + destruct (U r V) as (-> & -> & ->). reflexivity.
    + destruct (D x) as [E1|[E1|[E1|(V' & _)]]]; [| | |contradiction]; rewrite E1.
      * exact IH.
      * destruct (x =? 1); exact IH.
      * destruct (x =? 1), (x mod p =? 0); exact IH.
Qed.
(** For primes such a number is invertible modulo their product. *)
Theorem C10_sampled_invertible : forall p q draws r, prime p -> prime q -> sample_zpq p q draws = Some r -> rel_prime r (p * q).
Proof.
  intros p q draws r Pp Pq E. pose proof (prime_ge_2 p Pp). pose proof (prime_ge_2 q Pq).
  apply C10_sampled_exact in E; [|lia|lia]. destruct E as (_ & _ & _ & _ & _ & N1 & N2).
  apply rel_prime_mult; apply rel_prime_sym, prime_rel_prime; assumption.
Qed.
Example C10_sampled_instance : sample_zpq 7 11 [1; 14; 22; 0; 5; 3] = Some 5. Proof. reflexivity. Qed.

(** ** C60: no two kinds of messages share a number *)
Theorem C60_numbers_distinct : NoDup
  [SERVER_REGISTER; SERVER_REGISTER_REPLY; CLIENT_REGISTER_CONTROLLERSIDE; CLIENT_REGISTER_SERVERSIDE; CLIENT_REGISTER_CONFIRMATION;
   ANNOUNCEMENT; ANNOUNCEMENT_FINALIZE; UPDATE_NEXT_HOP; Net.VOTE; VOTE_REPLY; Net.ROUND_END; BCAST_PEDERSEN_H; UPDATE_PEDERSEN_H;
   BCAST_PEDERSEN_RDIFF; INIT_PEDERSEN_R; GN_HONESTY_CHALLENGE; GN_HONESTY_ANSWER; POST_BRIDGE; REQUEST_BRIDGES; SIGN_ASSIGNMENTS; GOT_SIGNS].
Proof. repeat (apply NoDup_cons; [vm_compute; intuition discriminate|]). apply NoDup_nil. Qed.

(** ** Concrete runs *)
Example C05_hold_instance : exists y1 y2 y3, sys_run toy_suite toy_oracle toy_gob toy_y0 toy_seq = Some y1 /\ y_msgs y1 = [] /\
  sys_step toy_suite toy_oracle toy_gob y1 (ALoop EConfigure) = Some y2 /\
  sys_run toy_suite toy_oracle toy_gob y2 [dl 2 0; dl 0 0; dl 0 0] = Some y3 /\ y_msgs y3 = [] /\ length (chain_addrs y3) = 3%nat.
Proof. do 3 eexists. repeat (split; [vm_compute; reflexivity|]). reflexivity. Qed.

Print Assumptions C05_servers_hold_base.
Print Assumptions C06_secret_exact.
Print Assumptions C10_sampled_exact.
Print Assumptions C10_sampled_invertible.
Print Assumptions C60_numbers_distinct.
