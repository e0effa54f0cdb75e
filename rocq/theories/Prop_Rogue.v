(** C117: keys that others register do not help to find a client's pseudonym. *)
From Coq Require Import ZArith Znumtheory Lia List Bool Permutation Arith.
From Coq Require Import Strings.Byte.
From Coq Require String.
From Verif Require Import ZMod Bytes Suite Spec Pedersen ElGamal FujiOkam Equality Codec Maps Net Bridge Client
  Perm SimpleShuffle PairShuffle Server Coordinator History Chain Prop_Assign Prop_Codec Prop_Shuffle Prop_Chain Prop_Blind.
Import ListNotations.
Import String.StringSyntax.
Open Scope Z_scope.
Delimit Scope string_scope with str.

(** ** Specification *)
(** A table with these keys goes through a chain of servers, whatever they draw, and leaves it
    with the keys [out]: the pseudonyms of the round.  The pseudonym that belongs to the key [x]
    is [raised S l x] (Prop_Blind.v). *)
Definition round_keys (S : suite) (H : oracle) (l : list (server * sv_rand)) (keys out : list Z) : Prop :=
  exists vals GT HT g p p', Forall (fun sr => server_ok S (fst sr)) l /\ carries S p keys vals GT HT /\ carries_g S p g /\ in_group S g /\
    table_ok S keys vals GT HT /\ (2 <= length keys)%nat /\ passes S H l p p' /\ get_bytes p' "keys"%str = Some (enc_points S out) /\
    Forall (in_group S) out.
(** Besides [x], somebody has registered the power x^a; no other two keys are related like that. *)
Definition rogue (S : suite) (a : Z) (keys : list Z) (x : Z) : Prop :=
  In x keys /\ In (pt_mul S x a) keys /\ forall y, In y keys -> In (pt_mul S y a) keys -> y = x.
(** An observer gets the pseudonyms of a round and names one.  It is not always that of [x]. *)
Definition hidden (S : suite) (H : oracle) (a : Z) : Prop := forall f : list Z -> option Z,
  exists l keys out x, round_keys S H l keys out /\ rogue S a keys x /\ f out <> Some (raised S l x).

Section Rogue.
Context (S : suite) (OK : suite_ok S) (H : oracle).

(** ** Raising keys *)
Lemma raised_group l : forall x, in_group S x -> in_group S (raised S l x).
Proof.
  induction l as [|sr l IH]; intros x Hx; [exact Hx|]. change (raised S (sr :: l) x) with (raised S l (pt_mul S x (sv_roundkey (fst sr)))).
  apply IH. unfold pt_mul. in_grp.
Qed.
Lemma raised_pow l a : forall x, in_group S x -> raised S l (pt_mul S x a) = pt_mul S (raised S l x) a.
Proof.
  induction l as [|sr l IH]; intros x Hx; [reflexivity|].
  change (raised S l (pt_mul S (pt_mul S x a) (sv_roundkey (fst sr))) = pt_mul S (raised S l (pt_mul S x (sv_roundkey (fst sr)))) a).
  rewrite <- IH by (unfold pt_mul; in_grp). f_equal. rewrite !(pt_mul_mul S OK) by assumption. f_equal. ring.
Qed.
Lemma raised_inj l : Forall (fun sr => server_ok S (fst sr)) l -> forall x y, in_group S x -> in_group S y -> raised S l x = raised S l y -> x = y.
Proof.
  induction 1 as [|sr l SO F IH]; intros x y Hx Hy E; [exact E|].
  change (raised S l (pt_mul S x (sv_roundkey (fst sr))) = raised S l (pt_mul S y (sv_roundkey (fst sr)))) in E.
  apply IH in E; [|unfold pt_mul; in_grp|unfold pt_mul; in_grp]. apply (pt_mul_inj S OK) in E; [exact E|assumption|assumption|apply SO].
Qed.
Lemma round_in l keys out : round_keys S H l keys out -> forall z, In z out <-> exists y, In y keys /\ z = raised S l y.
Proof.
  intros (vals & GT & HT & g & p & p' & F & C & Cg & Hg & T & K & P & E & GO) z.
  rewrite (C116_order S H OK l p p' P keys vals GT HT g F C Cg Hg T K) in E. injection E as E.
  assert (X : dec_points S (enc_points S out) = dec_points S (enc_points S (map (fun i => raised S l (at_ keys i)) (order (length keys) (streams l))))) by now rewrite E.
  assert (GK : forall y, In y keys -> in_group S y) by (apply Forall_forall; apply T).
  rewrite !(dec_enc_points S OK) in X; [|apply Forall_forall; intros w I|exact GO].
  - injection X as ->. rewrite in_map_iff. split.
    + intros (i & <- & I). exists (at_ keys i). split; [|reflexivity]. apply (Permutation_in _ (order_perm _ _)), in_seq in I. apply nth_In. lia.
    + intros (y & I & ->). destruct (In_nth _ _ 0 I) as (i & Hi & <-). exists i. split; [reflexivity|].
      apply (Permutation_in _ (Permutation_sym (order_perm _ _))), in_seq. lia.
  - apply in_map_iff in I. destruct I as (i & <- & I). apply (Permutation_in _ (order_perm _ _)), in_seq in I. apply raised_group, GK, nth_In. lia.
Qed.

(** ** Theorems *)
Lemma relations l keys out a x y : round_keys S H l keys out -> In x keys -> In y keys ->
  (pt_mul S x a = y <-> pt_mul S (raised S l x) a = raised S l y).
Proof.
  intros R Ix Iy. destruct R as (vals & GT & HT & g & p & p' & F & C & Cg & Hg & T & K & P & E & GO).
  assert (GK : forall y, In y keys -> in_group S y) by (apply Forall_forall; apply T). pose proof (GK _ Ix) as Gx. pose proof (GK _ Iy) as Gy.
  rewrite <- raised_pow by assumption. split; [now intros ->|]. apply (raised_inj l F); [unfold pt_mul; in_grp|assumption].
Qed.
(** The outgoing keys are the pseudonyms of the table's keys, and a power relation between two
    keys holds between their pseudonyms, and between no others. *)
Theorem C117_relations_kept : forall l keys out, round_keys S H l keys out -> exists nym : Z -> Z,
  (forall z, In z out <-> exists x, In x keys /\ z = nym x) /\ (forall x, nym x = raised S l x) /\
  forall a x y, In x keys -> In y keys -> (pt_mul S x a = y <-> pt_mul S (nym x) a = nym y).
Proof.
  intros l keys out R. exists (raised S l). split; [now apply round_in|]. split; [reflexivity|].
  intros a x y. now apply (relations l keys out).
Qed.
(** So the pseudonym of [x] is the one whose a-th power is a pseudonym, too. *)
Theorem C117_traced : forall l keys out a x, round_keys S H l keys out -> rogue S a keys x ->
  forall z, (In z out /\ In (pt_mul S z a) out) <-> z = raised S l x.
Proof.
  intros l keys out a x R (Ix & Ia & U) z. pose proof (round_in l keys out R) as RI.
  assert (GK : forall y, In y keys -> in_group S y).
  { destruct R as (vals & GT & HT & g & p & p' & F & C & Cg & Hg & T & _). apply Forall_forall; apply T. }
  rewrite !RI. split.
  - intros ((y & Iy & ->) & (w & Iw & E)). f_equal. apply U; [exact Iy|].
    apply (relations l keys out a y w R Iy Iw) in E. now rewrite E.
  - intros ->. split; [now exists x|]. exists (pt_mul S x a). split; [exact Ia|]. symmetry. apply raised_pow. now apply GK.
Qed.
(** Whoever gets the pseudonyms of the round, every client of it among others, finds it. *)
Theorem C117_hidden_refuted : forall a, ~ hidden S H a.
Proof.
  intros a X. destruct (X (fun out => find (fun z => existsb (Z.eqb (pt_mul S z a)) out) out)) as (l & keys & out & x & R & U & N).
  apply N. pose proof (C117_traced l keys out a x R U) as TR.
  assert (M : forall z, existsb (Z.eqb (pt_mul S z a)) out = true <-> In (pt_mul S z a) out).
  { intros z. rewrite existsb_exists. split; [intros (w & I & E); apply Z.eqb_eq in E; now rewrite E|intros I; exists (pt_mul S z a); split; [exact I|apply Z.eqb_refl]]. }
  destruct (find _ out) as [z|] eqn:E.
  - apply find_some in E. destruct E as [I E]. apply M in E. f_equal. now apply TR.
  - exfalso. destruct (proj2 (TR _) eq_refl) as [I1 I2]. apply M in I2. pose proof (find_none _ _ E _ I1) as Y. cbv beta in Y. congruence.
Qed.
(** Registering takes nothing but the bytes of a key: who registers need not know its logarithm,
    and every key is entered as it came. *)
Theorem C117_any_key_taken : forall c src rn y y', in_group S y -> in_group S y' ->
  let reg k := co_client_register S c [("public_key"%str, VBytes (enc_point S k))] src rn in
  (reg y <> None -> reg y' <> None) /\ forall c' out, reg y = Some (c', out) -> mget (co_clients c') y = Some src.
Proof.
  intros c src rn y y' Hy Hy' reg. unfold reg, co_client_register.
  change (get_bytes [("public_key"%str, VBytes (enc_point S y))] "public_key"%str) with (Some (enc_point S y)).
  change (get_bytes [("public_key"%str, VBytes (enc_point S y'))] "public_key"%str) with (Some (enc_point S y')). cbv beta iota.
  destruct (ped_commit S (co_pb c) (sec_of_int S starting_credit) (crR rn)) as [pc r]. unfold send.
  destruct (first_server c); [|split; [congruence|discriminate]]. destruct (co_G c); [|split; [congruence|discriminate]].
  split; [discriminate|]. intros c' out E. injection E as <- _. rewrite (dec_enc_unchecked S) by assumption. cbn [set_clients co_clients]. unfold add_client.
  rewrite mget_mset. destruct (keq y y); [reflexivity|congruence].
Qed.
End Rogue.

(** ** Instances *)
(** Of the keys 2, 3, 8 the last is the third power of the first; two servers shuffle and raise
    them, and the pseudonym of 2 is found. *)
Example C117_instance : exists out, round_keys toy_suite toy_oracle blL [2; 3; 8] out /\ rogue toy_suite 3 [2; 3; 8] 2 /\
  In (raised toy_suite blL 2) out /\ raised toy_suite blL 2 <> 2 /\ length out = 3%nat /\ ~ hidden toy_suite toy_oracle 3.
Proof.
  destruct C116_instance as (p' & P & F & C & Cg & Hg & T & _ & _ & EK).
  exists (map (fun i => raised toy_suite blL (at_ [2; 3; 8] i)) (order 3 (streams blL))).
  assert (R : round_keys toy_suite toy_oracle blL [2; 3; 8] (map (fun i => raised toy_suite blL (at_ [2; 3; 8] i)) (order 3 (streams blL)))).
  { exists [9; 12; 13], 4, 8, 4, blP, p'. split; [exact F|]. split; [exact C|]. split; [exact Cg|]. split; [exact Hg|]. split; [exact T|].
    split; [cbn; lia|]. split; [exact P|]. split; [exact EK|].
    apply Forall_forall. intros w I. apply in_map_iff in I. destruct I as (i & <- & I). apply (raised_group toy_suite toy_ok).
    apply (Permutation_in _ (order_perm _ _)), in_seq in I. apply (proj1 (Forall_forall _ _) (t_keys _ _ _ _ _ T)), nth_In. cbn [length]. lia. }
  clear P EK.
  split; [exact R|].
  assert (U : rogue toy_suite 3 [2; 3; 8] 2).
  { split; [now left|]. split; [right; right; left; vm_compute; reflexivity|]. intros y I J. destruct I as [<-|[<-|[<-|[]]]]; [reflexivity| |]; exfalso; vm_compute in J; intuition discriminate. }
  split; [exact U|]. split; [apply (C117_traced toy_suite toy_ok toy_oracle blL _ _ 3 2 R U (raised toy_suite blL 2)); reflexivity|].
  split; [vm_compute; discriminate|]. split; [vm_compute; reflexivity|]. apply C117_hidden_refuted. exact toy_ok.
Qed.

(** Somebody registers the third power of 2 in a session that is set up. *)
Example C117_instance_register : exists t c c' out, exec toy_suite toy_gob toy_c0 toy_setup = Some (t, c) /\
  co_client_register toy_suite c [("public_key"%str, VBytes (enc_point toy_suite (pt_mul toy_suite 2 3)))] adA toy_rand = Some (c', out) /\
  mget (co_clients c') (pt_mul toy_suite 2 3) = Some adA.
Proof.
  do 4 eexists. split; [vm_compute; reflexivity|]. split; [vm_compute; reflexivity|]. vm_compute. reflexivity.
Qed.

Print Assumptions C117_relations_kept.
Print Assumptions C117_traced.
Print Assumptions C117_hidden_refuted.
Print Assumptions C117_any_key_taken.
