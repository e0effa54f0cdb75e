(** Go maps as association lists.  Points are used as keys through their
    String() form, which is injective, so the key is the residue itself. *)
From Coq Require Import ZArith Lia List Bool Permutation.
From Coq Require Import Strings.Byte.
From Verif Require Import Bytes.
Import ListNotations.
Open Scope Z_scope.

Class EqK (K : Type) := keq : forall x y : K, {x = y} + {x <> y}.
Global Instance EqK_Z : EqK Z := Z.eq_dec.
Global Instance EqK_bytes : EqK bytes := list_eq_dec Byte.byte_eq_dec.

Definition amap (K V : Type) := list (K * V).

Section Maps.
Context {K V : Type} `{EqK K}.

(** m[k] *)
Fixpoint mget (m : amap K V) (k : K) : option V :=
  match m with
  | [] => None
  | (k', v) :: rest => if keq k k' then Some v else mget rest k
  end.
(** m[k] = v *)
Fixpoint mset (m : amap K V) (k : K) (v : V) : amap K V :=
  match m with
  | [] => [(k, v)]
  | (k', v') :: rest => if keq k k' then (k, v) :: rest else (k', v') :: mset rest k v
  end.
(** delete(m, k) *)
Fixpoint mdel (m : amap K V) (k : K) : amap K V :=
  match m with
  | [] => []
  | (k', v') :: rest => if keq k k' then mdel rest k else (k', v') :: mdel rest k
  end.
Definition mkeys (m : amap K V) : list K := map fst m.

(** A map has each key once. *)
Definition mwf (m : amap K V) : Prop := NoDup (mkeys m).

(** The order in which "for k, v := range m" visits the keys is any permutation
    of them. *)
Definition range_order (ord : list K) (m : amap K V) : Prop := Permutation ord (mkeys m).

Lemma mget_mset_eq m k v : mget (mset m k v) k = Some v.
Proof.
  induction m as [|[k' v'] m IH]; cbn; [now destruct (keq k k)|].
  destruct (keq k k') as [->|N]; cbn; [now destruct (keq k' k')|].
  destruct (keq k k'); [congruence|exact IH].
Qed.

Lemma mget_mset_ne m k k' v : k <> k' -> mget (mset m k v) k' = mget m k'.
Proof.
  intros N. induction m as [|[k2 v2] m IH]; cbn.
  - destruct (keq k' k); congruence.
  - destruct (keq k k2) as [->|N2]; cbn.
    + destruct (keq k' k2); [congruence|reflexivity].
    + destruct (keq k' k2); [reflexivity|exact IH].
Qed.

Lemma mget_mset m k k' v : mget (mset m k v) k' = if keq k' k then Some v else mget m k'.
Proof.
  destruct (keq k' k) as [->|N]; [apply mget_mset_eq|]. apply mget_mset_ne. congruence.
Qed.

Lemma mget_mdel m k k' : mget (mdel m k) k' = if keq k' k then None else mget m k'.
Proof.
  induction m as [|[k2 v2] m IH]; cbn; [now destruct (keq k' k)|].
  destruct (keq k k2) as [<-|N]; cbn.
  - rewrite IH. destruct (keq k' k); reflexivity.
  - destruct (keq k' k2) as [->|N2]; [|exact IH]. destruct (keq k2 k); congruence.
Qed.

Lemma mget_In m k v : mget m k = Some v -> In (k, v) m.
Proof.
  induction m as [|[k2 v2] m IH]; cbn; [discriminate|].
  destruct (keq k k2) as [->|N]; [intros [= ->]; now left|]. right. now apply IH.
Qed.

Lemma mget_keys m k v : mget m k = Some v -> In k (mkeys m).
Proof. intros E. apply mget_In in E. apply in_map_iff. now exists (k, v). Qed.

Lemma keys_mget m k : In k (mkeys m) -> exists v, mget m k = Some v.
Proof.
  induction m as [|[k2 v2] m IH]; cbn; [intros []|]. intros [->|I].
  - destruct (keq k k); [|congruence]. now exists v2.
  - destruct (keq k k2); [now exists v2|]. now apply IH.
Qed.

Lemma mget_none m k : mget m k = None <-> ~ In k (mkeys m).
Proof.
  split.
  - intros E I. apply keys_mget in I. destruct I as (v & Hv). congruence.
  - intros N. destruct (mget m k) eqn:E; [|reflexivity]. now apply mget_keys in E.
Qed.

Lemma mwf_In m k v : mwf m -> In (k, v) m -> mget m k = Some v.
Proof.
  unfold mwf. induction m as [|[k2 v2] m IH]; cbn; [intros _ []|]. intros W [E|I].
  - inversion E; subst. destruct (keq k k); congruence.
  - inversion W; subst. destruct (keq k k2) as [->|N]; [|now apply IH].
    exfalso. apply H2. apply in_map_iff. now exists (k2, v).
Qed.

Lemma mkeys_mset m k v : In k (mkeys m) -> mkeys (mset m k v) = mkeys m.
Proof.
  induction m as [|[k2 v2] m IH]; cbn; [intros []|]. intros I.
  destruct (keq k k2) as [->|N]; cbn; [reflexivity|]. f_equal. apply IH. destruct I; [congruence|assumption].
Qed.
Lemma mkeys_mset_new m k v : ~ In k (mkeys m) -> mset m k v = m ++ [(k, v)].
Proof.
  induction m as [|[k2 v2] m IH]; cbn; [reflexivity|]. intros N.
  destruct (keq k k2) as [->|N2]; [tauto|]. f_equal. apply IH. tauto.
Qed.
Lemma in_mkeys_mset m k k' v : In k' (mkeys (mset m k v)) <-> k' = k \/ In k' (mkeys m).
Proof.
  destruct (in_dec keq k (mkeys m)) as [I|N].
  - rewrite mkeys_mset by assumption. split; [tauto|]. intros [->|]; assumption.
  - rewrite mkeys_mset_new by assumption. unfold mkeys. rewrite map_app, in_app_iff. cbn. firstorder congruence.
Qed.
Lemma in_mkeys_mdel m k k' : In k' (mkeys (mdel m k)) <-> k' <> k /\ In k' (mkeys m).
Proof.
  induction m as [|[k2 v2] m IH]; cbn; [tauto|].
  destruct (keq k k2) as [->|N]; cbn; rewrite IH; firstorder congruence.
Qed.
Lemma in_mdel m k x : In x (mdel m k) -> In x m.
Proof.
  induction m as [|[k2 v2] m IH]; cbn; [tauto|].
  destruct (keq k k2) as [->|N]; cbn; tauto.
Qed.

Lemma NoDup_snoc {A} (l : list A) x : NoDup l -> ~ In x l -> NoDup (l ++ [x]).
Proof.
  intros HN HI. apply (Permutation_NoDup (Permutation_cons_append l x)). now constructor.
Qed.

Lemma mwf_mset m k v : mwf m -> mwf (mset m k v).
Proof.
  intros W. unfold mwf. destruct (in_dec keq k (mkeys m)) as [I|N].
  - now rewrite mkeys_mset.
  - rewrite mkeys_mset_new by assumption. unfold mkeys. rewrite map_app. cbn. now apply NoDup_snoc.
Qed.
Lemma mwf_mdel m k : mwf m -> mwf (mdel m k).
Proof.
  unfold mwf. induction m as [|[k2 v2] m IH]; cbn; [auto|]. intros W. inversion W; subst.
  destruct (keq k k2); [now apply IH|]. cbn. constructor; [|now apply IH].
  intros I. apply in_mkeys_mdel in I. tauto.
Qed.
Lemma mwf_nil : mwf [].
Proof. constructor. Qed.

End Maps.
