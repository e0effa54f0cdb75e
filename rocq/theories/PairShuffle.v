(** Neff's ElGamal pair shuffle and its argument: /repo/util/shuffle/pair.go. *)
From Coq Require Import ZArith Znumtheory Lia List Bool Permutation.
From Verif Require Import ZMod Bytes Suite Perm SimpleShuffle.
Import ListNotations.
Open Scope Z_scope.

(** pair.go:34-66: the prover's messages p1, p3, p5 and the embedded simple shuffle. *)
Record ps_proof := PsProof {
  psGamma : Z; psA : list Z; psC : list Z; psU : list Z; psW : list Z; psL1 : Z; psL2 : Z;
  psD : list Z; psSigma : list Z; psTau : Z; psSS : ss_proof }.

(** abstract.Write of the structs, fields in declaration order. *)
Definition enc_p1 (S : suite) (pf : ps_proof) : bytes :=
  enc_point S (psGamma pf) ++ enc_pts S (psA pf) ++ enc_pts S (psC pf) ++ enc_pts S (psU pf) ++
  enc_pts S (psW pf) ++ enc_point S (psL1 pf) ++ enc_point S (psL2 pf).
Definition enc_p3 (S : suite) (pf : ps_proof) : bytes := enc_pts S (psD pf).
Definition enc_p5 (S : suite) (pf : ps_proof) : bytes := enc_secs S (psSigma pf) ++ enc_secret S (psTau pf).
Definition enc_ss (S : suite) (pf : ss_proof) : bytes :=
  enc_pts S (ssX pf) ++ enc_pts S (ssY pf) ++ enc_pts S (ssTheta pf) ++ enc_secs S (ssAlpha pf).
(** proof.HashProve: the transcript. *)
Definition enc_proof (S : suite) (pf : ps_proof) : bytes :=
  enc_p1 S pf ++ enc_p3 S pf ++ enc_p5 S pf ++ enc_ss S (psSS pf).

(** ctx.PriRand of pair.go:144 and simple.go:131. *)
Record ps_rand := PsRand { pu : list Z; pw : list Z; pa : list Z; ptau0 : Z; pgamma : Z; ptheta : list Z }.

(** pair.go:118-221 Prove up to step 5: the messages (the simple-shuffle part still
    empty), the vectors r, s and the transcript; None = panic.  The points B of lines
    176-180 are computed and never used; the unused random nu is left out. *)
Definition ps_steps (S : suite) (H : oracle) (k : nat) (pi : list nat) (g h : Z) (beta X Y : list Z)
    (rn : ps_rand) : option (ps_proof * list Z * list Z * bytes) :=
  if (k <=? 1)%nat then None
  else if (negb (Nat.eqb k (length pi)) || negb (Nat.eqb k (length beta))) then None
  else
    let pinv := perm_inv pi in
    let u := at_ (pu rn) in let w := at_ (pw rn) in let a := at_ (pa rn) in
    let gamma := pgamma rn in
    let p i := nth i pi 0%nat in
    let q i := nth i pinv 0%nat in
    let Gamma := pt_mul S g gamma in
    let A := tab k (fun i => pt_mul S g (a i)) in
    let C := tab k (fun i => pt_mul S g (sec_mul S gamma (a (p i)))) in
    let U := tab k (fun i => pt_mul S g (u i)) in
    let W := tab k (fun i => pt_mul S g (sec_mul S gamma (w i))) in
    let wbetasum := fold_left (fun acc i => sec_add S acc (sec_mul S (w i) (at_ beta (p i)))) (seq 0 k) (ptau0 rn) in
    let lam Z0 base := pt_add S
      (fold_left (fun acc i => pt_add S acc (pt_mul S (at_ Z0 i) (sec_sub S (w (q i)) (u i)))) (seq 0 k) pt_null)
      (pt_mul S base wbetasum) in
    let L1 := lam X g in
    let L2 := lam Y h in
    let pre := PsProof Gamma A C U W L1 L2 [] [] 0 (SsProof [] [] [] []) in
    let tr1 := enc_p1 S pre in
    let rho := H tr1 in
    let b i := sec_sub S (rho i) (u i) in
    let D := tab k (fun i => pt_mul S g (sec_mul S gamma (b (p i)))) in
    let tr3 := tr1 ++ enc_pts S D in
    let lambda := H tr3 0%nat in
    let r := tab k (fun i => sec_add S (a i) (sec_mul S lambda (b i))) in
    let s := tab k (fun i => sec_mul S gamma (at_ r (p i))) in
    let sigma := tab k (fun i => sec_add S (w i) (b (p i))) in
    let tau := fold_left (fun acc i => sec_add S acc (sec_mul S (b i) (at_ beta i))) (seq 0 k) (sec_neg S (ptau0 rn)) in
    let tr5 := tr3 ++ enc_secs S sigma ++ enc_secret S tau in
    Some (PsProof Gamma A C U W L1 L2 D sigma tau (SsProof [] [] [] []), r, s, tr5).

(** pair.go:118-224 Prove; None = panic. *)
Definition ps_prove (S : suite) (H : oracle) (k : nat) (pi : list nat) (g h : Z) (beta X Y : list Z)
    (rn : ps_rand) : option ps_proof :=
  match ps_steps S H k pi g h beta X Y rn with
  | None => None
  | Some (pf, r, s, tr5) =>
      match ss_prove S H g (pgamma rn) r s (ptheta rn) tr5 with
      | Some ss => Some (PsProof (psGamma pf) (psA pf) (psC pf) (psU pf) (psW pf) (psL1 pf) (psL2 pf)
                          (psD pf) (psSigma pf) (psTau pf) ss)
      | None => None
      end
  end.

(** pair.go:279-293: the loop of step 7.  None = panic (Sub of a non-invertible
    point), Some None = "invalid PairShuffleProof". *)
Fixpoint ps_loop (S : suite) (X Y Xbar Ybar : list Z) (rho : nat -> Z) (pf : ps_proof) (is : list nat)
    (Phi1 Phi2 : Z) : option (option (Z * Z)) :=
  match is with
  | [] => Some (Some (Phi1, Phi2))
  | i :: r =>
      let si := at_ (psSigma pf) i in
      match pt_sub S (pt_add S Phi1 (pt_mul S (at_ Xbar i) si)) (pt_mul S (at_ X i) (rho i)) with
      | None => None
      | Some Phi1' =>
      match pt_sub S (pt_add S Phi2 (pt_mul S (at_ Ybar i) si)) (pt_mul S (at_ Y i) (rho i)) with
      | None => None
      | Some Phi2' =>
          if pt_mul S (psGamma pf) si =? pt_add S (at_ (psW pf) i) (at_ (psD pf) i)
          then ps_loop S X Y Xbar Ybar rho pf r Phi1' Phi2'
          else Some None
      end end
  end.

(** pair.go:227-303 Verify; None = panic, Some true = nil error. *)
Definition ps_verify (S : suite) (H : oracle) (k : nat) (g h : Z) (X Y Xbar Ybar : list Z) (pf : ps_proof)
  : option bool :=
  if negb (Nat.eqb (length X) k && Nat.eqb (length Y) k && Nat.eqb (length Xbar) k && Nat.eqb (length Ybar) k)
  then None
  else
    let tr1 := enc_p1 S pf in
    let rho := H tr1 in
    (* lines 249-253: the points B are computed, not used; Sub may panic *)
    if existsb (fun i => match pt_sub S (pt_mul S g (rho i)) (at_ (psU pf) i) with None => true | _ => false end) (seq 0 k)
    then None
    else
    let tr3 := tr1 ++ enc_p3 S pf in
    let tr5 := tr3 ++ enc_p5 S pf in
    if negb (ss_verify S H g (psGamma pf) (psSS pf) tr5) then Some false
    else
      match ps_loop S X Y Xbar Ybar rho pf (seq 0 k) pt_null pt_null with
      | None => None
      | Some None => Some false
      | Some (Some (Phi1, Phi2)) =>
          Some ((pt_add S (psL1 pf) (pt_mul S g (psTau pf)) =? Phi1) &&
                (pt_add S (psL2 pf) (pt_mul S h (psTau pf)) =? Phi2))
      end.

(** abstract.Read of slices of points and secrets: fixed sizes, validated; None = error. *)
Fixpoint read_pts (S : suite) (n : nat) (l : bytes) : option (list Z * bytes) :=
  match n with
  | O => Some ([], l)
  | Datatypes.S n =>
      if (length l <? plen S)%nat then None
      else match dec_point S (firstn (plen S) l) with
      | None => None
      | Some p => match read_pts S n (skipn (plen S) l) with
                  | None => None | Some (ps, r) => Some (p :: ps, r) end
      end
  end.
Fixpoint read_secs (S : suite) (n : nat) (l : bytes) : option (list Z * bytes) :=
  match n with
  | O => Some ([], l)
  | Datatypes.S n =>
      if (length l <? slen S)%nat then None
      else match dec_secret S (firstn (slen S) l) with
      | None => None
      | Some p => match read_secs S n (skipn (slen S) l) with
                  | None => None | Some (ps, r) => Some (p :: ps, r) end
      end
  end.

(** The ctx.Get calls of pair.go:240-272 and simple.go:207-223, with the slice sizes
    of Init (pair.go:97-116, simple.go:71-78).  Bytes after the proof are ignored. *)
Definition ps_parse (S : suite) (k : nat) (l : bytes) : option ps_proof :=
  match read_pts S 1 l with None => None | Some (gm, l) =>
  match read_pts S k l with None => None | Some (A, l) =>
  match read_pts S k l with None => None | Some (C, l) =>
  match read_pts S k l with None => None | Some (U, l) =>
  match read_pts S k l with None => None | Some (W, l) =>
  match read_pts S 1 l with None => None | Some (l1, l) =>
  match read_pts S 1 l with None => None | Some (l2, l) =>
  match read_pts S k l with None => None | Some (D, l) =>
  match read_secs S k l with None => None | Some (sg, l) =>
  match read_secs S 1 l with None => None | Some (tau, l) =>
  match read_pts S k l with None => None | Some (X, l) =>
  match read_pts S k l with None => None | Some (Y, l) =>
  match read_pts S (2 * k) l with None => None | Some (Th, l) =>
  match read_secs S (2 * k - 1) l with None => None | Some (al, l) =>
  Some (PsProof (at_ gm 0) A C U W (at_ l1 0) (at_ l2 0) D sg (at_ tau 0) (SsProof X Y Th al))
  end end end end end end end end end end end end end end.

(** pair.go:363-372 Verifier with proof.HashVerify; None = panic, Some false = error. *)
Definition ps_hash_verify (S : suite) (H : oracle) (g h : Z) (X Y Xbar Ybar : list Z) (prf : bytes) : option bool :=
  let k := length X in
  if (k <=? 1)%nat then None
  else if negb (Nat.eqb (length Y) k && Nat.eqb (length Xbar) k && Nat.eqb (length Ybar) k) then None
  else match ps_parse S k prf with
  | None => Some false
  | Some pf => ps_verify S H k g h X Y Xbar Ybar pf
  end.

(** pair.go:311-360 Shuffle: outputs, the permutation and the unblinding terms
    (None = panic); [u] and [beta] are its random draws. *)
Record shuffled := Shuffled { shX : list Z; shY : list Z; shTX : list Z; shTY : list Z; shPi : list nat }.
Definition shuffle (S : suite) (g h : Z) (X Y : list Z) (u : nat -> Z) (beta : list Z) : option shuffled :=
  let k := length X in
  if negb (Nat.eqb k (length Y)) then None
  else if (k <=? 1)%nat then None
  else
    let pi := draw_perm u k in
    let b i := at_ beta (nth i pi 0%nat) in
    Some (Shuffled
      (tab k (fun i => pt_add S (pt_mul S g (b i)) (at_ X (nth i pi 0%nat))))
      (tab k (fun i => pt_add S (pt_mul S h (b i)) (at_ Y (nth i pi 0%nat))))
      (tab k (fun i => pt_mul S g (b i)))
      (tab k (fun i => pt_mul S h (b i)))
      pi).

(** ** Products over index lists *)
Section PS.
Context (S : suite) (OK : suite_ok S).

Fixpoint big (f : nat -> Z) (l : list nat) : Z :=
  match l with [] => 1 | i :: r => mulm (sP S) (f i) (big f r) end.
Fixpoint zsum (f : nat -> Z) (l : list nat) : Z :=
  match l with [] => 0 | i :: r => f i + zsum f r end.

Lemma big_group f l : (forall i, In i l -> in_group S (f i)) -> in_group S (big f l).
Proof.
  induction l as [|i r IH]; intros Hf; cbn [big]; [now apply in_group_1|].
  apply in_group_mulm; [assumption|apply Hf; now left|apply IH; intros; apply Hf; now right].
Qed.

Lemma big_ext f f' l : (forall i, In i l -> f i = f' i) -> big f l = big f' l.
Proof.
  induction l as [|i r IH]; intros Hf; cbn [big]; [reflexivity|].
  rewrite (Hf i) by (now left). rewrite IH; [reflexivity|]. intros; apply Hf; now right.
Qed.

Lemma big_perm f l l' : Permutation l l' -> big f l = big f l'.
Proof.
  pose proof (sP_gt1 S OK). induction 1; cbn [big]; try congruence.
  rewrite !mulm_assoc by lia. f_equal. apply mulm_comm.
Qed.

Lemma big_map f (p : nat -> nat) l : big f (map p l) = big (fun i => f (p i)) l.
Proof. induction l as [|i r IH]; cbn; [reflexivity|]. now rewrite IH. Qed.

Lemma zsum_perm f l l' : Permutation l l' -> zsum f l = zsum f l'.
Proof. induction 1; cbn [zsum]; try congruence; lia. Qed.
Lemma zsum_map f (p : nat -> nat) l : zsum f (map p l) = zsum (fun i => f (p i)) l.
Proof. induction l as [|i r IH]; cbn; [reflexivity|]. now rewrite IH. Qed.
Lemma zsum_ext f f' l : (forall i, In i l -> f i = f' i) -> zsum f l = zsum f' l.
Proof.
  induction l as [|i r IH]; intros Hf; cbn [zsum]; [reflexivity|].
  rewrite (Hf i) by (now left). rewrite IH; [reflexivity|]. intros; apply Hf; now right.
Qed.

Lemma big_mulm f f' l : (forall i, In i l -> in_group S (f i)) -> (forall i, In i l -> in_group S (f' i)) ->
  big (fun i => mulm (sP S) (f i) (f' i)) l = mulm (sP S) (big f l) (big f' l).
Proof.
  intros F F'. induction l as [|i r IH]; cbn [big].
  - pose proof (sP_gt1 S OK). unfold mulm. now rewrite Z.mod_1_l.
  - rewrite IH; [|intros; apply F; now right|intros; apply F'; now right].
    assert (in_group S (f i)) by (apply F; now left). assert (in_group S (f' i)) by (apply F'; now left).
    assert (in_group S (big f r)) by (apply big_group; intros; apply F; now right).
    assert (in_group S (big f' r)) by (apply big_group; intros; apply F'; now right).
    grpS S.
Qed.

Lemma big_zexp g f l : in_group S g -> zexp (sP S) g (zsum f l) = big (fun i => zexp (sP S) g (f i)) l.
Proof.
  intros Hg. pose proof (sP_gt1 S OK). induction l as [|i r IH]; cbn [big zsum].
  - now apply zexp_0.
  - rewrite <- IH. apply zexp_add; [assumption|now apply in_group_unit].
Qed.

Lemma fold_big f l : (forall i, In i l -> in_group S (f i)) -> forall acc, in_group S acc ->
  fold_left (fun a i => pt_add S a (f i)) l acc = mulm (sP S) acc (big f l).
Proof.
  induction l as [|i r IH]; intros F acc Ha; cbn [fold_left big].
  - grpS S.
  - assert (in_group S (f i)) by (apply F; now left).
    rewrite IH; [|intros; apply F; now right|apply in_group_mulm; assumption].
    assert (in_group S (big f r)) by (apply big_group; intros; apply F; now right). grpS S.
Qed.

Lemma fold_zsum f l : forall acc,
  eqm (sQ S) (fold_left (fun a i => sec_add S a (f i)) l acc) (acc + zsum f l).
Proof.
  pose proof (sQ_gt1 S OK). induction l as [|i r IH]; intros acc; cbn [fold_left zsum].
  - now rewrite Z.add_0_r.
  - rewrite IH. unfold eqm, sec_add. rewrite Z.add_mod_idemp_l by lia. f_equal. lia.
Qed.

Lemma zexp_eqm g x y : in_group S g -> eqm (sQ S) x y -> zexp (sP S) g x = zexp (sP S) g y.
Proof.
  intros Hg E. pose proof (sP_gt1 S OK). pose proof (sQ_gt1 S OK).
  apply zexp_cong with (q := sQ S); try lia; [now apply in_group_unit|now apply in_group_q|exact E].
Qed.

Definition all_group (l : list Z) : Prop := forall i, (i < length l)%nat -> in_group S (at_ l i).

(** The contribution of index i to Phi. *)
Definition phi_term (Z0 Zbar : list Z) (rho : nat -> Z) (pf : ps_proof) (i : nat) : Z :=
  mulm (sP S) (zexp (sP S) (at_ Zbar i) (at_ (psSigma pf) i)) (zexp (sP S) (at_ Z0 i) (- rho i)).
Definition check33 (pf : ps_proof) (i : nat) : bool :=
  pt_mul S (psGamma pf) (at_ (psSigma pf) i) =? pt_add S (at_ (psW pf) i) (at_ (psD pf) i).

Lemma phi_term_group Z0 Zbar rho pf i : in_group S (at_ Z0 i) -> in_group S (at_ Zbar i) ->
  in_group S (phi_term Z0 Zbar rho pf i).
Proof. intros. unfold phi_term. in_grp. Qed.

Lemma ps_loop_spec X Y Xbar Ybar rho pf : forall is Phi1 Phi2,
  (forall i, In i is -> in_group S (at_ X i) /\ in_group S (at_ Y i) /\ in_group S (at_ Xbar i) /\ in_group S (at_ Ybar i)) ->
  in_group S Phi1 -> in_group S Phi2 ->
  ps_loop S X Y Xbar Ybar rho pf is Phi1 Phi2 =
  if forallb (check33 pf) is
  then Some (Some (mulm (sP S) Phi1 (big (phi_term X Xbar rho pf) is), mulm (sP S) Phi2 (big (phi_term Y Ybar rho pf) is)))
  else Some None.
Proof.
  induction is as [|i r IH]; intros P1 P2 HG H1 H2; cbn [ps_loop forallb big].
  - do 3 f_equal; grpS S.
  - destruct (HG i (or_introl eq_refl)) as (A & B & C & D).
    rewrite pt_sub_group by (try assumption; unfold pt_mul; in_grp).
    rewrite pt_sub_group by (try assumption; unfold pt_mul; in_grp).
    unfold check33 at 1. destruct (pt_mul S (psGamma pf) (at_ (psSigma pf) i) =? pt_add S (at_ (psW pf) i) (at_ (psD pf) i));
      cbn [andb]; [|reflexivity].
    rewrite IH.
    + destruct (forallb (check33 pf) r); [|reflexivity].
      assert (in_group S (big (phi_term X Xbar rho pf) r)).
      { apply big_group. intros j Hj. destruct (HG j (or_intror Hj)) as (? & ? & ? & ?). now apply phi_term_group. }
      assert (in_group S (big (phi_term Y Ybar rho pf) r)).
      { apply big_group. intros j Hj. destruct (HG j (or_intror Hj)) as (? & ? & ? & ?). now apply phi_term_group. }
      set (B1 := big (phi_term X Xbar rho pf) r) in *. set (B2 := big (phi_term Y Ybar rho pf) r) in *.
      clearbody B1 B2. unfold phi_term. do 3 f_equal; grpS S.
    + intros j Hj. apply HG. now right.
    + unfold pt_add, pt_mul. in_grp.
    + unfold pt_add, pt_mul. in_grp.
Qed.

(** What PairShuffle.Verify checks, exactly. *)
Lemma ps_verify_spec H k g h X Y Xbar Ybar pf :
  length X = k -> length Y = k -> length Xbar = k -> length Ybar = k ->
  all_group X -> all_group Y -> all_group Xbar -> all_group Ybar ->
  length (psU pf) = k -> all_group (psU pf) ->
  ps_verify S H k g h X Y Xbar Ybar pf = Some
   (ss_verify S H g (psGamma pf) (psSS pf) (enc_p1 S pf ++ enc_p3 S pf ++ enc_p5 S pf) &&
    forallb (check33 pf) (seq 0 k) &&
    (pt_add S (psL1 pf) (pt_mul S g (psTau pf)) =? big (phi_term X Xbar (H (enc_p1 S pf)) pf) (seq 0 k)) &&
    (pt_add S (psL2 pf) (pt_mul S h (psTau pf)) =? big (phi_term Y Ybar (H (enc_p1 S pf)) pf) (seq 0 k))).
Proof.
  intros L1 L2 L3 L4 G1 G2 G3 G4 LU GU. unfold ps_verify. rewrite L1, L2, L3, L4, Nat.eqb_refl. cbn [andb negb].
  match goal with |- context [existsb ?f (seq 0 k)] => assert (EX : existsb f (seq 0 k) = false) end.
  { apply not_true_is_false. intros E. apply existsb_exists in E. destruct E as (i & Hi & E). apply in_seq in Hi.
    rewrite pt_sub_group in E; [discriminate|assumption|]. apply GU. lia. }
  rewrite EX. rewrite <- app_assoc. destruct (ss_verify _ _ _ _ _ _); cbn [negb andb]; [|reflexivity].
  assert (GA : forall i, In i (seq 0 k) -> in_group S (at_ X i) /\ in_group S (at_ Y i) /\ in_group S (at_ Xbar i) /\ in_group S (at_ Ybar i)).
  { intros i Hi. apply in_seq in Hi. split; [apply G1; lia|]. split; [apply G2; lia|]. split; [apply G3|apply G4]; lia. }
  rewrite ps_loop_spec; [|assumption|now apply in_group_1|now apply in_group_1].
  destruct (forallb (check33 pf) (seq 0 k)); cbn [andb]; [|reflexivity].
  assert (R : forall Z0 Zbar, (forall i, In i (seq 0 k) -> in_group S (at_ Z0 i) /\ in_group S (at_ Zbar i)) ->
     mulm (sP S) pt_null (big (phi_term Z0 Zbar (H (enc_p1 S pf)) pf) (seq 0 k)) =
     big (phi_term Z0 Zbar (H (enc_p1 S pf)) pf) (seq 0 k)).
  { intros Z0 Zbar HZ. assert (in_group S (big (phi_term Z0 Zbar (H (enc_p1 S pf)) pf) (seq 0 k))).
    { apply big_group. intros j Hj. destruct (HZ j Hj). now apply phi_term_group. }
    unfold pt_null. grpS S. }
  rewrite !R; [reflexivity| |]; intros i Hi; destruct (GA i Hi) as (? & ? & ? & ?); split; assumption.
Qed.

(** The shuffled pairs, for any permutation. *)
Definition permuted (g : Z) (beta Z0 Zbar : list Z) (pi : list nat) : Prop :=
  forall i, (i < length Z0)%nat -> at_ Zbar i =
    mulm (sP S) (zexp (sP S) g (at_ beta (nth i pi 0%nat))) (at_ Z0 (nth i pi 0%nat)).

Lemma map_nth_seq (pi : list nat) k : length pi = k -> map (fun i => nth i pi 0%nat) (seq 0 k) = pi.
Proof.
  intros <-. apply (nth_ext _ _ 0%nat 0%nat).
  - now rewrite map_length, seq_length.
  - intros n Hn. rewrite map_length, seq_length in Hn.
    rewrite nth_indep with (d' := nth 0 pi 0%nat) by (rewrite map_length, seq_length; lia).
    rewrite (map_nth (fun i => nth i pi 0%nat)). now rewrite seq_nth by lia.
Qed.

(** One component of the final check. *)
Lemma lam_eq k pi g0 beta Z0 Zbar u w (rho b : nat -> Z) tau0 sigma pf :
  length Z0 = k -> length pi = k -> Permutation pi (seq 0 k) -> in_group S g0 -> all_group Z0 ->
  permuted g0 beta Z0 Zbar pi ->
  (forall i, b i = sec_sub S (rho i) (u i)) ->
  psSigma pf = sigma ->
  (forall i, (i < k)%nat -> at_ sigma i = sec_add S (w i) (b (nth i pi 0%nat))) ->
  mulm (sP S)
    (mulm (sP S) (big (fun i => zexp (sP S) (at_ Z0 i) (sec_sub S (w (nth i (perm_inv pi) 0%nat)) (u i))) (seq 0 k))
       (zexp (sP S) g0 (tau0 + zsum (fun i => w i * at_ beta (nth i pi 0%nat)) (seq 0 k))))
    (zexp (sP S) g0 (- tau0 + zsum (fun i => b i * at_ beta i) (seq 0 k)))
  = big (phi_term Z0 Zbar rho pf) (seq 0 k).
Proof.
  intros LZ LP HP Hg HZ HPM Hb Es Hs.
  set (q := fun i => nth i (perm_inv pi) 0%nat).
  assert (Hq : forall i, (i < k)%nat -> q (nth i pi 0%nat) = i).
  { intros i Hi. unfold q. apply perm_inv_nth; rewrite ?LP; assumption. }
  assert (Hlt : forall i, (i < k)%nat -> (nth i pi 0 < k)%nat) by (intros; now apply perm_nth_lt).
  assert (Hpi : forall f, big (fun i => f (nth i pi 0%nat)) (seq 0 k) = big f (seq 0 k)).
  { intros f. rewrite <- big_map. rewrite map_nth_seq by assumption. now apply big_perm. }
  assert (Zg : forall i, In i (seq 0 k) -> in_group S (at_ Z0 i)) by (intros i Hi; apply in_seq in Hi; apply HZ; lia).
  (* left side as one product *)
  transitivity (big (fun i => mulm (sP S) (zexp (sP S) (at_ Z0 i) (sec_sub S (w (q i)) (u i)))
      (mulm (sP S) (zexp (sP S) g0 (w (q i) * at_ beta i)) (zexp (sP S) g0 (b i * at_ beta i)))) (seq 0 k)).
  { rewrite big_mulm by (intros i Hi; specialize (Zg i Hi); in_grp).
    rewrite big_mulm by (intros i Hi; in_grp).
    rewrite <- !big_zexp by assumption.
    replace (zsum (fun i => w (q i) * at_ beta i) (seq 0 k)) with (zsum (fun i => w i * at_ beta (nth i pi 0%nat)) (seq 0 k)).
    - assert (in_group S (big (fun i => zexp (sP S) (at_ Z0 i) (sec_sub S (w (q i)) (u i))) (seq 0 k))).
      { apply big_group. intros i Hi. specialize (Zg i Hi). in_grp. }
      match goal with |- mulm _ (mulm _ ?a _) _ = mulm _ ?b _ => change a with b; set (B := b) in * end.
      clearbody B. grpS S.
    - rewrite <- (zsum_perm (fun i => w (q i) * at_ beta i) pi (seq 0 k) HP).
      transitivity (zsum (fun i => w (q i) * at_ beta i) (map (fun i => nth i pi 0%nat) (seq 0 k)));
        [|now rewrite map_nth_seq by assumption]. rewrite zsum_map. apply zsum_ext. intros i Hi. apply in_seq in Hi.
      now rewrite Hq by lia. }
  (* right side *)
  transitivity (mulm (sP S)
     (big (fun i => zexp (sP S) (mulm (sP S) (zexp (sP S) g0 (at_ beta i)) (at_ Z0 i)) (w (q i) + b i)) (seq 0 k))
     (big (fun i => zexp (sP S) (at_ Z0 i) (- rho i)) (seq 0 k))).
  { rewrite <- big_mulm by (intros i Hi; specialize (Zg i Hi); in_grp).
    apply big_ext. intros i Hi. specialize (Zg i Hi). rewrite Hb. grpS S. }
  rewrite <- (Hpi (fun i => zexp (sP S) (mulm (sP S) (zexp (sP S) g0 (at_ beta i)) (at_ Z0 i)) (w (q i) + b i))).
  rewrite <- big_mulm.
  - apply big_ext. intros i Hi. apply in_seq in Hi. unfold phi_term. rewrite Es, Hs by lia. rewrite HPM by lia.
    rewrite Hq by lia. f_equal.
    assert (in_group S (at_ Z0 (nth i pi 0%nat))) by (apply HZ; rewrite LZ; apply Hlt; lia).
    rewrite <- (zexp_modQ S OK _ (w i + b (nth i pi 0%nat))) by in_grp. reflexivity.
  - intros i Hi. apply in_seq in Hi.
    assert (in_group S (at_ Z0 (nth i pi 0%nat))) by (apply HZ; rewrite LZ; apply Hlt; lia). in_grp.
  - intros i Hi. specialize (Zg i Hi). in_grp.
Qed.

(** Well-formed proof objects: sizes, points of the group, reduced secrets. *)
Definition good_pts (n : nat) (l : list Z) : Prop := length l = n /\ all_group l.
Definition good_secs (n : nat) (l : list Z) : Prop :=
  length l = n /\ forall i, (i < n)%nat -> is_secret S (at_ l i).
Record wf_proof (k : nat) (pf : ps_proof) : Prop := {
  wfG : in_group S (psGamma pf); wfA : good_pts k (psA pf); wfC : good_pts k (psC pf);
  wfU : good_pts k (psU pf); wfW : good_pts k (psW pf); wf1 : in_group S (psL1 pf); wf2 : in_group S (psL2 pf);
  wfD : good_pts k (psD pf); wfs : good_secs k (psSigma pf); wft : is_secret S (psTau pf);
  wfX : good_pts k (ssX (psSS pf)); wfY : good_pts k (ssY (psSS pf));
  wfT : good_pts (2 * k) (ssTheta (psSS pf)); wfa : good_secs (2 * k - 1) (ssAlpha (psSS pf)) }.

Lemma tab_good n f : (forall i, (i < n)%nat -> in_group S (f i)) -> good_pts n (tab n f).
Proof.
  intros Hf. split; [apply tab_length|]. intros i Hi. rewrite tab_length in Hi. rewrite at_tab by assumption. now apply Hf.
Qed.
Lemma tab_secs n f : (forall i, (i < n)%nat -> is_secret S (f i)) -> good_secs n (tab n f).
Proof.
  intros Hf. split; [apply tab_length|]. intros i Hi. rewrite at_tab by assumption. now apply Hf.
Qed.
Lemma map_good g l : in_group S g -> good_pts (length l) (map (pt_mul S g) l).
Proof.
  intros Hg. split; [apply map_length|]. intros i Hi. rewrite map_length in Hi. rewrite at_map by assumption.
  now apply in_group_zexp.
Qed.

Lemma ss_prove_wf H G gamma x y theta tr pf : in_group S G -> ss_prove S H G gamma x y theta tr = Some pf ->
  good_pts (length x) (ssX pf) /\ good_pts (length x) (ssY pf) /\ good_pts (2 * length x) (ssTheta pf) /\
  good_secs (2 * length x - 1) (ssAlpha pf).
Proof.
  intros HG E. unfold ss_prove in E. destruct (Nat.leb_spec (length x) 1); [discriminate|].
  destruct (Nat.eqb_spec (length x) (length y)) as [L|]; [|discriminate]. cbn [negb] in E.
  match type of E with match ?a with _ => _ end = _ => destruct a; [|discriminate] end.
  destruct (sec_inv S gamma); [|discriminate]. injection E as <-. cbn [ssX ssY ssTheta ssAlpha].
  split; [now apply map_good|]. split; [rewrite L; now apply map_good|]. split.
  - apply tab_good. intros i _. unfold thenc, pt_mul.
    destruct (Nat.eqb i 0); [in_grp|]. destruct (Nat.ltb i (length x)); [in_grp|].
    destruct (Nat.ltb i (2 * length x - 1)); in_grp.
  - apply tab_secs. intros i _. destruct (Nat.ltb i (length x)); now apply sec_range_add.
Qed.

Lemma fold_secret (f : nat -> Z) l acc : (l <> [] \/ is_secret S acc) ->
  is_secret S (fold_left (fun a i => sec_add S a (f i)) l acc).
Proof.
  revert acc. induction l as [|i r IH]; intros acc Ha; cbn [fold_left].
  - destruct Ha; [congruence|assumption].
  - apply IH. right. now apply sec_range_add.
Qed.

Lemma fold_zsum_mul (f f' : nat -> Z) l : forall acc,
  eqm (sQ S) (fold_left (fun a i => sec_add S a (sec_mul S (f i) (f' i))) l acc) (acc + zsum (fun i => f i * f' i) l).
Proof.
  pose proof (sQ_gt1 S OK). induction l as [|i r IH]; intros acc; cbn [fold_left zsum].
  - now rewrite Z.add_0_r.
  - rewrite IH. unfold eqm, sec_add, sec_mul. rewrite Z.add_mod_idemp_l by lia.
    rewrite <- Z.add_assoc, (Z.add_comm ((f i * f' i) mod sQ S)), Z.add_assoc, Z.add_mod_idemp_r by lia. f_equal. lia.
Qed.

(** [lam_eq] in the form in which the prover computes it. *)
Lemma lam_check k pi g0 beta Z0 Zbar u w (rho b : nat -> Z) tau0 sigma pf :
  length Z0 = k -> length pi = k -> Permutation pi (seq 0 k) -> in_group S g0 -> all_group Z0 ->
  permuted g0 beta Z0 Zbar pi ->
  (forall i, b i = sec_sub S (rho i) (u i)) ->
  psSigma pf = sigma ->
  (forall i, (i < k)%nat -> at_ sigma i = sec_add S (w i) (b (nth i pi 0%nat))) ->
  pt_add S (pt_add S
      (fold_left (fun acc i => pt_add S acc (pt_mul S (at_ Z0 i) (sec_sub S (w (nth i (perm_inv pi) 0%nat)) (u i)))) (seq 0 k) pt_null)
      (pt_mul S g0 (fold_left (fun acc i => sec_add S acc (sec_mul S (w i) (at_ beta (nth i pi 0%nat)))) (seq 0 k) tau0)))
    (pt_mul S g0 (fold_left (fun acc i => sec_add S acc (sec_mul S (b i) (at_ beta i))) (seq 0 k) (sec_neg S tau0)))
  = big (phi_term Z0 Zbar rho pf) (seq 0 k).
Proof.
  intros LZ LP HP Hg HZ HPM Hb Es Hs. pose proof (sQ_gt1 S OK) as HQ.
  rewrite <- (lam_eq k pi g0 beta Z0 Zbar u w rho b tau0 sigma pf) by assumption.
  assert (Zg : forall i, In i (seq 0 k) -> in_group S (at_ Z0 i)) by (intros i Hi; apply in_seq in Hi; apply HZ; lia).
  rewrite fold_big; [|intros i Hi; specialize (Zg i Hi); unfold pt_mul; in_grp|now apply in_group_1].
  assert (GB : in_group S (big (fun i => pt_mul S (at_ Z0 i) (sec_sub S (w (nth i (perm_inv pi) 0%nat)) (u i))) (seq 0 k))).
  { apply big_group. intros i Hi. specialize (Zg i Hi). unfold pt_mul. in_grp. }
  unfold pt_add, pt_mul in *. f_equal; [f_equal|].
  - unfold pt_null. grpS S.
  - apply zexp_eqm; [assumption|]. apply (fold_zsum_mul w (fun i => at_ beta (nth i pi 0%nat))).
  - apply zexp_eqm; [assumption|]. etransitivity; [apply (fold_zsum_mul b (at_ beta))|].
    unfold eqm, sec_neg. now rewrite Z.add_mod_idemp_l by lia.
Qed.

Theorem ps_complete H k pi g h beta X Y Xbar Ybar rn pf :
  in_group S g -> in_group S h -> length X = k -> length Y = k -> length Xbar = k -> length Ybar = k ->
  all_group X -> all_group Y -> Permutation pi (seq 0 k) ->
  permuted g beta X Xbar pi -> permuted h beta Y Ybar pi ->
  ps_prove S H k pi g h beta X Y rn = Some pf ->
  wf_proof k pf /\ ps_verify S H k g h X Y Xbar Ybar pf = Some true.
Proof.
  intros Hg Hh LX LY LXb LYb GX GY HP PX PY E.
  pose proof (Permutation_length HP) as LP. rewrite seq_length in LP.
  unfold ps_prove, ps_steps in E. destruct (Nat.leb_spec k 1) as [|K]; [discriminate|].
  destruct (negb (Nat.eqb k (length pi)) || negb (Nat.eqb k (length beta))); [discriminate|].
  cbv zeta in E. cbn [psGamma psA psC psU psW psL1 psL2 psD psSigma psTau] in E.
  set (u := at_ (pu rn)) in *. set (w := at_ (pw rn)) in *. set (a := at_ (pa rn)) in *.
  set (gamma := pgamma rn) in *.
  set (Gamma := pt_mul S g gamma) in *.
  match type of E with context [PsProof Gamma ?A0 ?C0 ?U0 ?W0 ?L10 ?L20 [] [] 0 (SsProof [] [] [] [])] =>
    set (A := A0) in *; set (C := C0) in *; set (U := U0) in *; set (W := W0) in *; set (L1 := L10) in *; set (L2 := L20) in * end.
  set (tr1 := enc_p1 S _) in *. set (rho := H tr1) in *.
  set (b := fun i => sec_sub S (rho i) (u i)) in *.
  match type of E with context [tr1 ++ enc_pts S ?D0] => set (D := D0) in * end.
  match type of E with context [ss_prove S H g gamma ?r0 ?s0 _ (_ ++ enc_secs S ?sg ++ enc_secret S ?ta)] =>
    set (s := s0) in *; set (r := r0) in *; set (sigma := sg) in *; set (tau := ta) in * end.
  match type of E with match ?m with _ => _ end = _ => destruct m as [ss|] eqn:ES; [|discriminate] end.
  injection E as <-.
  set (pf := PsProof Gamma A C U W L1 L2 D sigma tau ss).
  assert (T1 : enc_p1 S pf = tr1) by reflexivity.
  assert (Lr : length r = k) by apply tab_length.
  assert (GU : good_pts k U) by (apply tab_good; intros; unfold pt_mul; in_grp).
  assert (Hlt : forall i, (i < k)%nat -> (nth i pi 0 < k)%nat) by (intros; now apply perm_nth_lt).
  assert (GA : forall base Z0, in_group S base -> length Z0 = k -> all_group Z0 -> forall f v,
    in_group S (pt_add S (fold_left (fun acc i => pt_add S acc (pt_mul S (at_ Z0 i) (f i))) (seq 0 k) pt_null) (pt_mul S base v))).
  { intros base Z0 Hb LZ GZ f v. rewrite fold_big.
    - assert (in_group S (big (fun i => pt_mul S (at_ Z0 i) (f i)) (seq 0 k))).
      { apply big_group. intros i Hi. apply in_seq in Hi. unfold pt_mul. assert (in_group S (at_ Z0 i)) by (apply GZ; lia). in_grp. }
      unfold pt_add, pt_mul, pt_null. in_grp.
    - intros i Hi. apply in_seq in Hi. unfold pt_mul. assert (in_group S (at_ Z0 i)) by (apply GZ; lia). in_grp.
    - now apply in_group_1. }
  assert (WF : wf_proof k pf).
  { destruct (ss_prove_wf _ _ _ _ _ _ _ _ Hg ES) as (WX & WY & WT & WA). rewrite Lr in *.
    constructor; cbn [pf psGamma psA psC psU psW psL1 psL2 psD psSigma psTau psSS]; try assumption.
    - unfold Gamma, pt_mul. in_grp.
    - apply tab_good; intros; unfold pt_mul; in_grp.
    - apply tab_good; intros; unfold pt_mul; in_grp.
    - apply tab_good; intros; unfold pt_mul; in_grp.
    - now apply GA.
    - now apply GA.
    - apply tab_good; intros; unfold pt_mul; in_grp.
    - apply tab_secs; intros. now apply sec_range_add.
    - apply fold_secret. left. destruct k; [lia|discriminate]. }
  split; [exact WF|].
  assert (GXb : all_group Xbar).
  { intros i Hi. rewrite PX by lia. assert (in_group S (at_ X (nth i pi 0%nat))) by (apply GX; rewrite LX; apply Hlt; lia). in_grp. }
  assert (GYb : all_group Ybar).
  { intros i Hi. rewrite PY by lia. assert (in_group S (at_ Y (nth i pi 0%nat))) by (apply GY; rewrite LY; apply Hlt; lia). in_grp. }
  rewrite ps_verify_spec; try assumption; [|apply (wfU k pf WF)|apply (wfU k pf WF)].
  f_equal. rewrite !andb_true_iff. repeat split.
  - cbn [pf psGamma psSS]. rewrite T1. unfold enc_p3, enc_p5. cbn [pf psD psSigma psTau].
    rewrite app_assoc. apply (ss_complete S OK H g gamma r s (ptheta rn)) with (pi := pi); try assumption.
    + now rewrite Lr.
    + intros i Hi. rewrite Lr in Hi. unfold s. rewrite at_tab by assumption. unfold eqm, sec_mul.
      pose proof (sQ_gt1 S OK). apply Z.mod_mod. lia.
  - apply forallb_forall. intros i Hi. apply in_seq in Hi. unfold check33. cbn [pf psGamma psSigma psW psD].
    unfold sigma, W, D, Gamma. rewrite !at_tab by lia. apply Z.eqb_eq. grpS S.
  - apply Z.eqb_eq. rewrite T1. fold rho.
    apply (lam_check k pi g beta X Xbar u w rho b (ptau0 rn) sigma pf); try assumption; try reflexivity.
    intros i Hi. unfold sigma. now rewrite at_tab by assumption.
  - apply Z.eqb_eq. rewrite T1. fold rho.
    apply (lam_check k pi h beta Y Ybar u w rho b (ptau0 rn) sigma pf); try assumption; try reflexivity.
    intros i Hi. unfold sigma. now rewrite at_tab by assumption.
Qed.

(** The prover panics only if gamma is not invertible or the challenge of the embedded
    argument meets one of the r_i. *)
Lemma ps_prove_some H k pi g h beta X Y rn :
  (2 <= k)%nat -> Permutation pi (seq 0 k) -> length beta = k -> unit (pgamma rn) (sQ S) ->
  exists pf0 r s tr, ps_steps S H k pi g h beta X Y rn = Some (pf0, r, s, tr) /\ length r = k /\
   ((forall i, (i < k)%nat -> unit (at_ r i - ss_challenge S H g r s tr) (sQ S)) ->
    exists pf, ps_prove S H k pi g h beta X Y rn = Some pf).
Proof.
  intros K HP LB UG. pose proof (Permutation_length HP) as LP. rewrite seq_length in LP.
  assert (E : exists pf0 r tr, ps_steps S H k pi g h beta X Y rn =
    Some (pf0, r, tab k (fun i => sec_mul S (pgamma rn) (at_ r (nth i pi 0%nat))), tr) /\ length r = k).
  { unfold ps_steps. destruct (Nat.leb_spec k 1); [lia|]. rewrite LP, LB, Nat.eqb_refl. cbn [negb orb]. cbv zeta.
    match goal with |- context [sec_mul S (pgamma rn) (at_ ?r0 _)] => set (r := r0) end.
    do 3 eexists. split; [reflexivity|]. apply tab_length. }
  destruct E as (pf0 & r & tr & E & Lr). do 4 eexists. split; [exact E|]. split; [exact Lr|].
  intros HU. unfold ps_prove. rewrite E.
  destruct (ss_prove_some S OK H g (pgamma rn) r (tab k (fun i => sec_mul S (pgamma rn) (at_ r (nth i pi 0%nat))))
    (ptheta rn) tr pi) as (ss & ->); rewrite ?Lr, ?tab_length; auto.
  - intros i Hi. rewrite at_tab by assumption. unfold eqm, sec_mul. apply Z.mod_mod. pose proof (sQ_gt1 S OK). lia.
  - eexists. reflexivity.
Qed.

(** ** Reading back what was written *)
Lemma read_enc_pts l rest : forall n, good_pts n l -> read_pts S n (enc_pts S l ++ rest) = Some (l, rest).
Proof.
  induction l as [|a l IH]; intros n [L GA]; cbn in L; subst n; [reflexivity|].
  assert (Ga : in_group S a) by (apply (GA 0%nat); cbn; lia).
  cbn [read_pts]. unfold enc_pts. cbn [map concat]. rewrite <- app_assoc.
  pose proof (in_group_reduced S _ Ga) as R. unfold reduced in R.
  assert (La : length (enc_point S a) = plen S) by (apply enc_point_length; [assumption|lia]).
  rewrite app_length, La. destruct (Nat.ltb_spec (plen S + length (concat (map (enc_point S) l) ++ rest)) (plen S)); [lia|].
  rewrite firstn_exact, skipn_exact by assumption. rewrite dec_enc_point by assumption.
  fold (enc_pts S l). rewrite IH; [reflexivity|]. split; [reflexivity|].
  intros i Hi. apply (GA (Datatypes.S i)). cbn. lia.
Qed.
Lemma read_enc_pt a rest : in_group S a -> read_pts S 1 (enc_point S a ++ rest) = Some ([a], rest).
Proof.
  intros Ga. replace (enc_point S a) with (enc_pts S [a]) by (cbn; apply app_nil_r).
  apply read_enc_pts. split; [reflexivity|]. intros [|i] Hi; [exact Ga|cbn in Hi; lia].
Qed.
Lemma read_enc_secs l rest : forall n, good_secs n l -> read_secs S n (enc_secs S l ++ rest) = Some (l, rest).
Proof.
  induction l as [|a l IH]; intros n [L GA]; cbn in L; subst n; [reflexivity|].
  assert (Ga : is_secret S a) by (apply (GA 0%nat); lia).
  cbn [read_secs]. unfold enc_secs. cbn [map concat]. rewrite <- app_assoc.
  assert (La : length (enc_secret S a) = slen S) by (apply enc_secret_length; assumption).
  rewrite app_length, La. destruct (Nat.ltb_spec (slen S + length (concat (map (enc_secret S) l) ++ rest)) (slen S)); [lia|].
  rewrite firstn_exact, skipn_exact by assumption. rewrite dec_enc_secret by assumption.
  fold (enc_secs S l). rewrite IH; [reflexivity|]. split; [reflexivity|].
  intros i Hi. apply (GA (Datatypes.S i)). lia.
Qed.
Lemma read_enc_sec a rest : is_secret S a -> read_secs S 1 (enc_secret S a ++ rest) = Some ([a], rest).
Proof.
  intros Ga. replace (enc_secret S a) with (enc_secs S [a]) by (cbn; apply app_nil_r).
  apply read_enc_secs. split; [reflexivity|]. intros [|i] Hi; [exact Ga|lia].
Qed.

Lemma ps_parse_enc k pf rest : wf_proof k pf -> ps_parse S k (enc_proof S pf ++ rest) = Some pf.
Proof.
  intros WF. destruct WF. unfold ps_parse, enc_proof, enc_p1, enc_p3, enc_p5, enc_ss. rewrite <- !app_assoc.
  rewrite read_enc_pt by assumption. rewrite !read_enc_pts by assumption. rewrite read_enc_pt by assumption.
  rewrite read_enc_pt by assumption. rewrite read_enc_pts by assumption.
  rewrite read_enc_secs by assumption. rewrite read_enc_sec by assumption.
  rewrite !read_enc_pts by assumption. rewrite read_enc_secs by assumption.
  destruct pf as [? ? ? ? ? ? ? ? ? ? []]. reflexivity.
Qed.

(** ** A transcript without a shuffle *)
(** The embedded argument for the vectors r = s = 0 and gamma = 1. *)
Definition forge_ss (H : oracle) (k : nat) (tr : bytes) : ss_proof :=
  let X := repeat 1 k in
  let Th := repeat 1 (2 * k) in
  let c := H ((tr ++ enc_pts S X ++ enc_pts S X) ++ enc_pts S Th) 0%nat in
  SsProof X X Th (repeat (c mod sQ S) (2 * k - 1)).

Lemma repeat_at (v : Z) n i : (i < n)%nat -> at_ (repeat v n) i = v.
Proof. revert i. induction n as [|n IH]; intros [|i] Hi; try lia; [reflexivity|]. cbn. apply IH. lia. Qed.
Lemma repeat_good v n : in_group S v -> good_pts n (repeat v n).
Proof. intros Hv. split; [apply repeat_length|]. intros i Hi. rewrite repeat_length in Hi. now rewrite repeat_at. Qed.
Lemma repeat_secs v n : is_secret S v -> good_secs n (repeat v n).
Proof. intros Hv. split; [apply repeat_length|]. intros i Hi. now rewrite repeat_at. Qed.

Lemma forge_ss_ok H g k tr : in_group S g -> (2 <= k)%nat -> ss_verify S H g g (forge_ss H k tr) tr = true.
Proof.
  intros Hg K. unfold ss_verify, forge_ss. cbn [ssX ssY ssTheta ssAlpha]. rewrite !repeat_length, !Nat.eqb_refl.
  destruct (Nat.leb_spec k 1); [lia|]. cbn [negb orb].
  set (t := H (tr ++ _) 0%nat). set (c := H _ 0%nat). clearbody t c.
  pose proof (in_group_1 S OK) as H1.
  assert (TV : forall A a b, in_group S A -> eqm (sQ S) a b -> thver S A A 1 a b = true).
  { intros A a b HA E. unfold thver. apply Z.eqb_eq. unfold pt_add, pt_mul. rewrite (zexp_eqm A a b HA E). grpS S. }
  assert (HC : eqm (sQ S) c (c mod sQ S)) by (unfold eqm; rewrite Z.mod_mod; [reflexivity|pose proof (sQ_gt1 S OK); lia]).
  assert (GX : in_group S (pt_add S 1 (pt_mul S g (sec_neg S t)))) by (unfold pt_add, pt_mul; in_grp).
  rewrite !andb_true_iff. split; [split; [split|]|].
  - rewrite !at_tab, !repeat_at by lia. now apply TV.
  - apply forallb_forall. intros i Hi. apply in_seq in Hi. rewrite !at_tab, !repeat_at by lia. now apply TV.
  - apply forallb_forall. intros i Hi. apply in_seq in Hi. rewrite !repeat_at by lia. now apply TV.
  - rewrite !repeat_at by lia. apply TV; [assumption|now symmetry].
Qed.

(** The proof for outputs X_i^(e i), Y_i^(e i); [f i] is the inverse of [e i]. *)
Definition forge_ps (H : oracle) (k : nat) (g : Z) (f : nat -> Z) : ps_proof :=
  let one := repeat 1 k in
  let pre := PsProof g one one one one 1 1 [] [] 0 (SsProof [] [] [] []) in
  let rho := H (enc_p1 S pre) in
  let sigma := tab k (fun i => sec_mul S (rho i) (f i)) in
  let D := tab k (fun i => pt_mul S g (at_ sigma i)) in
  let tr5 := enc_p1 S pre ++ enc_pts S D ++ enc_secs S sigma ++ enc_secret S 0 in
  PsProof g one one one one 1 1 D sigma 0 (forge_ss H k tr5).

Lemma forge_ps_wf H k g f : in_group S g -> wf_proof k (forge_ps H k g f).
Proof.
  intros Hg. pose proof (in_group_1 S OK) as H1. pose proof (sQ_gt1 S OK) as HQ. unfold forge_ps, forge_ss.
  constructor; cbn [psGamma psA psC psU psW psL1 psL2 psD psSigma psTau psSS ssX ssY ssTheta ssAlpha];
    try assumption; try (now apply repeat_good).
  - apply tab_good. intros. unfold pt_mul. in_grp.
  - apply tab_secs. intros. now apply sec_range_mul.
  - unfold is_secret. lia.
  - apply repeat_secs. now apply sec_range_mod.
Qed.

Lemma forge_ps_ok H k g h X Y Xbar Ybar e f :
  (2 <= k)%nat -> in_group S g -> in_group S h -> length X = k -> length Y = k -> length Xbar = k -> length Ybar = k ->
  all_group X -> all_group Y ->
  (forall i, (i < k)%nat -> at_ Xbar i = zexp (sP S) (at_ X i) (e i) /\ at_ Ybar i = zexp (sP S) (at_ Y i) (e i)
     /\ eqm (sQ S) (e i * f i) 1) ->
  ps_verify S H k g h X Y Xbar Ybar (forge_ps H k g f) = Some true.
Proof.
  intros K Hg Hh LX LY LXb LYb GX GY HE. pose proof (forge_ps_wf H k g f Hg) as WF. pose proof (sQ_gt1 S OK) as HQ.
  pose proof (in_group_1 S OK) as H1.
  assert (GXb : all_group Xbar).
  { intros i Hi. rewrite (proj1 (HE i ltac:(lia))). assert (in_group S (at_ X i)) by (apply GX; lia). in_grp. }
  assert (GYb : all_group Ybar).
  { intros i Hi. rewrite (proj1 (proj2 (HE i ltac:(lia)))). assert (in_group S (at_ Y i)) by (apply GY; lia). in_grp. }
  rewrite ps_verify_spec; try assumption; [|apply (wfU k _ WF)|apply (wfU k _ WF)].
  assert (PH : forall Z0 Zbar, all_group Z0 -> length Z0 = k ->
    (forall i, (i < k)%nat -> at_ Zbar i = zexp (sP S) (at_ Z0 i) (e i) /\ eqm (sQ S) (e i * f i) 1) ->
    big (phi_term Z0 Zbar (H (enc_p1 S (forge_ps H k g f))) (forge_ps H k g f)) (seq 0 k) = 1).
  { intros Z0 Zbar GZ LZ HZ. transitivity (big (fun _ => 1) (seq 0 k)).
    - apply big_ext. intros i Hi. apply in_seq in Hi. destruct (HZ i ltac:(lia)) as (EZ & Ei).
      assert (in_group S (at_ Z0 i)) by (apply GZ; lia).
      unfold phi_term. rewrite EZ. cbn [forge_ps psSigma]. rewrite at_tab by lia.
      change (enc_p1 S (forge_ps H k g f)) with
        (enc_p1 S (PsProof g (repeat 1 k) (repeat 1 k) (repeat 1 k) (repeat 1 k) 1 1 [] [] 0 (SsProof [] [] [] []))).
      set (rho := H _ i). rewrite zexp_mul by (try apply in_group_unit; try assumption; apply sP_gt1; assumption).
      rewrite (zexp_eqm _ _ rho) by (try assumption;
        unfold eqm, sec_mul in *; rewrite Z.mul_mod_idemp_r by lia;
        replace (e i * (rho * f i)) with (rho * (e i * f i)) by ring;
        rewrite (eqm_mulr (sQ S) rho _ _ ltac:(lia) Ei); f_equal; ring).
      grpS S.
    - generalize (seq 0 k). induction l as [|i r IH]; cbn [big]; [reflexivity|]. rewrite IH.
      unfold mulm. rewrite Z.mul_1_l, Z.mod_1_l; [reflexivity|apply sP_gt1; assumption]. }
  f_equal. rewrite !andb_true_iff. split; [split; [split|]|].
  - cbn [forge_ps psGamma psSS]. apply forge_ss_ok; assumption.
  - apply forallb_forall. intros i Hi. apply in_seq in Hi. unfold check33. cbn [forge_ps psGamma psSigma psW psD].
    rewrite repeat_at, !at_tab by lia. apply Z.eqb_eq. grpS S.
  - rewrite PH; [|assumption..|intros i Hi; destruct (HE i Hi) as (? & ? & ?); split; assumption].
    cbn [forge_ps psL1 psTau]. apply Z.eqb_eq. grpS S.
  - rewrite PH; [|assumption..|intros i Hi; destruct (HE i Hi) as (? & ? & ?); split; assumption].
    cbn [forge_ps psL2 psTau]. apply Z.eqb_eq. grpS S.
Qed.

End PS.
