(** C59: configuration files. *)
From Coq Require Import ZArith Lia List Bool.
From Coq Require Import Strings.Byte.
From Verif Require Import Bytes Codec Maps Config.
Import ListNotations.

(** ** Specification *)
(** [ls] are the lines of the file [f]: newline-terminated pieces and, unless it is empty, the
    rest; one carriage return at the end of a line is not part of it. *)
Definition without_cr (raw l : bytes) : Prop :=
  raw = l ++ [x0d]%byte \/ (raw = l /\ forall r, raw <> r ++ [x0d]%byte).
Definition raw_lines (f : bytes) (ls : list bytes) : Prop :=
  exists full rest, f = concat (map (fun l : bytes => l ++ [x0a]%byte) full) ++ rest /\
    (forall l, In l full -> ~ In x0a l) /\ ~ In x0a rest /\
    ls = full ++ (match rest with [] => [] | _ => [rest] end).
Definition lines_of (f : bytes) (ls : list bytes) : Prop :=
  exists raw, raw_lines f raw /\ Forall2 without_cr raw ls.
Definition file_lines (file : option bytes) (ls : list bytes) : Prop :=
  match file with None => ls = [] | Some f => lines_of f ls end.
(** The line is key = value, possibly followed by another '=' and anything. *)
Definition entry (l k v : bytes) : Prop :=
  ~ In x3d k /\ ~ In x3d v /\ exists rest, l = k ++ x3d :: v ++ rest /\ (rest = [] \/ exists r, rest = x3d :: r)%byte.
(** [v] is the value on the last line with key [k]. *)
Definition last_entry (ls : list bytes) (k v : bytes) : Prop :=
  exists l1 l l2, ls = l1 ++ l :: l2 /\ entry l k v /\ forall l' v', In l' l2 -> ~ entry l' k v'.
(** No line is too long for the scanner. *)
Definition short_lines (file : option bytes) : Prop :=
  match file with None => True | Some f => forall raw l, raw_lines f raw -> In l raw -> (Z.of_nat (length l) < max_line)%Z end.

(** ** Lemmas *)
Lemma split_nonempty sep l : split sep l <> [].
Proof. destruct l as [|b r]; cbn; [discriminate|]. destruct (Byte.eqb b sep); [discriminate|]. destruct (split sep r); discriminate. Qed.
Lemma byte_eqb_iff a b : Byte.eqb a b = true <-> a = b.
Proof. split; [apply Byte.byte_dec_bl|apply Byte.byte_dec_lb]. Qed.

Lemma split_cons (sep : byte) (l r : bytes) : ~ In sep l -> split sep (l ++ sep :: r) = l :: split sep r.
Proof.
  induction l as [|b l IH]; intros N; cbn.
  - now rewrite (proj2 (byte_eqb_iff sep sep) eq_refl).
  - destruct (Byte.eqb b sep) eqn:E; [apply byte_eqb_iff in E; exfalso; apply N; now left|].
    rewrite IH; [reflexivity|]. intros I. apply N. now right.
Qed.
Lemma split_none (sep : byte) (l : bytes) : ~ In sep l -> split sep l = [l].
Proof.
  induction l as [|b l IH]; intros N; cbn; [reflexivity|].
  destruct (Byte.eqb b sep) eqn:E; [apply byte_eqb_iff in E; exfalso; apply N; now left|].
  rewrite IH; [reflexivity|]. intros I. apply N. now right.
Qed.
Lemma split_full (sep : byte) (full : list bytes) (rest : bytes) : (forall l, In l full -> ~ In sep l) -> ~ In sep rest ->
  split sep (concat (map (fun l : bytes => l ++ [sep]) full) ++ rest) = full ++ [rest].
Proof.
  intros F R. induction full as [|l full IH]; cbn.
  - now apply split_none.
  - rewrite <- !app_assoc. cbn [app]. rewrite split_cons by (apply F; now left). f_equal. apply IH. intros l' I. apply F. now right.
Qed.
Lemma split_exists (sep : byte) (f : bytes) : exists (full : list bytes) (rest : bytes), f = concat (map (fun l : bytes => l ++ [sep]) full) ++ rest /\
  (forall l, In l full -> ~ In sep l) /\ ~ In sep rest.
Proof.
  induction f as [|b f (full & rest & -> & F & R)]; [exists [], []; cbn; auto|].
  destruct (Byte.eqb b sep) eqn:E.
  - apply byte_eqb_iff in E. subst b. exists ([] :: full), rest. split; [reflexivity|]. split; [|assumption].
    intros l [<-|I]; [intros X; destruct X|now apply F].
  - assert (b <> sep) by (intros ->; rewrite (proj2 (byte_eqb_iff sep sep) eq_refl) in E; discriminate).
    destruct full as [|l full].
    + exists [], (b :: rest). split; [reflexivity|]. split; [intros l []|]. intros [|]; [contradiction|now apply R].
    + exists ((b :: l) :: full), rest. split; [reflexivity|]. split; [|assumption].
      intros l' [<-|I']; [|apply F; now right]. intros [|I']; [contradiction|]. revert I'. apply F. now left.
Qed.

Lemma scan_raw f raw : raw_lines f raw ->
  (match rev (split nl f) with [] :: r => rev r | _ => split nl f end) = raw.
Proof.
  intros (full & rest & -> & F & R & ->). change [x0a]%byte with [nl].
  match goal with |- context [split nl ?x] => replace (split nl x) with (full ++ [rest]) by (symmetry; exact (split_full nl full rest F R)) end.
  rewrite rev_app_distr. cbn [rev app].
  destruct rest; [now rewrite rev_involutive, app_nil_r|reflexivity].
Qed.
Lemma raw_exists f : exists raw, raw_lines f raw.
Proof.
  destruct (split_exists nl f) as (full & rest & E & F & R). eexists. exists full, rest. repeat split; assumption.
Qed.
Lemma drop_cr_spec raw : without_cr raw (drop_cr raw).
Proof.
  unfold drop_cr. destruct (rev raw) as [|b r] eqn:E.
  - right. split; [reflexivity|]. intros r0 ->. rewrite rev_app_distr in E. discriminate.
  - apply (f_equal (@rev byte)) in E. rewrite rev_involutive in E. cbn in E. subst raw.
    destruct (Byte.eqb b cr) eqn:E.
    + apply byte_eqb_iff in E. subst. now left.
    + right. split; [reflexivity|]. intros r0 X. apply app_inj_tail in X. destruct X as [_ ->]. discriminate.
Qed.
Lemma without_cr_fun raw l1 l2 : without_cr raw l1 -> without_cr raw l2 -> l1 = l2.
Proof.
  intros [->|[-> N1]] [E|[E N2]].
  - now apply app_inj_tail in E.
  - exfalso. now apply (N2 l1).
  - exfalso. now apply (N1 l2).
  - assumption.
Qed.

Lemma lines_of_scan f : exists raw, raw_lines f raw /\ lines_of f (map drop_cr raw) /\
  (forall ls, lines_of f ls -> ls = map drop_cr raw) /\
  scan_lines f = if existsb (fun l => (max_line <=? Z.of_nat (length l))%Z) raw then None else Some (map drop_cr raw).
Proof.
  destruct (raw_exists f) as (raw & HR). exists raw. split; [assumption|]. split; [|split].
  - exists raw. split; [assumption|]. clear HR. induction raw; cbn; constructor; [apply drop_cr_spec|assumption].
  - intros ls (raw' & HR' & F). rewrite <- (scan_raw f raw' HR'), (scan_raw f raw HR) in F. clear -F.
    induction F; [reflexivity|]. cbn. f_equal; [|assumption]. eapply without_cr_fun; [eassumption|apply drop_cr_spec].
  - unfold scan_lines. now rewrite (scan_raw f raw HR).
Qed.

Lemma entry_split l k v : entry l k v <-> exists r, split eqs l = k :: v :: r.
Proof.
  split.
  - intros (Nk & Nv & rest & -> & HR). change x3d with eqs in *. rewrite (split_cons eqs k (v ++ rest) Nk).
    destruct HR as [->|(r & ->)].
    + rewrite app_nil_r, (split_none eqs v Nv). now exists [].
    + rewrite (split_cons eqs v r Nv). now exists (split eqs r).
  - intros (r & E). destruct (split_exists eqs l) as (full & rest & -> & F & R).
    rewrite (split_full eqs full rest F R) in E. destruct full as [|k0 full]; [discriminate|].
    cbn [app] in E. injection E as -> E. split; [apply F; now left|].
    destruct full as [|v0 full]; cbn [app] in E.
    + injection E as -> <-. split; [assumption|]. exists []. split; [|now left]. cbn. rewrite !app_nil_r, <- app_assoc. reflexivity.
    + injection E as -> <-. split; [apply F; right; now left|].
      exists (eqs :: concat (map (fun l : bytes => l ++ [eqs]) full) ++ rest). split; [|right; eauto].
      cbn. rewrite <- !app_assoc. reflexivity.
Qed.
Lemma no_entry l : (forall k v, ~ entry l k v) <-> ~ In x3d l.
Proof.
  split.
  - intros N I. apply in_split in I. destruct I as (a & b & ->).
    destruct (split_exists eqs (a ++ x3d :: b)) as (full & rest & E & F & R).
    destruct full as [|k full].
    + cbn in E. apply R. rewrite <- E. apply in_elt.
    + rewrite E in N. pose proof (split_full eqs (k :: full) rest F R) as ES.
      destruct full as [|v full]; eapply N; apply entry_split; eexists; exact ES.
  - intros NI k v E. apply NI. destruct E as (_ & _ & rest & -> & _). apply in_elt.
Qed.

Definition entries_last (ls : list bytes) (m0 m : amap bytes bytes) : Prop :=
  forall k v, mget m k = Some v <-> last_entry ls k v \/ (mget m0 k = Some v /\ forall l v', In l ls -> ~ entry l k v').

Lemma last_entry_cons l ls k v : last_entry (l :: ls) k v <->
  last_entry ls k v \/ (entry l k v /\ forall l' v', In l' ls -> ~ entry l' k v').
Proof.
  split.
  - intros (l1 & x & l2 & E & HE & N). destruct l1 as [|y l1]; cbn in E; injection E as -> ->.
    + right. auto.
    + left. exists l1, x, l2. auto.
  - intros [(l1 & x & l2 & -> & HE & N)|[HE N]].
    + exists (l :: l1), x, l2. auto.
    + exists [], l, ls. auto.
Qed.
Lemma last_entry_some ls k : (exists v, last_entry ls k v) \/ (forall l v, In l ls -> ~ entry l k v).
Proof.
  induction ls as [|l ls IH].
  - right. intros l v [].
  - destruct IH as [(v & L)|N]; [left; exists v; apply last_entry_cons; now left|].
    destruct (split eqs l) as [|k0 [|v0 r]] eqn:E.
    + now apply split_nonempty in E.
    + right. intros l' v [<-|I]; [|now apply N]. intros X. apply entry_split in X. destruct X. congruence.
    + destruct (keq k0 k) as [->|NK].
      * left. exists v0. apply last_entry_cons. right. split; [apply entry_split; eauto|exact N].
      * right. intros l' v [<-|I]; [|now apply N]. intros X. apply entry_split in X. destruct X. congruence.
Qed.

Lemma read_lines_spec ls : forall m0,
  (forall m, read_lines ls m0 = Some m -> entries_last ls m0 m) /\
  (read_lines ls m0 = None <-> exists l, In l ls /\ ~ In x3d l).
Proof.
  induction ls as [|l ls IH]; intros m0; cbn [read_lines].
  - split.
    + intros m [= <-] k v. split; [intros H; right; split; [assumption|intros l v' []]|].
      intros [(l1 & x & l2 & E & _)|[H _]]; [destruct l1; discriminate|assumption].
    + split; [discriminate|]. intros (l & [] & _).
  - destruct (split eqs l) as [|k0 [|v0 r]] eqn:E.
    + now apply split_nonempty in E.
    + split; [discriminate|]. split; [|reflexivity]. intros _. exists l. split; [now left|]. apply no_entry.
      intros k v X. apply entry_split in X. destruct X. congruence.
    + assert (HE : entry l k0 v0) by (apply entry_split; eauto).
      assert (HU : forall k v, entry l k v -> k = k0 /\ v = v0).
      { intros k v X. apply entry_split in X. destruct X as (r' & X). split; congruence. }
      destruct (IH (mset m0 k0 v0)) as [H1 H2]. split.
      * intros m EM k v. rewrite (H1 m EM k v), last_entry_cons, mget_mset. destruct (keq k k0) as [->|N].
        { split.
          - intros [L|[[= <-] N]]; [left; now left|]. left. right. auto.
          - intros [[L|[X N]]|[X N]].
            + now left.
            + right. destruct (HU _ _ X) as [_ ->]. auto.
            + exfalso. apply (N l v0); [now left|assumption]. }
        { split.
          - intros [L|[X Y]]; [left; now left|]. right. split; [assumption|]. intros l' v' [<-|I]; [|now apply Y].
            intros Z. apply N. now apply (HU _ _ Z).
          - intros [[L|[X Y]]|[X Y]].
            + now left.
            + exfalso. apply N. now apply (HU _ _ X).
            + right. split; [assumption|]. intros l' v' I. apply Y. now right. }
      * rewrite H2. split.
        { intros (l' & I & N). exists l'. split; [now right|assumption]. }
        { intros (l' & [<-|I] & N); [|eauto]. exfalso. exact (proj2 (no_entry l) N k0 v0 HE). }
Qed.

Lemma read_config_spec file ls m0 : file_lines file ls ->
  (forall m, read_config file m0 = Some m -> entries_last ls m0 m) /\
  (read_config file m0 = None <-> ~ short_lines file \/ exists l, In l ls /\ ~ In x3d l).
Proof.
  destruct file as [f|]; cbn [read_config file_lines short_lines].
  2:{ intros ->. split.
      - intros m [= <-] k v. split; [intros H; right; split; [assumption|intros l v' []]|].
        intros [(l1 & x & l2 & E & _)|[H _]]; [destruct l1; discriminate|assumption].
      - split; [discriminate|]. intros [N|(l & [] & _)]. now elim N. }
  intros HL. destruct (lines_of_scan f) as (raw & HR & _ & HU & ES). apply HU in HL. subst ls. rewrite ES.
  destruct (existsb (fun l => (max_line <=? Z.of_nat (length l))%Z) raw) eqn:EX.
  - split; [discriminate|]. split; [|reflexivity]. intros _. left. intros HS. apply existsb_exists in EX.
    destruct EX as (l & I & L). apply Z.leb_le in L. specialize (HS raw l HR I). lia.
  - destruct (read_lines_spec (map drop_cr raw) m0) as [H1 H2]. split; [exact H1|]. rewrite H2.
    split; [now right|]. intros [N|H]; [|assumption]. exfalso. apply N. intros raw' l HR' I.
    rewrite <- (scan_raw f raw' HR'), (scan_raw f raw HR) in I.
    destruct (Z.ltb_spec (Z.of_nat (length l)) max_line) as [|L]; [assumption|]. exfalso.
    assert (existsb (fun l => (max_line <=? Z.of_nat (length l))%Z) raw = true); [|congruence].
    apply existsb_exists. exists l. split; [assumption|]. now apply Z.leb_le.
Qed.

(** ** C59 *)
(** Both files, present or not, with any contents: the process ends exactly when some line
    of one of them has no '=' (or does not fit the scanner's buffer). *)
Theorem C59_panics_exactly : forall conn local lc ll, file_lines conn lc -> file_lines local ll ->
  (read_all conn local = None <->
   ~ short_lines conn \/ ~ short_lines local \/ exists l, In l (lc ++ ll) /\ ~ In x3d l).
Proof.
  intros conn local lc ll HC HL. unfold read_all.
  destruct (read_config_spec conn lc [] HC) as [C1 C2].
  destruct (read_config conn []) as [m|] eqn:EC.
  - rewrite (proj2 (read_config_spec local ll m HL)). split.
    + intros [N|(l & I & N)]; [auto|]. right. right. exists l. split; [|assumption]. apply in_or_app. now right.
    + intros [N|[N|(l & I & N)]]; [|now left|].
      * exfalso. assert (X : Some m = None :> option (amap bytes bytes)) by (rewrite C2; now left). discriminate X.
      * apply in_app_iff in I. destruct I as [I|I]; [|right; eauto].
        exfalso. assert (X : Some m = None :> option (amap bytes bytes)) by (rewrite C2; right; eauto). discriminate X.
  - split; [|reflexivity]. intros _. destruct (proj1 C2 eq_refl) as [N|(l & I & N)]; [auto|].
    right. right. exists l. split; [|assumption]. apply in_or_app. now left.
Qed.
(** Otherwise every key maps to the value of its last line, the local file coming last. *)
Theorem C59_last_line_wins : forall conn local lc ll m, file_lines conn lc -> file_lines local ll ->
  read_all conn local = Some m -> forall k v, mget m k = Some v <-> last_entry (lc ++ ll) k v.
Proof.
  intros conn local lc ll m HC HL E k v. unfold read_all in E.
  destruct (read_config conn []) as [m1|] eqn:EC; [|discriminate].
  rewrite (proj1 (read_config_spec local ll m1 HL) m E k v), (proj1 (read_config_spec conn lc [] HC) m1 EC k v).
  split.
  - intros [(l1 & l & l2 & -> & X & N)|[[(l1 & l & l2 & -> & X & N)|[X _]] Y]].
    + exists (lc ++ l1), l, l2. split; [now rewrite app_assoc|]. auto.
    + exists l1, l, (l2 ++ ll). split; [now rewrite <- app_assoc|]. split; [assumption|].
      intros l' v' I. apply in_app_iff in I. destruct I; [now apply N|now apply Y].
    + discriminate.
  - intros L. destruct (last_entry_some ll k) as [(v' & L')|N].
    + left. destruct L as (l1 & l & l2 & E1 & X & N). destruct L' as (r1 & r & r2 & -> & X' & N').
      assert (E2 : lc ++ r1 ++ r :: r2 = (lc ++ r1) ++ r :: r2) by apply app_assoc. rewrite E2 in E1.
      assert (l = r /\ l2 = r2) as [-> ->].
      { clear -E1 X X' N N'. set (p := lc ++ r1) in *. clearbody p. revert l1 E1. induction p as [|y p IH]; intros l1 E1.
        - destruct l1 as [|z l1]; cbn in E1; injection E1 as -> ->; [auto|]. exfalso. eapply N'; [apply in_elt|exact X].
        - destruct l1 as [|z l1]; cbn in E1.
          + injection E1 as -> <-. exfalso. eapply N; [apply in_elt|exact X'].
          + injection E1 as -> E1. eapply IH; eassumption. }
      exists r1, r, r2. auto.
    + right. split; [|exact N]. left. destruct L as (l1 & l & l2 & E1 & X & NL).
      destruct (le_lt_dec (length lc) (length l1)) as [LE|LT].
      { exfalso. assert (In l ll).
        { assert (E3 : nth_error (lc ++ ll) (length l1) = Some l) by (rewrite E1, nth_error_app2, Nat.sub_diag by lia; reflexivity).
          rewrite nth_error_app2 in E3 by lia. eapply nth_error_In. exact E3. }
        eapply N; eassumption. }
      exists l1, l, (firstn (length lc - length l1 - 1) l2). split; [|split; [assumption|]].
      * apply (f_equal (firstn (length lc))) in E1. rewrite firstn_app, Nat.sub_diag, firstn_all in E1.
        cbn [firstn] in E1. rewrite app_nil_r in E1. rewrite E1 at 1. rewrite firstn_app, firstn_all2 by lia. f_equal.
        destruct (length lc - length l1)%nat eqn:EN; [lia|]. cbn [firstn]. do 2 f_equal. lia.
      * intros l' v' I. apply NL. rewrite <- (firstn_skipn (length lc - length l1 - 1) l2). apply in_or_app. now left.
Qed.

(** GetParameter without a preceding ReadConfig reads the files in the other order: there
    the connection properties override the local ones. *)
Theorem C59_get_parameter : forall conn local lc ll name v m, file_lines conn lc -> file_lines local ll ->
  get_parameter conn local None name = Some (v, m) ->
  last_entry (ll ++ lc) name v \/ (v = [] /\ forall l v', In l (ll ++ lc) -> ~ entry l name v').
Proof.
  intros conn local lc ll name v m HC HL E. unfold get_parameter in E.
  assert (ER : (olet m := read_config local [] in read_config conn m) = read_all local conn) by reflexivity.
  rewrite ER in E. destruct (read_all local conn) as [m'|] eqn:EM; [|discriminate]. injection E as <- _.
  pose proof (C59_last_line_wins local conn ll lc m' HL HC EM name) as HK.
  destruct (mget m' name) as [v|]; [left; now apply HK|].
  right. split; [reflexivity|]. destruct (last_entry_some (ll ++ lc) name) as [(v & L)|N]; [|exact N].
  apply HK in L. discriminate.
Qed.
(** After ReadConfig it uses what ReadConfig read. *)
Theorem C59_get_parameter_after_read : forall conn local conn' local' lc ll m name v m',
  file_lines conn lc -> file_lines local ll -> read_all conn local = Some m ->
  get_parameter conn' local' (Some m) name = Some (v, m') ->
  m' = m /\ (last_entry (lc ++ ll) name v \/ (v = [] /\ forall l v', In l (lc ++ ll) -> ~ entry l name v')).
Proof.
  intros conn local conn' local' lc ll m name v m' HC HL ER E. unfold get_parameter in E. injection E as <- <-.
  split; [reflexivity|]. pose proof (C59_last_line_wins conn local lc ll m HC HL ER name) as HK.
  destruct (mget m name) as [v|]; [left; now apply HK|].
  right. split; [reflexivity|]. destruct (last_entry_some (lc ++ ll) name) as [(v & L)|N]; [|exact N].
  apply HK in L. discriminate.
Qed.
(** Every file has lines, so the hypotheses above can always be met. *)
Theorem C59_lines_exist : forall file, exists ls, file_lines file ls /\ forall ls', file_lines file ls' -> ls' = ls.
Proof.
  intros [f|]; [|exists []; split; [reflexivity|]; now intros ls' ->].
  destruct (lines_of_scan f) as (raw & _ & H1 & H2 & _). exists (map drop_cr raw). split; assumption.
Qed.
(** "a=1=x\n", "b=2\r\n" and "a=3": a is 3 in the local file, b is 2. *)
Example C59_instance :
  read_all (Some [x61; x3d; x31; x3d; x78; x0a; x62; x3d; x32; x0d; x0a]%byte) (Some [x61; x3d; x33]%byte)
    = Some [([x61], [x33]); ([x62], [x32])]%byte /\
  read_all (Some [x61; x3d; x31; x0a; x0a]%byte) None = None /\ read_all None None = Some [].
Proof. repeat split; vm_compute; reflexivity. Qed.

Print Assumptions C59_panics_exactly.
Print Assumptions C59_last_line_wins.
Print Assumptions C59_get_parameter.
Print Assumptions C59_get_parameter_after_read.
Print Assumptions C59_lines_exist.
