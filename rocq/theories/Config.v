(** Configuration files: /repo/util/ConfigReader.go. *)
From Coq Require Import ZArith Lia List Bool.
From Coq Require Import Strings.Byte.
From Verif Require Import Bytes Codec Maps.
Import ListNotations.

Definition nl : byte := x0a.
Definition cr : byte := x0d.
Definition eqs : byte := x3d.

(** strings.Split and the search for a newline: the pieces between separators; n
    separators give n + 1 pieces. *)
Fixpoint split (sep : byte) (l : bytes) : list bytes :=
  match l with
  | [] => [[]]
  | b :: r =>
      if Byte.eqb b sep then [] :: split sep r
      else match split sep r with
           | [] => [[b]]
           | p :: ps => (b :: p) :: ps
           end
  end.

(** bufio.ScanLines (external): one trailing '\r' is dropped from a line. *)
Definition drop_cr (l : bytes) : bytes :=
  match rev l with
  | b :: r => if Byte.eqb b cr then rev r else l
  | [] => l
  end.
(** bufio.Scanner (external): the lines of a file; text after the last newline is a line
    if it is not empty.  None = a line does not fit in the 65536-byte buffer
    (bufio.MaxScanTokenSize), which ends in log.Fatal (ConfigReader.go:53-55). *)
Definition max_line : Z := 65536.
Definition scan_lines (f : bytes) : option (list bytes) :=
  let ps := split nl f in
  let ls := match rev ps with
            | [] :: r => rev r
            | _ => ps
            end in
  if existsb (fun l => (max_line <=? Z.of_nat (length l))%Z) ls then None else Some (map drop_cr ls).

(** ConfigReader.go:47-51: the loop of readConfig; s[1] panics when there is no '='. *)
Fixpoint read_lines (ls : list bytes) (m : amap bytes bytes) : option (amap bytes bytes) :=
  match ls with
  | [] => Some m
  | l :: rest =>
      match split eqs l with
      | k :: v :: _ => read_lines rest (mset m k v)
      | _ => None
      end
  end.

(** ConfigReader.go:37-56 readConfig; the file is None when it cannot be opened.  None as
    the result = the process ends (panic or log.Fatal). *)
Definition read_config (file : option bytes) (m : amap bytes bytes) : option (amap bytes bytes) :=
  match file with
  | None => Some m
  | Some f => olet ls := scan_lines f in read_lines ls m
  end.

(** ConfigReader.go:12-17 ReadConfig, with 28-34 readLocalProperties and
    readConnProperties *)
Definition read_all (conn local : option bytes) : option (amap bytes bytes) :=
  olet m := read_config conn [] in read_config local m.

(** ConfigReader.go:19-26 GetParameter; [config] is the package variable (None = nil).  A
    missing key gives the empty string. *)
Definition get_parameter (conn local : option bytes) (config : option (amap bytes bytes)) (name : bytes)
  : option (bytes * amap bytes bytes) :=
  olet m := match config with
            | Some m => Some m
            | None => olet m := read_config local [] in read_config conn m
            end in
  Some (match mget m name with Some v => v | None => [] end, m).
