(** Model of running the commands of a file: cli.py source_cmds and demo. *)
From Coq Require Import String Ascii List Arith ZArith Bool.
From Verif Require Import Base StrModel IoModel CliModel FmtModel MainModel.
Import ListNotations.

(** cli.py 352-360, 370-374: runs are started one after the other until one of them, or the making of its arguments, ends with an error;
    [main] is the error, if any, that ends a run.  The runs that were started, in order, and the error; what is printed is not modelled. *)
Fixpoint run_each (main : list str -> option exn) (l : list (res (list str))) : list (list str) * option exn :=
  match l with
  | [] => ([], None)
  | Err e :: _ => ([], Some e)
  | Ok a :: r => match main a with
                 | Some e => ([a], Some e)
                 | None => let (calls, x) := run_each main r in (a :: calls, x)
                 end
  end.
(** cli.py 353-358: the arguments of command [i]; [parse] is the parser of the command line, of which only the option -o is looked at *)
Definition source_args (parse : list str -> res (option str)) (ic : nat * str) : res (list str) :=
  let (i, c) := ic in
  let a := py_split c in
  do! o <- parse a;
  match o with
  | None => Ok (a ++ [L "-o"; two_digits i ++ L "-out"])
  | Some _ => Ok a
  end.
(** cli.py 352: enumerate *)
Definition enumerate {A} (l : list A) : list (nat * A) := combine (seq 0 (length l)) l.
(** cli.py 349-361 *)
Definition source_cmds (parse : list str -> res (option str)) (main : list str -> option exn) (fs : files) (src : str)
    : list (list str) * option exn :=
  match read_textfile fs src true true false with
  | Err e => ([], Some e)
  | Ok cmd => run_each main (map (source_args parse) (enumerate cmd))
  end.
(** cli.py 373: {i:02d} *)
Definition two_digits_z (i : Z) : str := if (i <? 0)%Z then int_str i else two_digits (Z.to_nat i).
(** cli.py 370-373: the arguments of demonstration [i] *)
Definition demo_args (cmd : list str) (i : Z) : res (list str) :=
  do! c <- pyindex cmd i;
  shlex_split (L "-o " ++ L "demo/" ++ two_digits_z i ++ L "-demo " ++ c).
(** cli.py 363-376 with the file [src]; [d] are the numbers asked for.  The directory demo/ can be made. *)
Definition run_demo (main : list str -> option exn) (fs : files) (src : str) (d : option (list Z)) : list (list str) * option exn :=
  match read_textfile fs src true true false with
  | Err e => ([], Some e)
  | Ok cmd =>
      let d := match d with None => map Z.of_nat (seq 0 (length cmd)) | Some d => d end in
      run_each main (map (demo_args cmd) d)
  end.
