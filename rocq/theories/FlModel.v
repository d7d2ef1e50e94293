(** Built-in and user-defined functions: miscellaneous.py, class Functionslist.  Definitions only. *)
From Coq Require Import String Ascii List Arith Bool.
From Verif Require Import Base StrModel TsModel.
Import ListNotations.

(** miscellaneous.py 82-85: os.environ.get('CONDA_PREFIX'), and the directory of sys.executable if the program is frozen *)
Record environment := mkEnv { conda : option str; frozen : option str }.
(** ** miscellaneous.py 81-87: user_function_config.  An empty CONDA_PREFIX counts as none. *)
Definition config_path (e : environment) : option str :=
  match conda e with
  | Some (c :: p) => Some ((c :: p) ++ L "/etc/config_functions_user.txt")
  | _ => match frozen e with
         | Some d => Some (d ++ L "/_internal/craterstats/config_functions_user.txt")
         | None => None
         end
  end.
(** ** miscellaneous.py 70: the built-in functions; [path] is cst.PATH *)
Definition builtin_name (path : str) : str := path ++ L "config/functions.txt".
(** miscellaneous.py 73: the first line that is no comment; gm.file_exists is os.path.isfile *)
Definition user_name (fs : files) (cfg : str) : res (option str) :=
  match file_get fs cfg with
  | None => Ok None
  | Some c => match read_text c false true false with [] => Err IndexError | l :: _ => Ok (Some l) end
  end.
(** ** miscellaneous.py 69-79: the text that is parsed.  The handler at 77-78 refers to a name that is not defined. *)
Definition functions_text (fs : files) (path : str) (e : environment) : res str :=
  do! ls <- read_textfile fs (builtin_name path) false true true;
  let s := join [nl] ls in
  match config_path e with
  | None => Ok s
  | Some cfg =>
      do! uf <- user_name fs cfg;
      match uf with
      | None | Some [] => Ok s
      | Some f => match read_textfile fs f false true true with
                  | Ok us => Ok (s ++ join [nl] us)
                  | Err _ => Err NameError
                  end
      end
  end.
(** miscellaneous.py 69-79: the definitions *)
Definition functions (fs : files) (path : str) (e : environment) : res (option (list (str * tsval))) :=
  do! s <- functions_text fs path e; read_structure s.
(** ** miscellaneous.py 89-93: set_user_functions_config; without a place for the configuration open(None) fails *)
Definition set_user_functions (fs : files) (e : environment) (file : str) : res files :=
  match file with
  | [] => Ok fs
  | _ => match config_path e with
         | Some cfg => Ok (write_textfile fs cfg [L "#path to functions_user.txt"; file] false)
         | None => Err TypeError
         end
  end.
