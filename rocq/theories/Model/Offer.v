(* Which functions the web application offers (actions, mappings, callbacks): /repo/web/htdocs/js/model/parser/FunctionExtractor.js 23-66 (and ClassNamesExtractor.js 22-66, which is the same)
   and python/parser/misc/FunctionExtractor.py. Left out: parameters and comments. *)
From Coq Require Import String Ascii.
From Verif.Lib Require Import Base.
Local Open Scope list_scope.
Local Open Scope string_scope.

(* A statement on the root level of a module: a function, or anything else *)
Inductive statement := Def (name : string) | Other.
(* The table of contents, with the files it lists *)
Inductive node := File (name : string) (body : list statement) | Dir (name : string) (children : list node).
Definition name (n : node) : string := match n with File x _ | Dir x _ => x end.

(* FunctionExtractor.js 29-34: getChild. Files have no children *)
Definition get_child (n : node) (x : string) : option node := match n with Dir _ l => find (fun c => String.eqb (name c) x) l | File _ _ => None end.
(* 36-45 *)
Fixpoint walk (n : node) (tokens : list string) : option node :=
  match tokens with [] => Some n | t :: r => match get_child n t with Some c => walk c r | None => None end end.
(* String.endsWith, String.startsWith *)
Fixpoint ends_with (suffix s : string) : bool := String.eqb s suffix || match s with String _ r => ends_with suffix r | EmptyString => false end.
(* 53: which files are examined *)
Definition examined (x : string) : bool := ends_with ".py" x && negb (String.prefix "__" x).
(* 51-63: crawl. With the path, what is in the file (FunctionExtractor.py 15-18) *)
Fixpoint crawl (prefix : string) (n : node) : list (string * list statement) :=
  match n with
  | File x body => if examined x then [(prefix, body)] else []
  | Dir _ l => flat_map (fun c => crawl (append prefix (append (if String.eqb prefix "" then "" else "/") (name c))) c) l
  end.
(* FunctionExtractor.py 51: path.replace("/", ".").removesuffix(".py") *)
Fixpoint dots (s : string) : string := match s with EmptyString => EmptyString | String c r => String (if Ascii.eqb c "/" then "." else c)%char (dots r) end.
Definition remove_suffix (suffix s : string) : string := if ends_with suffix s then String.substring 0 (String.length s - String.length suffix) s else s.
(* 40-52: the public functions of a file *)
Definition functions (e : string * list statement) : list (string * string) :=
  flat_map (fun t => match t with Def f => if String.prefix "_" f then [] else [(f, remove_suffix ".py" (dots (fst e)))] | Other => [] end) (snd e).
(* All of them: name and import path. [sub], [target]: the options subPath (at its slashes) and targetPath *)
Definition offered (toc : node) (sub : list string) (target : string) : list (string * string) :=
  match walk toc sub with None => [] | Some n => flat_map functions (crawl target n) end.
