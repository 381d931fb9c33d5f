(* web/htdocs/python/parser: the imports of a saved configuration (PySwitchParser.py 38-48, 152-193,
   misc/AddImportsTransformer.py, misc/RemoveUnusedImportTransformer.py). *)
From Verif.Lib Require Import Base.
From Coq Require Import String Permutation.
Local Open Scope list_scope.

(* Which node an import statement is (nodes are compared by identity): of the file, or added (second component: its number). *)
Definition node := (bool * nat)%type.
(* Statements of a file. [IImport]: from path import name [as bound], ... ; [ILine]: any other simple line with the names it binds
   and uses (a star import binds nothing that libcst knows of); [IBlock]: a function or class with the names used in its head, and
   its body, which is a scope of its own. Other compound statements and lines with several statements are not covered. *)
Inductive item :=
| IImport (i : node) (path : string) (names : list (string * string))
| ILine (binds uses : list string)
| IBlock (uses : list string) (body : list item).

Definition mem (x : string) (l : list string) : bool := existsb (String.eqb x) l.

(* AddImportsTransformer.py:9-20: before the first simple line that is left, also if it is in a block; nothing without a line *)
Definition added (avail : list (string * string)) : list item :=
  map (fun p => IImport (true, fst p) (fst (snd p)) [(snd (snd p), snd (snd p))]) (combine (seq 0 (List.length avail)) avail).
Fixpoint has_line (s : item) : bool :=
  match s with IBlock _ body => existsb has_line body | _ => true end.
Definition add_list (add : item -> item) (news : list item) : list item -> list item :=
  fix go l := match l with
              | [] => []
              | s :: l' => match s with
                           | IBlock _ _ => if has_line s then add s :: l' else s :: go l'
                           | _ => news ++ s :: l'
                           end
              end.
Fixpoint add_item (news : list item) (s : item) : item :=
  match s with
  | IBlock u body => IBlock u (add_list (add_item news) news body)
  | _ => s
  end.
Definition add_imports (avail : list (string * string)) (f : list item) : list item :=
  add_list (add_item (added avail)) (added avail) f.

(* libcst's scope analysis (ScopeProvider): the names a scope binds, and the names used in it or in inner scopes that do not bind
   them. All bindings of a name in a scope get all its references. *)
Definition binds_item (s : item) : list string :=
  match s with IImport _ _ ns => map snd ns | ILine b _ => b | IBlock _ _ => [] end.
Definition binds (f : list item) : list string := flat_map binds_item f.
Fixpoint uses_item (s : item) : list string :=
  match s with
  | IImport _ _ _ => []
  | ILine _ u => u
  | IBlock u body => u ++ filter (fun x => negb (mem x (binds body))) (flat_map uses_item body)
  end.
Definition uses (f : list item) : list string := flat_map uses_item f.

(* RemoveUnusedImportTransformer.py:12-16: the import assignments of all scopes, with "has references" (17) *)
Definition occ := (node * string * bool)%type.
Fixpoint occs_item (refd : string -> bool) (s : item) : list occ :=
  match s with
  | IImport i _ ns => map (fun n => (i, snd n, refd (snd n))) ns
  | ILine _ _ => []
  | IBlock _ body => flat_map (occs_item (fun x => mem x (flat_map uses_item body))) body
  end.
Definition occs (f : list item) : list occ := flat_map (occs_item (fun x => mem x (uses f))) f.

(* RemoveUnusedImportTransformer.py:11-20: the names to remove, by node, going through the assignments in the given order (scopes and
   assignments are sets in libcst, so the order is not determined) *)
Fixpoint unused (imported : list string) (order : list occ) : list (node * string) :=
  match order with
  | [] => []
  | (i, x, r) :: o => if negb r || mem x imported then (i, x) :: unused imported o else unused (x :: imported) o
  end.

Definition node_eqb (a b : node) : bool := Bool.eqb (fst a) (fst b) && (snd a =? snd b)%nat.
Definition is_unused (bad : list (node * string)) (i : node) (x : string) : bool :=
  existsb (fun p => node_eqb (fst p) i && String.eqb (snd p) x) bad.
(* RemoveUnusedImportTransformer.py:22-39; a statement without names is removed *)
Fixpoint remove_item (bad : list (node * string)) (s : item) : list item :=
  match s with
  | IImport i path ns => match filter (fun n => negb (is_unused bad i (snd n))) ns with [] => [] | ns' => [IImport i path ns'] end
  | ILine _ _ => [s]
  | IBlock u body => [IBlock u (flat_map (remove_item bad) body)]
  end.
Definition remove (bad : list (node * string)) (f : list item) : list item := flat_map (remove_item bad) f.

(* PySwitchParser.py:38-48 to_source, for one file; [avail]: the imports generated for it (168-193, 196-345), path and name *)
Definition to_source (avail : list (string * string)) (f f' : list item) : Prop :=
  exists order, Permutation order (occs (add_imports avail f)) /\ f' = remove (unused [] order) (add_imports avail f).
