(* C69: the imports of a saved configuration. *)
From Verif.Lib Require Import Base.
From Verif.Model Require Import Imports.
From Coq Require Import String.
Local Open Scope list_scope.

(* a file without its imports *)
Fixpoint code_item (s : item) : list item :=
  match s with
  | IImport _ _ _ => []
  | ILine _ _ => [s]
  | IBlock u body => [IBlock u (flat_map code_item body)]
  end.
Definition code (f : list item) : list item := flat_map code_item f.

(* all imports of a file, in all scopes: path, imported name, bound name *)
Fixpoint imports_item (s : item) : list (string * string * string) :=
  match s with
  | IImport _ p ns => map (fun n => (p, fst n, snd n)) ns
  | ILine _ _ => []
  | IBlock _ body => flat_map imports_item body
  end.
Definition imports (f : list item) : list (string * string * string) := flat_map imports_item f.
(* those on module level *)
Definition top_imports (f : list item) : list (string * string * string) :=
  flat_map (fun s => match s with IImport _ p ns => map (fun n => (p, fst n, snd n)) ns | _ => [] end) f.
(* all names used anywhere *)
Fixpoint mentioned_item (s : item) : list string :=
  match s with IImport _ _ _ => [] | ILine _ u => u | IBlock u body => u ++ flat_map mentioned_item body end.
Definition mentioned (f : list item) : list string := flat_map mentioned_item f.

(* A file as it is loaded: the import statements are told apart, none binds a name twice *)
Fixpoint nodes_item (s : item) : list node :=
  match s with IImport i _ _ => [i] | ILine _ _ => [] | IBlock _ body => flat_map nodes_item body end.
Fixpoint distinct_item (s : item) : Prop :=
  match s with
  | IImport _ _ ns => NoDup (map snd ns)
  | ILine _ _ => True
  | IBlock _ body => fold_right (fun s p => distinct_item s /\ p) True body
  end.
Definition loaded (f : list item) : Prop :=
  NoDup (flat_map nodes_item f) /\ (forall i, In i (flat_map nodes_item f) -> fst i = false) /\ Forall distinct_item f.

(* no imports in functions or classes *)
Definition flat_imports (f : list item) : Prop := forall u body, In (IBlock u body) f -> imports body = [].
(* the file starts with a simple line *)
Definition starts_simple (f : list item) : Prop := exists s f', f = s :: f' /\ forall u b, s <> IBlock u b.
(* the import x could come from: of the file, or one of the available ones *)
Definition candidate (avail : list (string * string)) (f : list item) (p n x : string) : Prop :=
  In (p, n, x) (top_imports f) \/ (In (p, n) avail /\ x = n).

(* x is used in s as a name of the module: not one that is bound in the function around it *)
Definition bound_by (x : string) (s : item) : Prop :=
  match s with IImport _ _ ns => exists n, In (n, x) ns | ILine b _ => In x b | IBlock _ _ => False end.
Inductive refers (x : string) : item -> Prop :=
| refers_line b u : In x u -> refers x (ILine b u)
| refers_block u body : In x u -> refers x (IBlock u body)
| refers_inner u body s : In s body -> refers x s -> (forall t, In t body -> ~ bound_by x t) -> refers x (IBlock u body).
Definition needs (f : list item) (x : string) : Prop := exists s, In s f /\ refers x s.
