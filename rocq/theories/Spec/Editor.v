(* C68: what it means to open and save a configuration. *)
From Verif.Lib Require Import Base.
From Verif.Model Require Import Editor.
From Coq Require Import String.
Local Open Scope list_scope.

(* the variables a value mentions directly *)
Fixpoint mentions (e : expr) : list string :=
  match e with
  | EName x => [x]
  | ECall _ args => flat_map (fun a => mentions (snd a)) args
  | EDict items => flat_map (fun a => mentions (snd a)) items
  | EList items => flat_map (fun a => mentions (snd a)) items
  | EOther _ => []
  end.
(* x is the root, or mentioned in the value of such a variable *)
Inductive reached (m : module) (root : string) : string -> Prop :=
| reached_root : reached m root root
| reached_next x e y : reached m root x -> lookup m x = Some e -> In y (mentions e) -> reached m root y.

(* no stars, all dictionary keys double-quoted literals, no positional arguments for functions whose argument names are known *)
Fixpoint plain (known : expr -> list string) (e : expr) : Prop :=
  match e with
  | EName _ | EOther _ => True
  | ECall f args => (fix all l := match l with
                                  | [] => True
                                  | (star, kw, a) :: l' => star = false /\ (known f <> [] -> kw <> None) /\ plain known a /\ all l'
                                  end) args
  | EDict items => (fix all l := match l with
                                 | [] => True
                                 | (k, a) :: l' => (exists s, k = KText s) /\ plain known a /\ all l'
                                 end) items
  | EList items => (fix all l := match l with [] => True | (star, a) :: l' => star = false /\ plain known a /\ all l' end) items
  end.

(* the small statements of a module, without those in blocks *)
Definition smalls (m : module) : list small := flat_map (fun s => match s with SLine a r => a :: r | SBlock _ => [] end) m.
Definition assigns (x : string) (s : small) : Prop := exists ts e, s = MAssign ts e /\ In (TName x) ts.
(* there is at most one assignment to x *)
Definition once (m : module) (x : string) : Prop :=
  forall l1 l2 s, smalls m = l1 ++ s :: l2 -> assigns x s -> forall s', In s' (l1 ++ l2) -> ~ assigns x s'.

(* A tidy configuration: every variable the root depends on is assigned once, has a plain value, and this is not just the name of
   another variable of the file; apart from the root, no variable is an empty list. *)
Definition tidy (known : expr -> list string) (m : module) (root : string) : Prop :=
  forall x e, reached m root x -> lookup m x = Some e ->
    once m x /\ plain known e /\ (forall y, e = EName y -> lookup m y = None) /\ (x <> root -> e <> EList []).

(* definitions are not circular *)
Definition acyclic (m : module) : Prop :=
  exists rank : string -> nat, forall x e y, lookup m x = Some e -> In y (mentions e) -> lookup m y <> None -> (rank y < rank x)%nat.

(* ---- what is saved ---- *)

(* the code for a value: parts bound to a variable are referred to by it *)
Fixpoint body (d : data) : expr :=
  let ref d := match d with
               | DCall _ _ (Some x) | DDict _ (Some x) | DVal _ (Some x) => EName x
               | _ => body d
               end in
  match d with
  | DCode e => e
  | DList l => EList (map (fun v => (false, ref v)) l)
  | DCall f args _ => ECall f (map (fun a => (false, fst a, ref (snd a))) args)
  | DDict items _ => EDict (map (fun a => (KText (fst a), ref (snd a))) items)
  | DVal v _ => ref v
  end.
Definition bound (d : data) : option string :=
  match d with DCall _ _ a | DDict _ a | DVal _ a => a | _ => None end.
(* the values within d that are bound to a variable, inner ones first; [inner]: without d itself *)
Fixpoint parts (d : data) : list (string * data) :=
  (match d with
   | DCode _ => []
   | DList l => flat_map parts l
   | DCall _ args _ => flat_map (fun a => parts (snd a)) args
   | DDict items _ => flat_map (fun a => parts (snd a)) items
   | DVal v _ => parts v
   end) ++ match bound d with Some x => [(x, d)] | None => [] end.
Definition inner (d : data) : list (string * data) :=
  match d with
  | DCode _ => []
  | DList l => flat_map parts l
  | DCall _ args _ => flat_map (fun a => parts (snd a)) args
  | DDict items _ => flat_map (fun a => parts (snd a)) items
  | DVal v _ => parts v
  end.
(* a variable stands for the same code wherever it occurs, and is not the root *)
Definition consistent (root : string) (d : data) : Prop :=
  (forall x a b, In (x, a) (inner d) -> In (x, b) (inner d) -> body a = body b) /\ (forall a, ~ In (root, a) (inner d)).
(* no empty list bound to a variable *)
Definition no_empty (d : data) : Prop := forall x v a, In (x, DVal v a) (inner d) -> v <> DList [].

(* every statement is kept, in order; only the values assigned to the given variables may differ, and new assignments to such
   variables may be there *)
Inductive kept_small (names : list string) : small -> small -> Prop :=
| ks_same s : kept_small names s s
| ks_value ts e e' x : In x names -> In (TName x) ts -> kept_small names (MAssign ts e) (MAssign ts e').
Inductive kept (names : list string) : module -> module -> Prop :=
| kept_nil : kept names [] []
| kept_block c m m' : kept names m m' -> kept names (SBlock c :: m) (SBlock c :: m')
| kept_line a r a' r' m m' : kept_small names a a' -> Forall2 (kept_small names) r r' -> kept names m m' ->
    kept names (SLine a r :: m) (SLine a' r' :: m')
| kept_new x e m m' : In x names -> kept names m m' -> kept names m (line x e :: m').

(* every line holds one statement, every assignment has one target *)
Definition simple (m : module) : Prop :=
  forall a r, In (SLine a r) m -> r = [] /\ forall ts e, a = MAssign ts e -> exists t, ts = [t].
(* the variable is assigned somewhere in the module *)
Definition assigned (m : module) (x : string) : Prop := exists s, In s (smalls m) /\ assigns x s.

(* a variable that is assigned in the file is used before: running the file fails there *)
Definition used_too_early (m : module) : Prop :=
  exists pre ts e post x, m = pre ++ SLine (MAssign ts e) [] :: post /\ In x (mentions e) /\ ~ assigned pre x /\ assigned m x.

(* ---- positional arguments ---- *)

(* the code with every positional argument turned into a keyword argument, if the name of the parameter at its position is known *)
Fixpoint named (known : expr -> list string) (e : expr) : expr :=
  match e with
  | EName _ | EOther _ => e
  | ECall f args =>
      ECall f ((fix go i l := match l with
                              | [] => []
                              | (star, kw, a) :: l' => (star, match kw with Some k => Some k | None => nth_error (known f) i end, named known a) :: go (S i) l'
                              end) 0%nat args)
  | EDict items => EDict (map (fun a => (fst a, named known (snd a))) items)
  | EList items => EList (map (fun a => (fst a, named known (snd a))) items)
  end.
(* no stars, all dictionary keys double-quoted literals; as Python demands, positional arguments come first *)
Fixpoint regular (e : expr) : Prop :=
  match e with
  | EName _ | EOther _ => True
  | ECall f args => (exists ps ks, args = ps ++ ks /\ (forall a, In a ps -> snd (fst a) = None) /\ (forall a, In a ks -> snd (fst a) <> None)) /\
      (fix all l := match l with [] => True | (star, kw, a) :: l' => star = false /\ regular a /\ all l' end) args
  | EDict items => (fix all l := match l with [] => True | (k, a) :: l' => (exists s, k = KText s) /\ regular a /\ all l' end) items
  | EList items => (fix all l := match l with [] => True | (star, a) :: l' => star = false /\ regular a /\ all l' end) items
  end.
Definition regular_file (m : module) (root : string) : Prop :=
  forall x e, reached m root x -> lookup m x = Some e -> regular e /\ (forall y, e = EName y -> lookup m y = None) /\ (x <> root -> e <> EList []).
