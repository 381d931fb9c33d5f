(* C91: what changing the actions of the inputs does to inputs.py. *)
From Verif.Lib Require Import Base.
From Verif.Model Require Import Editor Edit.
From Verif.Spec Require Import Editor.
From Coq Require Import String.
Open Scope string_scope.
Local Open Scope list_scope.

(* ---- what inputs.py says about the inputs ---- *)

(* the elements of the list Inputs *)
Definition entries (m : module) : list expr := match lookup m "Inputs" with Some (EList l) => map snd l | _ => [] end.
(* the value for a key of a dictionary *)
Fixpoint entry_value (name : string) (items : list (key * expr)) : option expr :=
  match items with
  | [] => None
  | (KText k, v) :: items => if String.eqb k name then Some v else entry_value name items
  | (KToken _, _) :: items => entry_value name items
  end.
Definition value_in (name : string) (e : expr) : option expr := match e with EDict items => entry_value name items | _ => None end.
(* the entry is for the input n of the hardware *)
Definition entry_of (n : string) (e : expr) : bool := match value_in "assignment" e with Some (EName x) => String.eqb x n | _ => false end.
(* what is set for the input n: its first entry counts *)
Definition setting (m : module) (n name : string) : option expr := match find (entry_of n) (entries m) with Some e => value_in name e | None => None end.
(* the actions of the input n, as they are written: calls, or variables *)
Definition proper (e : expr) : bool := match e with EName x => negb (String.eqb x "None") | _ => true end.
Definition listed_in (v : option expr) : list expr := match v with Some (EList l) => filter proper (map snd l) | _ => [] end.
Definition listed (m : module) (n : string) (hold : bool) : list expr := listed_in (setting m n (if hold then "actionsHold" else "actions")).

(* ---- what the user wants ---- *)

(* the code for an action which has been entered *)
Definition page_code (p : expr * option expr * option expr) : expr :=
  let '(i, c, t) := p in
  EDict ((KText "id", i) :: (match c with Some c => [(KText "color", c)] | None => [] end) ++ (match t with Some t => [(KText "text", t)] | None => [] end)).
Definition value_code (v : value) : expr := match v with VCode e => e | VPages l => EList (map (fun p => (false, page_code p)) l) end.
Definition call (d : definition) : expr := ECall (d_name d) (map (fun x => (false, Some (fst x), value_code (snd x))) (d_args d)).
Definition written (d : definition) : expr := match d_assign d with Some x => EName x | None => call d end.

Definition at_item (lists : string -> bool -> list expr) (x : item) : list expr := match nth_error (lists (fst (fst x)) (snd (fst x))) (snd x) with Some e => [e] | None => [] end.
Definition wanted (e : edit) (lists : string -> bool -> list expr) (k : string) (h : bool) : list expr :=
  let here n hold := String.eqb k n && Bool.eqb h hold in
  let shown g := flat_map (at_item lists) (filter (fun x => Bool.eqb (is_hold x) h) g) in
  match e with
  | Add n hold d => if here n hold then lists k h ++ [written d] else lists k h
  | Remove n hold i => if here n hold then firstn i (lists k h) ++ skipn (S i) (lists k h) else lists k h
  | Replace n hold i d => if here n hold then firstn i (lists k h) ++ written d :: skipn (S i) (lists k h) else lists k h
  | Rehold n hold i d =>
      if here n hold then firstn i (lists k h) ++ skipn (S i) (lists k h) else if here n (negb hold) then lists k h ++ [written d] else lists k h
  | Sort n g => if String.eqb k n then shown g else lists k h
  | Move n n' g g' => if String.eqb k n then shown g else if String.eqb k n' then shown g' else lists k h
  end.
Definition entered (e : edit) : option definition := match e with Add _ _ d | Replace _ _ _ d | Rehold _ _ _ d => Some d | _ => None end.
Definition concerns (e : edit) (k : string) : bool :=
  match e with Add n _ _ | Remove n _ _ | Replace n _ _ _ | Rehold n _ _ _ | Sort n _ => String.eqb k n | Move n n' _ _ => String.eqb k n || String.eqb k n' end.

(* ---- when it works ---- *)

(* a page with id, color and text in this order, the latter two optional *)
Definition plain_page (e : expr) : Prop := exists i c t, e = page_code (i, c, t).
(* a call, or a variable for one; pages are plain *)
Definition good_call (e : expr) : Prop :=
  exists f args, e = ECall f args /\ (f = EName "PagerAction" -> forall s v, In (s, Some "pages", v) args -> exists l, v = EList l /\ Forall (fun x => plain_page (snd x)) l).
Definition good_action (m : module) (e : expr) : Prop := good_call e \/ exists x e', e = EName x /\ lookup m x = Some e' /\ good_call e'.
(* the actions which are written again although they are not changed *)
Definition rewrites (m : module) (e : edit) : list expr :=
  let lists := listed m in
  match e with
  | Add n h _ => lists n h
  | Remove n h i | Replace n h i _ => firstn i (lists n h) ++ skipn (S i) (lists n h)
  | Rehold n h i _ => firstn i (lists n h) ++ skipn (S i) (lists n h) ++ lists n (negb h)
  | Sort _ g => flat_map (at_item lists) g
  | Move _ _ g g' => flat_map (at_item lists) (g ++ g')
  end.
(* items which are there, of one of the inputs *)
Definition items_of (e : edit) : list item := match e with Sort _ g => g | Move _ _ g g' => g ++ g' | _ => [] end.
Definition valid_item (m : module) (e : edit) (x : item) : Prop := concerns e (fst (fst x)) = true /\ (snd x < List.length (listed m (fst (fst x)) (snd (fst x))))%nat.
(* the variable is mentioned once in the file, as the action which is replaced *)
Definition mentioned (m : module) : list string := flat_map (fun s => match s with MAssign _ e => mentions e | MOther _ => [] end) (smalls m).
Definition own_variable (m : module) (e : edit) (x : string) : Prop :=
  count_occ string_dec (mentioned m) x = 1%nat /\
  match e with Replace n h i _ | Rehold n h i _ => nth_error (listed m n h) i = Some (EName x) | _ => False end.

Record editable (m : module) (e : edit) : Prop := {
  (* a file with one statement per line, without circular definitions or other oddities (C68) *)
  ed_simple : simple m;
  ed_tidy : tidy inputs_known m "Inputs";
  ed_acyclic : acyclic m;
  (* Inputs is a list of dictionaries *)
  ed_inputs : exists l, lookup m "Inputs" = Some (EList l);
  ed_direct : forall x, In x (entries m) -> exists items, x = EDict items;
  (* None is not a variable of the file *)
  ed_none : lookup m "None" = None;
  (* the inputs are imported, their actions are written as lists *)
  ed_names : forall k, concerns e k = true -> lookup m k = None;
  ed_lists : forall k (h : bool) v, concerns e k = true -> setting m k (if h then "actionsHold" else "actions") = Some v -> exists l, v = EList l;
  ed_good : Forall (good_action m) (rewrites m e);
  ed_items : Forall (valid_item m e) (items_of e);
  (* an action which is replaced is there *)
  ed_index : forall n h i d, e = Replace n h i d -> (i < List.length (listed m n h))%nat;
  (* an action is dragged to another input, or stays within one *)
  ed_move : forall n k g g', e = Move n k g g' -> n <> k;
  (* a variable which has been entered is new, or that of the replaced action *)
  ed_variable : forall d x, entered e = Some d -> d_assign d = Some x -> x <> "Inputs" /\ x <> "None" /\ (~ assigned m x \/ own_variable m e x)
}.

(* ---- what it does ---- *)

(* the file is opened, the change is made, and the file is saved as m' *)
Definition saved_as (m : module) (e : edit) (m' : module) : Prop :=
  exists n items items', load inputs_known n m "Inputs" = Some (Some (DList items)) /\ change items e = Some items' /\ save "Inputs" (DList items') m = Some m'.
Record changed (m : module) (e : edit) (m' : module) : Prop := {
  (* all inputs have the actions they should have *)
  ch_lists : forall k h, listed m' k h = wanted e (listed m) k h;
  (* all other settings of all inputs are as before *)
  ch_settings : forall k s, ~ In s ["assignment"; "actions"; "actionsHold"] -> setting m' k s = setting m k s;
  (* the entries which are not concerned are where they have been, and nothing else is there *)
  ch_stay : forall i x, nth_error (entries m) i = Some x -> (forall k, concerns e k = true -> entry_of k x = false) -> nth_error (entries m') i = Some x;
  ch_new : forall x, In x (entries m') -> In x (entries m) \/ exists k, concerns e k = true /\ entry_of k x = true;
  (* all variables have the values they had before, apart from the one which has been entered *)
  ch_variables : forall y, y <> "Inputs" -> (forall d, entered e = Some d -> d_assign d <> Some y) -> lookup m' y = lookup m y;
  ch_entered : forall d x, entered e = Some d -> d_assign d = Some x -> lookup m' x = Some (call d)
}.
