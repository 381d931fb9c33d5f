(* The browser popup of the web application (load, save, ports, templates): /repo/web/htdocs/js/ui/popups/BrowserEntry.js and BrowserPopup.js.
   Left out: info panel, buttons, selection and layout (BrowserPopup.js 82-130, 195-250), and where the entries come from (Storage.v, Session.v). *)
From Verif.Lib Require Import Base.
From Coq Require Import String.
Local Open Scope list_scope.

(* BrowserEntry.js 4-53: an entry. [e_text]: getText() (132-134); [e_sort]: data.sortString; [e_callable]: isCallable() (187-189) *)
Inductive entry := Entry (e_value : nat) (e_text : string) (e_sort : option string) (e_callable : bool) (e_children : list entry).
Definition value (e : entry) : nat := match e with Entry v _ _ _ _ => v end.
Definition text (e : entry) : string := match e with Entry _ t _ _ _ => t end.
Definition callable (e : entry) : bool := match e with Entry _ _ _ c _ => c end.
Definition children (e : entry) : list entry := match e with Entry _ _ _ _ l => l end.
(* 125-127: getSortString *)
Definition sort_string (e : entry) : string := match e with Entry _ t (Some s) _ _ => if String.eqb s "" then t else s | Entry _ t None _ _ => t end.

(* Entries are referred to by their position below the root, parent is the position without its last index *)
Fixpoint entry_at (t : entry) (pos : list nat) : option entry :=
  match pos with [] => Some t | i :: p => match nth_error (children t) i with Some c => entry_at c p | None => None end end.
(* 58-71: getHierarchicalPath *)
Fixpoint path (t : entry) (pos : list nat) : list string :=
  text t :: match pos with [] => [] | i :: p => match nth_error (children t) i with Some c => path c p | None => [] end end.
(* 76-92: resolvePath *)
Fixpoint find_text (token : string) (l : list entry) : option nat :=
  match l with [] => None | c :: l => if String.eqb (text c) token then Some 0%nat else option_map S (find_text token l) end.
Fixpoint resolve (t : entry) (tokens : list string) : list nat :=
  match tokens with
  | [] => []
  | token :: r =>
    match find_text token (children t) with
    | Some i => match nth_error (children t) i with Some c => i :: resolve c r | None => [] end
    | None => resolve t r
    end
  end.
Definition resolve_path (t : entry) (p : list string) : list nat := resolve t (tl p).

Section Browser.
(* a.localeCompare(b) <= 0 *)
Variable le : string -> string -> bool.
(* options.dontCloseOnSelect *)
Variable stays : bool.

(* BrowserPopup.js 57: what is listed *)
Definition listed (e : entry) : bool := callable e || negb (match children e with [] => true | _ => false end).
(* 135-153: #sort (Array.sort is stable), on the indices of the children *)
Fixpoint insert (x : nat * entry) (l : list (nat * entry)) : list (nat * entry) :=
  match l with
  | [] => [x]
  | y :: r => if le (sort_string (snd x)) (sort_string (snd y)) then x :: l else y :: insert x r
  end.
Definition sort (l : list (nat * entry)) : list (nat * entry) := fold_right insert [] l.
Fixpoint indexed (n : nat) (l : list entry) : list (nat * entry) := match l with [] => [] | e :: r => (n, e) :: indexed (S n) r end.
Definition listing (e : entry) : list (nat * entry) := sort (filter (fun x => listed (snd x)) (indexed 0 (children e))).

(* [b_shown]: the tree of the listing which is shown and the position of the entry whose children are listed; [b_last]: #lastPath; [b_calls]: entries whose onSelect has been called *)
Record browser := mkBrowser { b_shown : option (entry * list nat); b_last : option (list string); b_calls : list entry }.
(* 35-82: browse, for an entry of a tree *)
Definition browse (s : browser) (t : entry) (pos : list nat) : browser :=
  match entry_at t pos with
  | None => s
  | Some e =>
    if callable e then mkBrowser (if stays then b_shown s else None) (b_last s) (b_calls s ++ [e])
    else mkBrowser (Some (t, pos)) (Some (path t pos)) (b_calls s)
  end.
Inductive op :=
(* browse() without entry; the providers return this tree (158-177) *)
| Open (t : entry)
(* A click on an entry of the listing, on one of the path or the back button (BrowserEntry.js 94-120, 146-160, BrowserPopup.js 189-199) *)
| Choose (i : nat) | Up (n : nat)
(* Popup.js *)
| Hide.
Definition step (s : browser) (o : op) : browser :=
  match o with
  | Open t => browse s t (match b_last s with Some p => resolve_path t p | None => [] end)
  | Choose i =>
    match b_shown s with
    | Some (t, pos) => match entry_at t pos with
        | Some e => match nth_error (listing e) i with Some (k, _) => browse s t (pos ++ [k]) | None => s end
        | None => s end
    | None => s
    end
  | Up n => match b_shown s with Some (t, pos) => browse s t (firstn n pos) | None => s end
  | Hide => mkBrowser None (b_last s) (b_calls s)
  end.
Definition run (h : list op) : browser := fold_left step h (mkBrowser None None []).
End Browser.
