(* What a user expects of the list of pages, of the names of new pagers and encoder buttons, and of the color fields. *)
From Coq Require Import String Ascii.
From Verif.Lib Require Import Base.
From Verif.Model Require Import Pages.
Local Open Scope list_scope.

Definition ids (l : list page) : list string := map g_id l.

(* A field which is empty is not set *)
Definition field (s : string) : option string := if string_dec s "" then None else Some s.
(* A text is written as a literal in single quotes, without quotes inside *)
Definition quoted (s : string) : string :=
  ("'" ++ string_of_list_ascii (filter (fun c => if in_dec ascii_dec c ["'"%char; "034"%char] then false else true) (list_ascii_of_string s)) ++ "'")%string.

(* The page at index k is replaced, all others stay *)
Definition replaced (k : nat) (f : page -> page) (l l' : list page) : Prop :=
  exists a g b, l = a ++ g :: b /\ length a = k /\ l' = a ++ f g :: b.

(* The intended effect of what the user does on the pages *)
Inductive effect (l : list page) : event -> list page -> Prop :=
  | e_id k s l' : replaced k (fun g => mkPage s (g_color g) (g_text g)) l l' -> effect l (EditId k s) l'
  | e_color k s l' : replaced k (fun g => mkPage (g_id g) (field s) (g_text g)) l l' -> effect l (EditColor k s) l'
  | e_text k s l' : replaced k (fun g => mkPage (g_id g) (g_color g) (Some (quoted s))) l l' -> effect l (EditText k s) l'
  | e_add id : ~ In id (ids l) -> effect l Add (l ++ [mkPage id None None])
  | e_remove k a g b : l = a ++ g :: b -> length a = k -> effect l (Remove k) (a ++ b)
  | e_swap i j l' : length l' = length l -> nth_error l' i = nth_error l j -> nth_error l' j = nth_error l i ->
      (forall k, k <> i -> k <> j -> nth_error l' k = nth_error l k) -> effect l (Swap i j) l'.

(* The event refers to rows which are there *)
Definition possible (l : list page) (e : event) : Prop :=
  match e with
  | EditId k _ | EditColor k _ | EditText k _ | Remove k => k < length l
  | Add => True
  | Swap i j => i < length l /\ j < length l
  end%nat.

(* Numbers which JavaScript can represent exactly *)
Definition small (l : list page) : Prop := forall g n, In g l -> parse_int (g_id g) = Some n -> n < 2 ^ 53.

(* No ID has been edited since the list has been shown anew (by adding a page, or at the beginning) *)
Definition unedited (h : list event) : Prop :=
  exists a b, h = a ++ b /\ (a = [] \/ exists c, a = c ++ [Add]) /\ Forall (fun e => match e with EditId _ _ => False | _ => True end) b.

(* Lower case hexadecimal digits *)
Definition hex_digit (c : ascii) : Prop := In c (list_ascii_of_string "0123456789abcdef").
(* The value of a color picker: # and six lower case hexadecimal digits (HTML: valid lowercase simple color) *)
Definition color_value (s : string) : Prop := exists l, s = String "#" (string_of_list_ascii l) /\ length l = 6%nat /\ Forall hex_digit l.
Definition byte (z : Z) : Prop := 0 <= z < 256.
