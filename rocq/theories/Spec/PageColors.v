(* C120: in which order pages have been seen. *)
From Coq Require Import String.
From Verif.Lib Require Import Base.
Local Open Scope list_scope.
Local Open Scope string_scope.

(* The different pages of a history, by the text of pager and page, in the order in which they came first *)
Definition seen (h : list (string * string)) : list string :=
  fold_left (fun l q => if existsb (String.eqb (append (fst q) (snd q))) l then l else l ++ [append (fst q) (snd q)])%list h [].
(* The text of an argument which says something *)
Definition says (o : option string) (v : string) : Prop := o = Some v /\ v <> "".
