(* What a user expects of a tab with code. *)
From Coq Require Import String.
From Verif.Lib Require Import Base.
From Verif.Model Require Import CodeTab.
Local Open Scope list_scope.

(* What should be in the tab: what the user has typed last, or the code if something has been opened since *)
Definition expected (h : list op) : string := fold_left (fun t o => match o with Open c => c | Type_ t' => t' | _ => t end) h ""%string.
(* The user has typed something which has not been applied, to the code which is open *)
Definition unapplied (opened : bool) (h : list op) : bool * bool :=
  fold_left (fun b o => match o with Open _ => (true, false) | Type_ _ => (fst b, true) | Apply true => (fst b, if fst b then false else snd b) | _ => b end) h (opened, false).
(* The timeouts come before anything else happens *)
Inductive calm : list op -> Prop :=
| calm_nil : calm []
| calm_type h t : calm h -> calm (h ++ [Type_ t])
| calm_other h o : calm h -> calm (h ++ [o; Fire]).
