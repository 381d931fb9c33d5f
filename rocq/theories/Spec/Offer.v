(* C117: what is in a tree of directories. *)
From Coq Require Import String Ascii.
From Verif.Lib Require Import Base.
From Verif.Model Require Import Offer.
Local Open Scope list_scope.
Local Open Scope string_scope.

(* [under n p x]: x is in the tree n, at the path p *)
Inductive under : node -> list string -> node -> Prop :=
| Here n : under n [] n
| There d l c p x : In c l -> under c p x -> under (Dir d l) (name c :: p) x.
(* The names in each directory are different, and no name has a slash *)
Inductive proper : node -> Prop :=
| PFile x b : proper (File x b)
| PDir d l : NoDup (map name l) -> (forall c, In c l -> proper c /\ ~ In "/"%char (list_ascii_of_string (name c))) -> proper (Dir d l).
(* Modules in files like amp.py, but not __init__.py *)
Definition module (file : string) : Prop := (exists stem, file = append stem ".py") /\ ~ exists r, file = append "__" r.
(* Public functions do not begin with an underscore *)
Definition public (f : string) : Prop := ~ exists r, f = append "_" r.
(* The import path: the path of the file with dots, without .py *)
Definition imports (path import : string) : Prop := append import ".py" = string_of_list_ascii (map (fun c => if Ascii.eqb c "/" then "." else c)%char (list_ascii_of_string path)).
