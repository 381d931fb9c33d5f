(* C123: what can be chosen. *)
From Coq Require Import String.
From Verif.Lib Require Import Base.
From Verif.Model Require Import Providers.
Local Open Scope list_scope.

(* An action of a client is for the kind of input *)
Definition available (target : string) (l : list client) (e : entry) : Prop :=
  exists c a, In c l /\ In a (c_actions c) /\ a_target a = target /\ e = (c_name c, a_name a).
(* All actions have different names, also those of different clients *)
Definition distinct (l : list client) : Prop := NoDup (map a_name (flat_map c_actions l)).
