(* What is expected of a search on all ports. *)
From Coq Require Import String.
From Verif.Lib Require Import Base.
From Verif.Model Require Import Scan.
Local Open Scope list_scope.

(* Attempt i answers in time: before its own timeout *)
Definition in_time (i : nat) (l : list event) : Prop := exists a b, l = a ++ Answer i :: b /\ ~ In (Timeout i) a.
(* Attempt i is the first of n which answers in time *)
Definition first (n i : nat) (l : list event) : Prop := (i < n)%nat /\ exists a b, l = a ++ Answer i :: b /\ ~ In (Timeout i) a /\ forall j, (j < n)%nat -> ~ in_time j a.
(* Nobody answers in time, and the time of all n attempts is over *)
Definition nobody (n : nat) (l : list event) : Prop := forall i, (i < n)%nat -> ~ in_time i l /\ In (Timeout i) l.
