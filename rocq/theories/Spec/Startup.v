(* C109: the files of the user and who reads them. *)
From Verif.Lib Require Import Base.
From Verif.Model Require Import Startup.
Local Open Scope list_scope.

(* The file a step reads first, if any *)
Inductive file := ConfigFile | CommunicationFile | DisplayFile | InputsFile.
Definition reads (s : step) (f : file) : Prop :=
  match f with
  | ConfigFile => s = ReadConfig
  | CommunicationFile => s = ReadCommunication
  | DisplayFile => s = ReadDisplay
  | InputsFile => s = ReadInputs
  end.
(* Each b comes after an a *)
Definition before {A} (a b : A) (l : list A) : Prop := forall x y, l = x ++ b :: y -> In a x.
(* Everything the faults of a run depend on *)
Definition agree (P : step -> Prop) (f g : step -> bool) : Prop := forall s, P s -> f s = g s.
(* The program is over with an error, whoever got it *)
Definition failed (o : outcome) (s : step) : Prop := o = Stopped s \/ o = Reported s.
