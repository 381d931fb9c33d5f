(* C118: which calls of mappings are possible. *)
From Coq Require Import String Ascii.
From Verif.Lib Require Import Base.
From Verif.Model Require Import Label Choices.
Local Open Scope list_scope.
Local Open Scope string_scope.

(* The texts which can be given for a parameter according to the metadata *)
Definition accepts (p : param) (x : string) : Prop :=
  match p_range p with
  | Some r => (exists k, (r_min r <= k <= r_max r)%Z /\ x = dec k) \/ (exists l, r_additional r = Some l /\ In x l)
  | None => exists l, p_values p = Some l /\ In x l
  end.
(* The calls of a mapping, giving its first parameter, if any: by name if there are more *)
Inductive call (m : mapping) : string -> Prop :=
| Call0 : m_params m = [] -> call m (m_name m ++ "()")
| Call1 p x : m_params m = [p] -> accepts p x -> call m (m_name m ++ "(" ++ x ++ ")")
| CallN p q r x : m_params m = p :: q :: r -> accepts p x -> call m (m_name m ++ "(" ++ p_name p ++ " = " ++ x ++ ")").
(* The metadata names values for the first parameter, and not more than 101 numbers without additional values *)
Definition described (m : mapping) : Prop :=
  match m_params m with
  | [] => True
  | p :: _ => match p_range p with Some r => r_additional r <> None \/ (r_max r - r_min r <= 100)%Z | None => p_values p <> None end
  end.
(* Additional values and values are listed once, and additional values are not in the range *)
Definition tidy (p : param) : Prop :=
  match p_range p with
  | Some r => forall l, r_additional r = Some l -> NoDup l /\ (forall x k, In x l -> (r_min r <= k <= r_max r)%Z -> x <> dec k)
  | None => forall l, p_values p = Some l -> NoDup l
  end.
