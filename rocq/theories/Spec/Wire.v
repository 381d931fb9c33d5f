(* C62: what the client puts on the wire *)
From Verif.Lib Require Import Base.
From Verif.Model Require Import Midi Mapping Client.
From Verif.Spec Require Import Mapping Client System.
Open Scope Z_scope.

(* The messages of a field, in order; and the same filled with values, one value per entry of a list. *)
Definition messages (t : tmpl) : list msg :=
  match t with
  | TNone => []
  | TOne x => [x]
  | TMany xs => flat_map (fun o => match o with Some x => [x] | None => [] end) xs
  end.
Definition filled (t : tmpl) (a : setarg) : list msg :=
  match t, a with
  | TOne x, One v => [carrying x v]
  | TMany xs, Many vs => flat_map (fun p => match fst p with Some x => [carrying x (snd p)] | None => [] end) (List.combine xs vs)
  | _, _ => []
  end.

(* Everything that is sent, in order. *)
Definition sends (evs : list event) : list msg :=
  flat_map (fun e => match e with EvSet _ w | EvReqSent _ w => w | _ => [] end) evs.
