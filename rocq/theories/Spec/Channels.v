(* C114: MIDI channels as the user counts them, and what they have typed last. *)
From Coq Require Import String QArith DecimalString.
From Verif.Lib Require Import Base.
From Verif.Model Require Import Midi Storage Channels Codec.
From Verif.Spec Require Import Storage.
Open Scope string_scope.
Open Scope Z_scope.
Local Open Scope list_scope.

(* The storage of the browser after all that was done, beginning with an empty one *)
Definition crun (version : string) (ops : list cop) : storage := fold_left (cstep version) ops [].
(* The text for a channel, 1 to 16 *)
Definition text (ch : Z) : string := NilZero.string_of_int (Z.to_int ch).
Definition channel (ch : Z) : Prop := 1 <= ch <= 16.
(* Only channels are typed, and All for the input; what else is kept in the browser does not use the same place *)
Definition sensible (version : string) (o : cop) : Prop :=
  match o with
  | TypeIn t => t = "All" \/ exists ch, channel ch /\ t = text ch
  | TypeOut t => exists ch, channel ch /\ t = text ch
  | Else (SOther (USetting v i k _)) => ~ (local_id (Some v) i = SETTINGS version /\ k = "communication")
  | _ => True
  end.
(* The last texts of the fields: the ones typed last, since the last Reset *)
Definition last_in (ops : list cop) : string := fold_left (fun a o => match o with TypeIn t => t | ResetComm => "All" | _ => a end) ops "All".
Definition last_out (ops : list cop) : string := fold_left (fun a o => match o with TypeOut t => t | ResetComm => "1" | _ => a end) ops "1".
(* The emulator starts / hears the channel / sends the message as these bytes *)
Definition starts (version : string) (st : storage) : Prop := connect (comm_get version st) <> None.
Definition hears (version : string) (st : storage) (ch : Z) : Prop := exists l o, connect (comm_get version st) = Some (l, o) /\ channel_ok l (ch - 1) = true.
Definition sends (version : string) (st : storage) (m : wmsg) (bytes : list Z) : Prop := exists l o, connect (comm_get version st) = Some (l, o) /\ device_send o m = Ok bytes.
