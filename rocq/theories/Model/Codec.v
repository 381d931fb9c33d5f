(* web/htdocs/python/adafruit_midi: the MIDI library the firmware runs on. content/lib/adafruit_midi holds the same library in
   compiled form (.mpy), so the source shipped in web/htdocs/python is modelled.
   The message classes registered are those PySwitch imports (controller/midi.py:6-10): ControlChange, ProgramChange and
   SystemExclusive; every other status byte is therefore unknown.
   Bytes are integers 0..255. Python [b & 0x80] is written [128 <=? b], [b & 0x0F] is [b mod 16], [b & 0xF0] is [16 * (b / 16)]. *)
From Verif.Lib Require Import Base.
From Verif.Model Require Import Midi.

(* A message object. [WBad] is MIDIBadEvent with its bytes, [WUnknown] is MIDIUnknownEvent (midi_message.py:325-360). *)
Inductive wmsg :=
| WCC (channel control value : Z)
| WPC (channel patch : Z)
| WSysEx (manufacturer data : list Z)
| WUnknown (status : Z)
| WBad (bytes : list Z).

(* control_change.py:45-48, program_change.py:42-43, system_exclusive.py:46-52. The default __bytes__ (midi_message.py:294-297) of
   the two event classes is bytes([None]): TypeError. Fields are valid by construction here; __init__.py:156-161 has set the
   channel. [_STATUS | (channel & 0x0F)] is a sum because the low four bits of _STATUS are zero. *)
Definition encode (m : wmsg) : res (list Z) :=
  match m with
  | WCC ch c v => Ok [176 + ch mod 16; c; v]
  | WPC ch p => Ok [192 + ch mod 16; p]
  | WSysEx man data => Ok (240 :: man ++ data ++ [247])
  | WUnknown _ | WBad _ => Raise
  end.

(* AdafruitUsbMidiDevice.py:25-29 / AdafruitDinMidiDevice.py:35-39 send, with __init__.py:148-175: unknown events are not sent, the
   channel of the message is replaced by the output channel. The result is what is written to the port. *)
Definition device_send (out_channel : Z) (m : wmsg) : res (list Z) :=
  match m with
  | WUnknown _ => Ok []
  | WCC _ c v => encode (WCC out_channel c v)
  | WPC _ p => encode (WPC out_channel p)
  | _ => encode m
  end.

(* control_change.py:38-43, 50-52 *)
Definition cc_from_bytes (st c v : Z) : option wmsg :=
  if (0 <=? c) && (c <=? 127) && (0 <=? v) && (v <=? 127) then Some (WCC (st mod 16) c v) else None.
(* program_change.py:36-40, 45-47 *)
Definition pc_from_bytes (st p : Z) : option wmsg :=
  if (0 <=? p) && (p <=? 127) then Some (WPC (st mod 16) p) else None.
(* system_exclusive.py:54-60; [msg_bytes] starts with 0xF0 and ends with 0xF7 (at least two bytes) *)
Definition slice (a b : nat) (l : list Z) : list Z := firstn (b - a) (skipn a l).
Definition sysex_from_bytes (bs : list Z) : wmsg :=
  if negb (nth 1 bs 0 =? 0) then WSysEx (slice 1 2 bs) (slice 2 (length bs - 1) bs)
  else WSysEx (slice 1 4 bs) (slice 4 (length bs - 1) bs).

(* channel_filter, midi_message.py:24-47; in_channel is a tuple of channels or a single one *)
Definition channel_ok (chans : list Z) (ch : Z) : bool := existsb (Z.eqb ch) chans.

(* midi_message.py:240-244: skip data bytes; number skipped and the rest *)
Fixpoint skip_data (bs : list Z) : nat * list Z :=
  match bs with
  | [] => (0%nat, [])
  | b :: bs' => if 128 <=? b then (0%nat, bs) else let '(n, r) := skip_data bs' in (S n, r)
  end.

(* midi_message.py:156-172: position (in the bytes after the start byte) of the first status byte, if any *)
Fixpoint find_status (bs : list Z) : option (nat * Z) :=
  match bs with
  | [] => None
  | b :: bs' => if 128 <=? b then Some (0%nat, b) else match find_status bs' with Some (n, x) => Some (S n, x) | None => None end
  end.

Definition is_cc (st : Z) : bool := 16 * (st / 16) =? 176.
Definition is_pc (st : Z) : bool := 16 * (st / 16) =? 192.
Definition is_sysex (st : Z) : bool := st =? 240.

(* midi_message.py:236-290 with 185-207: the loop. [bs] are the bytes from msgstartidx on, [pos] = msgstartidx, [endp] =
   msgendidxplusone. Result: message, endplusone. The number of skipped bytes is only a statistic and not modelled.
   Each round consumes at least two bytes, so [length bs] rounds are enough; the last branch is never reached
   (Proofs/Codec.v: decode_fuel). *)
Fixpoint decode_loop (fuel : nat) (chans : list Z) (bs : list Z) (pos endp : nat) : option wmsg * nat :=
  match fuel with
  | O => (None, endp)
  | S fuel' =>
      match skip_data bs with
      | (n, []) => (None, (pos + n)%nat)                                  (* 247-248: endidx + 1 *)
      | (n, st :: rest) =>
          let start := (pos + n)%nat in
          if is_sysex st then
            match find_status rest with
            | Some (i, x) =>
                let e := (start + i + 2)%nat in
                if x =? 247 then (Some (sysex_from_bytes (firstn (i + 2) (st :: rest))), e)
                else (None, e)                                              (* bad termination *)
            | None => (None, (start + 1 + length rest)%nat)                (* not terminated: endidx + 1 *)
            end
          else if is_cc st then
            match rest with
            | c :: v :: rest' =>
                match cc_from_bytes st c v with
                | None => (Some (WBad [st; c; v]), (start + 3)%nat)
                | Some m => if channel_ok chans (st mod 16) then (Some m, (start + 3)%nat)
                            else decode_loop fuel' chans rest' (start + 3) (start + 3)
                end
            | _ => (None, endp)                                             (* incomplete: wait for more *)
            end
          else if is_pc st then
            match rest with
            | p :: rest' =>
                match pc_from_bytes st p with
                | None => (Some (WBad [st; p]), (start + 2)%nat)
                | Some m => if channel_ok chans (st mod 16) then (Some m, (start + 2)%nat)
                            else decode_loop fuel' chans rest' (start + 2) (start + 2)
                end
            | _ => (None, endp)
            end
          else (Some (WUnknown st), (start + 1)%nat)
      end
  end.

(* midi_message.py:220-290 from_message_bytes *)
Definition decode (chans : list Z) (bs : list Z) : option wmsg * nat := decode_loop (S (length bs)) chans bs 0 0.

(* __init__.py:127-146 MIDI.receive. The state is the input buffer. [chunk] is what self._midi_in.read() returns in this call (the
   empty list if nothing is available or, 127, if the buffer is full and nothing is read); read(n) returns at most n bytes, which is
   [read_ok]. *)
Definition read_ok (size : nat) (buf chunk : list Z) : Prop := (length chunk <= size - length buf)%nat.
Definition receive (chans : list Z) (buf chunk : list Z) : list Z * option wmsg :=
  let buf1 := buf ++ chunk in
  let '(m, e) := decode chans buf1 in
  (if negb (e =? 0)%nat then skipn e buf1 else buf1, m).

(* A sequence of calls of receive(), given what each of them reads: final buffer and the result of each call *)
Fixpoint receive_all (chans : list Z) (buf : list Z) (chunks : list (list Z)) : list Z * list (option wmsg) :=
  match chunks with
  | [] => (buf, [])
  | c :: chunks' =>
      let '(buf1, m) := receive chans buf c in
      let '(b, ms) := receive_all chans buf1 chunks' in
      (b, m :: ms)
  end.
Fixpoint reads_ok (size : nat) (chans : list Z) (buf : list Z) (chunks : list (list Z)) : Prop :=
  match chunks with
  | [] => True
  | c :: chunks' => read_ok size buf c /\ reads_ok size chans (fst (receive chans buf c)) chunks'
  end.

(* The same calls seen from the port: the bytes waiting at the port are delivered in order, as many as fit (127-128). Before each call
   further bytes may arrive. *)
Definition port_receive (size : nat) (chans : list Z) (buf avail : list Z) : list Z * list Z * option wmsg :=
  let n := (if length buf <? size then size - length buf else 0)%nat in
  let '(buf', m) := receive chans buf (firstn n avail) in
  (buf', skipn n avail, m).
Fixpoint port_all (size : nat) (chans : list Z) (buf avail : list Z) (arrivals : list (list Z)) : list (option wmsg) :=
  match arrivals with
  | [] => []
  | a :: arrivals' =>
      let '(buf', avail', m) := port_receive size chans buf (avail ++ a) in
      m :: port_all size chans buf' avail' arrivals'
  end.
