(* The MIDI input of the web emulator: /repo/web/htdocs/python/wrappers/wrap_adafruit_midi.py (WrapMidiInput), read by
   /repo/web/htdocs/python/adafruit_midi/__init__.py (MIDI.receive, Model/Codec.v) in the receive loop of
   /repo/content/lib/pyswitch/controller/controller.py:166-187. The messages are pushed to the queue by
   /repo/web/htdocs/js/midi/PythonMidiWrapper.js:23-25 and VirtualKemperClient.js:209, whole messages, one per queue entry. JavaScript
   and Python share one thread, so messages arrive between two ticks only.
   Not modelled: what the controller does with a message, the inputs it polls in between (neither touches the queue), replacing the
   MIDI wrapper (js/PySwitchRunner.js:311-321). *)
From Verif.Lib Require Import Base.
From Verif.Model Require Import Codec.

(* wrap_adafruit_midi.py:4-20 WrapMidiInput.read(num_bytes): the messages taken over, in order (their bytes are what read() returns; the
   monitor gets each of them, 17), and the queue afterwards. A message is popped first (11), then the function returns without it if it
   is longer than num_bytes (14-15); cnt remains 0, so the bytes already taken over are not considered. *)
Fixpoint emu_read (queue : list (list Z)) (num_bytes : nat) : list (list Z) * list (list Z) :=
  match queue with
  | [] => ([], [])
  | m :: queue' =>
      if (num_bytes <? 0 + length m)%nat then ([], queue')
      else let '(ms, rest) := emu_read queue' num_bytes in (m :: ms, rest)
  end.

(* em_buf: MIDI._in_buf; em_queue: externalRefs.midiWrapper.messageQueue; em_shown: what the MIDI monitor got so far *)
Record emu := mkEmu { em_buf : list Z; em_queue : list (list Z); em_shown : list (list Z) }.
Definition emu_new : emu := mkEmu [] [] [].

(* adafruit_midi/__init__.py:117-146 MIDI.receive: reads only if there is room in the buffer (127), and asks for as many bytes as fit *)
Definition emu_receive (size : nat) (chans : list Z) (e : emu) : emu * option wmsg :=
  let '(ms, q) := if (length (em_buf e) <? size)%nat then emu_read (em_queue e) (size - length (em_buf e)) else ([], em_queue e) in
  let '(b, m) := receive chans (em_buf e) (concat ms) in
  (mkEmu b q (em_shown e ++ ms), m).

(* controller.py:166-187 __receive_midi_messages, with [calls] = maxConsecutiveMidiMessages + 1: the messages passed to the client. The
   loop ends when there is no message or after [calls] calls (185-187). *)
Fixpoint emu_tick (calls size : nat) (chans : list Z) (e : emu) : emu * list wmsg :=
  match calls with
  | O => (e, [])
  | S calls' =>
      let '(e1, m) := emu_receive size chans e in
      match m with
      | None => (e1, [])
      | Some m => let '(e2, ms) := emu_tick calls' size chans e1 in (e2, m :: ms)
      end
  end.

(* PythonMidiWrapper.js:24 / VirtualKemperClient.js:209 push a message; PySwitchRunner.py:55-59, 211-213 one tick of the controller *)
Inductive eop := EArrive (m : list Z) | ETick.
Definition emu_step (calls size : nat) (chans : list Z) (e : emu) (o : eop) : emu * list wmsg :=
  match o with
  | EArrive m => (mkEmu (em_buf e) (em_queue e ++ [m]) (em_shown e), [])
  | ETick => emu_tick calls size chans e
  end.
