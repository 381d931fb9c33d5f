(* The MIDI bridge which transfers files between the web editor and the controller, /repo/web/htdocs/lib/jsmidibridge/JsMidiBridge.js. The same
   class (or a port of it, of which the repository holds no source) runs on the other side (20-21), so the model is used for both ends.
   Strings are lists of UTF-16 code units. Handlers are atomic: the callbacks set by /repo/web/htdocs/js/DeviceController.js do not wait, so all
   continuations of a handler run before the next MIDI event. Not modelled: console output, arguments which are no Uint8Array (738-740, 851-853). *)
From Coq Require Import String Ascii.
From Verif.Lib Require Import Base.
From Verif.Model Require Import Midi.
Local Open Scope list_scope.

(* ---- bits: 850-893 ---- *)

(* 877-880: the bits of b, highest first *)
Fixpoint bits (w : nat) (b : Z) : list bool := match w with O => [] | S k => Z.testbit b (Z.of_nat k) :: bits k b end.
(* 859-875 flush: zeros are appended up to the length w *)
Fixpoint bits_value (w : nat) (l : list bool) : Z :=
  match w, l with
  | O, _ => 0
  | S k, [] => 0
  | S k, x :: r => (if x then 2 ^ Z.of_nat k else 0) + bits_value k r
  end.
(* 877-891: the loop over all bits with the buffer; Uint8Array (893) keeps the values, they are below 256 *)
Fixpoint regroup (w : nat) (leftovers : bool) (input buffer : list bool) : list Z :=
  match input with
  | [] => if leftovers && negb (match buffer with [] => true | _ => false end) then [bits_value w buffer] else []
  | x :: r => if Nat.eqb (length (buffer ++ [x])) w then bits_value w (buffer ++ [x]) :: regroup w leftovers r [] else regroup w leftovers r (buffer ++ [x])
  end.
(* 835-844 packBytes, unpackBytes *)
Definition pack (d : list Z) : list Z := regroup 7 true (flat_map (bits 8) d) [].
Definition unpack (d : list Z) : list Z := regroup 8 false (flat_map (bits 7) d) [].

(* ---- numbers: 795-826 ---- *)

(* 802-809: the lowest n bytes, highest first *)
Fixpoint be_bytes (n : nat) (x : Z) : list Z := match n with O => [] | S k => (x / 2 ^ (8 * Z.of_nat k)) mod 256 :: be_bytes k x end.
Definition number2bytes (x : Z) (n : nat) : list Z := pack (be_bytes n x).
(* 822: the shift count is taken mod 32, the result is a signed 32 bit number *)
Definition int32 (x : Z) : Z := (x + 2147483648) mod 4294967296 - 2147483648.
Definition js_shl (b k : Z) : Z := int32 (b * 2 ^ (k mod 32)).
Fixpoint be_number (l : list Z) : Z := match l with [] => 0 | b :: r => js_shl b (8 * Z.of_nat (length r)) + be_number r end.
Definition bytes2number (d : list Z) : Z := be_number (unpack d).

(* ---- checksum: 735-770 ---- *)

Definition POLY : Z := 26454.                                                                  (* 0x6756 *)
(* 754-761: one bit *)
Definition crc_bit (crc : Z) (b : bool) : Z := if xorb (Z.odd crc) b then Z.lxor (crc / 2) POLY else crc / 2.
(* 751-763: one byte, lowest bit first *)
Definition crc_byte (crc : Z) (b : Z) : Z := fold_left crc_bit (rev (bits 8 b)) crc.
Definition crc16 (data : list Z) : Z :=
  let c := Z.land (Z.lnot (fold_left crc_byte data 65535)) 65535 in
  Z.land (Z.lor (c * 256) (Z.land (c / 256) 255)) 65535.
Definition checksum (data : list Z) : list Z := number2bytes (crc16 data) 2.

(* ---- texts: 777-792, with TextEncoder and TextDecoder of the platform (https://encoding.spec.whatwg.org, UTF-8) ---- *)

Definition high_surrogate (u : Z) : bool := (55296 <=? u) && (u <=? 56319).
Definition low_surrogate (u : Z) : bool := (56320 <=? u) && (u <=? 57343).
(* lone surrogates become U+FFFD *)
Fixpoint scalars (s : list Z) : list Z :=
  match s with
  | [] => []
  | u :: r =>
      if high_surrogate u then
        match r with
        | v :: r' => if low_surrogate v then 65536 + (u - 55296) * 1024 + (v - 56320) :: scalars r' else 65533 :: scalars r
        | [] => [65533]
        end
      else (if low_surrogate u then 65533 else u) :: scalars r
  end.
Definition utf8 (c : Z) : list Z :=
  if c <=? 127 then [c]
  else if c <=? 2047 then [192 + c / 64; 128 + c mod 64]
  else if c <=? 65535 then [224 + c / 4096; 128 + (c / 64) mod 64; 128 + c mod 64]
  else [240 + c / 262144; 128 + (c / 4096) mod 64; 128 + (c / 64) mod 64; 128 + c mod 64].
Definition encode (s : list Z) : list Z := flat_map utf8 (scalars s).

(* The decoder: number of bytes still needed, code point so far, bounds of the next byte *)
Record dec := mkDec { d_need : nat; d_cp : Z; d_lo : Z; d_hi : Z }.
Definition dec0 : dec := mkDec 0 0 128 191.
Definition dec_first (b : Z) : dec * list Z :=
  if b <=? 127 then (dec0, [b])
  else if (194 <=? b) && (b <=? 223) then (mkDec 1 (b - 192) 128 191, [])
  else if (224 <=? b) && (b <=? 239) then (mkDec 2 (b - 224) (if b =? 224 then 160 else 128) (if b =? 237 then 159 else 191), [])
  else if (240 <=? b) && (b <=? 244) then (mkDec 3 (b - 240) (if b =? 240 then 144 else 128) (if b =? 244 then 143 else 191), [])
  else (dec0, [65533]).
Definition dec_byte (s : dec) (b : Z) : dec * list Z :=
  match d_need s with
  | O => dec_first b
  | S k =>
      if (d_lo s <=? b) && (b <=? d_hi s) then
        let cp := d_cp s * 64 + (b - 128) in
        match k with O => (dec0, [cp]) | _ => (mkDec k cp 128 191, []) end
      else let '(s', out) := dec_first b in (s', 65533 :: out)
  end.
Fixpoint dec_all (s : dec) (l : list Z) : list Z :=
  match l with
  | [] => match d_need s with O => [] | _ => [65533] end
  | b :: r => let '(s', out) := dec_byte s b in out ++ dec_all s' r
  end.
Definition utf16 (c : Z) : list Z := if c <=? 65535 then [c] else [55296 + (c - 65536) / 1024; 56320 + (c - 65536) mod 1024].
(* A byte order mark at the beginning is dropped *)
Definition strip_mark (cs : list Z) : list Z := match cs with c :: r => if c =? 65279 then r else cs | [] => [] end.
Definition decode (d : list Z) : list Z := flat_map utf16 (strip_mark (dec_all dec0 d)).

Definition string2bytes (s : list Z) : list Z := pack (encode s).
Definition bytes2string (d : list Z) : list Z := decode (unpack d).

(* ---- the bridge ---- *)

(* A transmission being sent: 239-245, 263-269, 278-279, 308 *)
Record tx := mkTx { t_id : list Z; t_type : Z; t_path : list Z; t_amount : Z; t_size : Z; t_rest : list Z; t_next : Z; t_time : option Z }.
(* A transmission being received: 512-519, 566 *)
Record rx := mkRx { r_id : list Z; r_type : list Z; r_path : list Z; r_amount : Z; r_buf : list Z; r_last : Z; r_time : option Z }.
(* b_next: JsMidiBridge.nextId (139), shared by all bridges of a page; there is one per side here *)
Record bridge := mkB { b_tx : list tx; b_rx : list rx; b_next : Z }.

(* Maps with JSON texts of the ids as keys; different ids have different texts *)
Definition tx_get (i : list Z) (l : list tx) : option tx := find (fun t => bytes_eqb (t_id t) i) l.
Definition tx_del (i : list Z) (l : list tx) : list tx := filter (fun t => negb (bytes_eqb (t_id t) i)) l.
Definition tx_put (t : tx) (l : list tx) : list tx := tx_del (t_id t) l ++ [t].
Definition rx_get (i : list Z) (l : list rx) : option rx := find (fun t => bytes_eqb (r_id t) i) l.
Definition rx_del (i : list Z) (l : list rx) : list rx := filter (fun t => negb (bytes_eqb (r_id t) i)) l.
Definition rx_put (t : rx) (l : list rx) : list rx := rx_del (r_id t) l ++ [t].

(* What the bridge does: sendSysex with the data after the manufacturer id, and the callbacks onSendProgress, onReceiveStart, onReceiveProgress,
   onReceiveFinish, onError, onReceiveAck *)
Inductive bev :=
  | Sysex (data : list Z)
  | SendProgress (path : list Z) (chunk amount : Z) (file : bool)
  | RecvStart (i path : list Z) (amount : Z)
  | RecvProgress (i path : list Z) (chunk amount : Z)
  | RecvFinish (i path data : list Z) (amount : Z)
  | RecvError (text : list Z)
  | AckAll (i : list Z).

(* Exceptions. Simplification: the texts are without the numbers, ids and paths in them *)
Inductive berr := BadChecksum | NoPath | BadChunkSize | NoFile | NoMessage | NoReceiver | BadChunk | BadType | NoSender | BadAck.
Definition unit_codes (t : string) : list Z := map (fun c => Z.of_nat (nat_of_ascii c)) (list_ascii_of_string t).
Definition err_text (e : berr) : list Z :=
  unit_codes (match e with
  | BadChecksum => "Checksum mismatch" | NoPath => "No path" | BadChunkSize => "Invalid chunk size" | NoFile => "not found or empty" | NoMessage => "No message"
  | NoReceiver => "Receive transmission not found" | BadChunk => "Invalid chunk" | BadType => "Unknown transmission type" | NoSender => "Send transmission not found"
  | BadAck => "Invalid ack chunk" end)%string.

(* 706-727: transmissions which have a time and are too old are dropped *)
Definition stale (now : Z) (t : option Z) : bool := match t with Some x => 5000 <? now - x | None => false end.
Definition cleanup (now : Z) (b : bridge) : bridge :=
  mkB (filter (fun t => negb (stale now (t_time t))) (b_tx b)) (filter (fun t => negb (stale now (r_time t))) (b_rx b)) (b_next b).

(* 42-80: command, checksum, payload *)
Definition framed (command : Z) (payload : list Z) : list Z := command :: checksum payload ++ payload.

(* 296-308 sendNextChunk with 358-384 sendChunk; slice on code units (298-299) *)
Definition send_chunk (now : Z) (t : tx) : tx * list bev :=
  let chunk := firstn (Z.to_nat (t_size t)) (t_rest t) in
  (mkTx (t_id t) (t_type t) (t_path t) (t_amount t) (t_size t) (skipn (Z.to_nat (t_size t)) (t_rest t)) (t_next t + 1) (Some now),
   [SendProgress (t_path t) (t_next t) (t_amount t) (t_type t =? 0); Sysex (framed 3 (t_id t ++ number2bytes (t_next t) 3 ++ string2bytes chunk))]).

(* 277-291 startSendTransmission, 335-353 sendStartMessage, 402-409 of generateTransmissionId (the random start, 392-401, is the initial b_next);
   243, 266: Math.ceil *)
Definition start_send (now : Z) (path message : list Z) (size type : Z) (b : bridge) : bridge * list bev :=
  let i := number2bytes (b_next b) 3 in
  let b1 := cleanup now b in
  let next := if 16777216 <=? b_next b + 1 then 0 else b_next b + 1 in
  let t := mkTx i type path ((Z.of_nat (length message) + size - 1) / size) size message 0 None in
  let '(t1, ev) := send_chunk now t in
  (mkB (tx_put t1 (b_tx b1)) (b_rx b1) next,
   Sysex (framed 2 (i ++ [type] ++ number2bytes (t_amount t) 3 ++ string2bytes path)) :: ev).

(* 255-270 sendString *)
Definition send_string (now : Z) (path message : list Z) (size type : Z) (b : bridge) : bridge * list bev * option berr :=
  match message with
  | [] => (b, [], Some NoMessage)
  | _ => if size <? 1 then (b, [], Some BadChunkSize) else (start_send now path message size type b, None)
  end.
(* 227-246 sendFile; [files]: the callback getFile, None if it throws or returns null *)
Definition send_file (files : list Z -> option (list Z)) (now : Z) (path : list Z) (size : Z) (b : bridge) : bridge * list bev * option berr :=
  match path with
  | [] => (b, [], Some NoPath)
  | _ => if size <? 1 then (b, [], Some BadChunkSize) else match files path with None => (b, [], Some NoFile) | Some data => (start_send now path data size 0 b, None) end
  end.
(* 313-329 request *)
Definition request (path : list Z) (size : Z) : list bev * option berr :=
  match path with
  | [] => ([], Some NoPath)
  | _ => if size <? 1 then ([], Some BadChunkSize) else ([Sysex (framed 1 (number2bytes size 3 ++ string2bytes path))], None)
  end.

(* 510-534 receiveStart *)
Definition receive_start (now : Z) (i payload : list Z) (b : bridge) : bridge * list bev * option berr :=
  let t := mkRx i (firstn 1 payload) (bytes2string (skipn 5 payload)) (bytes2number (firstn 4 (skipn 1 payload))) [] (-1) None in
  let b1 := cleanup now b in
  (mkB (b_tx b1) (rx_put t (b_rx b1)) (b_next b1), [RecvStart i (r_path t) (r_amount t)], None).

(* 539-580 receiveData, 585-615 receiveFinish, 649-662 sendAckMessage *)
Definition receive_data (now : Z) (i payload : list Z) (b : bridge) : bridge * list bev * option berr :=
  match rx_get i (b_rx b) with
  | None => (b, [], Some NoReceiver)
  | Some t =>
      let index := bytes2number (firstn 4 payload) in
      let text := bytes2string (skipn 4 payload) in
      if negb (index =? r_last t + 1) then (b, [], Some BadChunk)
      else
        let t1 := mkRx (r_id t) (r_type t) (r_path t) (r_amount t) (r_buf t ++ text) index (Some now) in
        let b1 := mkB (b_tx b) (map (fun x => if bytes_eqb (r_id x) i then t1 else x) (b_rx b)) (b_next b) in
        let ev := [Sysex (framed 4 (r_id t ++ number2bytes index 3)); RecvProgress (r_id t) (r_path t) index (r_amount t)] in
        if index =? r_amount t - 1 then
          let gone := mkB (b_tx b) (rx_del (r_id t) (b_rx b)) (b_next b) in
          if bytes_eqb (r_type t) [0] then (gone, ev ++ [RecvFinish (r_id t) (r_path t) (r_buf t1) (r_amount t)], None)
          else if bytes_eqb (r_type t) [1] then (gone, ev ++ [RecvError (r_buf t1)], None)
          else (b1, ev, Some BadType)
        else (b1, ev, None)
  end.

(* 620-644 receiveAck *)
Definition receive_ack (now : Z) (i payload : list Z) (b : bridge) : bridge * list bev * option berr :=
  match tx_get i (b_tx b) with
  | None => (b, [], Some NoSender)
  | Some t =>
      if negb (bytes2number payload =? t_next t - 1) then (b, [], Some BadAck)
      else if t_next t =? t_amount t then (mkB (tx_del i (b_tx b)) (b_rx b) (b_next b), [AckAll i], None)
      else
        let '(t1, ev) := send_chunk now t in
        (mkB (map (fun x => if bytes_eqb (t_id x) i then t1 else x) (b_tx b)) (b_rx b) (b_next b), ev, None)
  end.

(* 434-489: the body of receive. Simplification: JSON.stringify of the first byte is compared as the byte *)
Definition dispatch (files : list Z -> option (list Z)) (now : Z) (data : list Z) (b : bridge) : bridge * list bev * option berr :=
  let command := firstn 1 data in
  let sum := firstn 3 (skipn 1 data) in
  let payload := skipn 4 data in
  if negb (bytes_eqb (checksum payload) sum) then (b, [], Some BadChecksum)
  else if bytes_eqb command [1] then send_file files now (bytes2string (skipn 4 payload)) (bytes2number (firstn 4 payload)) b
  else
    let i := firstn 4 payload in
    let rest := skipn 4 payload in
    if bytes_eqb command [2] then receive_start now i rest b
    else if bytes_eqb command [3] then receive_data now i rest b
    else if bytes_eqb command [4] then receive_ack now i rest b
    else (b, [], None).

(* 421-495 receive; throws: throwExceptionsOnReceive (142). The result: the exception thrown, if any. 667-674 error *)
Definition MANUFACTURER : list Z := [0; 124; 125].
Definition receive (files : list Z -> option (list Z)) (throws : bool) (now : Z) (man data : list Z) (b : bridge) : bridge * list bev * option berr :=
  if negb (bytes_eqb man MANUFACTURER) then (b, [], None)
  else
    let '(b1, ev, e) := dispatch files now data b in
    match e with
    | None => (b1, ev, None)
    | Some x => if throws then (b1, ev, Some x) else let '(b2, ev2, e2) := send_string now [] (err_text x) 100 1 b1 in (b2, ev ++ ev2, e2)
    end.

(* 217-220; [seed] is the random start of the ids (392-401) *)
Definition bridge_new (seed : Z) : bridge := mkB [] [] seed.
