(* The parameters of the web emulator's virtual Kemper, /repo/web/htdocs/clients/kemper/virtual/: VirtualKemperParameterKeys.js,
   VirtualKemperParameter.js, VirtualKemperParameterDefault.js, VirtualKemperParameters.js, VirtualKemperClientSetup.js and the rig handling of
   VirtualKemperClient.js (105-159). Messages are those of Model/Midi.v on channel 1: SysEx man data is [240] ++ man ++ data ++ [247].
   Not modelled: display names, statistics, the user interface (its changes of parameters are operations of their own, see below), the
   tempo and tuner clocks (they change or send parameters, also operations), and the morph fade, which is switched off by
   simulateMorphBug (clients/kemper/KemperClient.js:54, VirtualKemperMorph.js:55). *)
From Coq Require Import String Ascii.
From Verif.Lib Require Import Base.
From Verif.Model Require Import Midi.
Local Open Scope list_scope.

(* VirtualKemperParameterKeys.js:102-202 *)
Inductive vkey := KNrpn (d : list Z) | KCc (c : Z) (scale : option Z) | KPc.
(* VirtualKemperParameterKeys.js:110-112, 168-170, 195-197 getId: JSON texts, different for different data resp. controls; the scale is
   not part of it *)
Inductive vid := INrpn (d : list Z) | ICc (c : Z) | IPc.
Definition key_id (k : vkey) : vid := match k with KNrpn d => INrpn d | KCc c _ => ICc c | KPc => IPc end.
Definition vid_eqb (a b : vid) : bool :=
  match a, b with INrpn d, INrpn e => bytes_eqb d e | ICc c, ICc d => c =? d | IPc, IPc => true | _, _ => false end.
Fixpoint ids_eqb (a b : list vid) : bool :=
  match a, b with [], [] => true | x :: a', y :: b' => vid_eqb x y && ids_eqb a' b' | _, _ => false end.

(* Values: null, a number or a string (character codes) *)
Inductive jval := JNull | JNum (n : Z) | JStr (s : list Z).
(* VirtualKemperParameter.js:204 this.value == value, for values of the same type or null *)
Definition jval_eqb (a b : jval) : bool :=
  match a, b with JNull, JNull => true | JNum x, JNum y => x =? y | JStr x, JStr y => bytes_eqb x y | _, _ => false end.

(* The callbacks of VirtualKemperClientSetup.js: onRigIdChange (55-79), onBankChange (88-97), the one of the amp comment (193-196) and of the
   tempo (121-123). Those of the tuner mode (139-141), the morph button (161-166) and the tap tempo (116-118) change no parameter by themselves. *)
Inductive vcb := CbNone | CbRig | CbBank | CbUpdateRig | CbTempo.

(* VirtualKemperParameter.js:3-12, 43-59. p_str: typeof value is string (else number), which never changes *)
Record vparam := mkP { p_send : option vkey; p_recv : list vkey; p_val : jval; p_str : bool; p_sets : list Z; p_nobuf : bool; p_cb : vcb }.
Definition with_pval (p : vparam) (v : jval) : vparam := mkP (p_send p) (p_recv p) v (p_str p) (p_sets p) (p_nobuf p) (p_cb p).

(* VirtualKemperParameterKeys.js:11-40: the send key is also received, after the others; without receive keys it is the only one *)
Definition new_param (send : option vkey) (recv : list vkey) (v : jval) (sets : list Z) (nobuf : bool) (cb : vcb) : vparam :=
  mkP send (recv ++ match send with Some k => [k] | None => [] end) v (match v with JStr _ => true | _ => false end) sets nobuf cb.
(* VirtualKemperParameterKeys.js:45-53 getId *)
Definition p_id (p : vparam) : list vid := match p_send p with Some k => [key_id k] | None => map key_id (p_recv p) end.

(* VirtualKemperParameter.js:83-100 function codes *)
Definition code_request (str : bool) : Z := if str then 67 else 65.
Definition code_set (str : bool) : Z := if str then 3 else 1.

(* VirtualKemperParameters (#data), VirtualKemperProtocol.parameterSet, and lastRigId of VirtualKemperClientSetup.js:53 *)
Record vdev := mkD { vd_params : list vparam; vd_set : option Z; vd_last : option Z }.

Definition find_param (i : list vid) (l : list vparam) : option vparam := find (fun p => ids_eqb (p_id p) i) l.
Definition write (i : list vid) (v : jval) (l : list vparam) : list vparam :=
  map (fun p => if ids_eqb (p_id p) i then with_pval p v else p) l.

(* VirtualKemperParameters.js:84-96 get, with init (101-123): a number, 0, and no callback or set *)
Definition get_param (k : vkey) (s : vdev) : vdev :=
  match find_param [key_id k] (vd_params s) with
  | Some _ => s
  | None => mkD (vd_params s ++ [new_param (Some k) [] (JNum 0) [] false CbNone]) (vd_set s) (vd_last s)
  end.

(* VirtualKemperParameterKeys.js:134-152, 176-181 encodeValue and VirtualKemperParameter.js:228-257 send: the message queued. None: no send key
   (230), or nothing to encode (exception) *)
Definition send_msg (p : vparam) : option msg :=
  match p_send p, p_val p with
  | Some (KNrpn d), JNum n => Some (SysEx [0; 32; 51] ([0; 0; code_set (p_str p); 0] ++ d ++ [n / 128; n mod 128]))
  | Some (KNrpn d), JStr t => Some (SysEx [0; 32; 51] ([0; 0; code_set (p_str p); 0] ++ d ++ t ++ [0]))
  | Some (KCc c scale), JNum n => Some (CC c (match scale with Some x => n / x | None => n end))
  | Some KPc, JNum n => Some (PC n)
  | _, _ => None
  end.
Definition opt_list {A} (o : option A) : list A := match o with Some x => [x] | None => [] end.

(* VirtualKemperParameter.js:220: part of the active parameter set *)
Definition in_set (s : vdev) (p : vparam) : bool := match vd_set s with Some x => existsb (Z.eqb x) (p_sets p) | None => false end.
Definition well_typed (p : vparam) (v : jval) : bool := match v with JNull => true | JNum _ => negb (p_str p) | JStr _ => p_str p end.
Definition push_msgs (i : list vid) (s : vdev) : list msg :=
  match find_param i (vd_params s) with Some p => if in_set s p then opt_list (send_msg p) else [] | None => [] end.

(* VirtualKemperParameter.js:203-223 setValue for a parameter without callback *)
Definition set_raw (i : list vid) (v : jval) (s : vdev) : vdev * list msg :=
  match find_param i (vd_params s) with
  | None => (s, [])
  | Some p =>
      if negb (p_nobuf p) && jval_eqb (p_val p) v then (s, [])
      else if negb (well_typed p v) then (s, [])                                          (* exception (206-208) *)
      else let s1 := mkD (write i v (vd_params s)) (vd_set s) (vd_last s) in (s1, push_msgs i s1)
  end.

Definition value_of (i : list vid) (s : vdev) : jval := match find_param i (vd_params s) with Some p => p_val p | None => JNum 0 end.
Definition num_of (i : list vid) (s : vdev) : Z := match value_of i s with JNum n => n | _ => 0 end.

(* VirtualKemperClient.js:144-149 getRigId *)
Definition get_rig_id (s : vdev) : Z := 128 * num_of [ICc 32] s + num_of [IPc] s.

(* VirtualKemperClient.js:116-139 #generateRigName *)
Definition codes (t : string) : list Z := map (fun c => Z.of_nat (nat_of_ascii c)) (list_ascii_of_string t).
Definition rig_name (id : Z) : list Z :=
  codes (nth (Z.to_nat ((id / 5) mod 5)) ["Blue"; "Yellow"; "Red"; "Green"; "Purple"]%string EmptyString) ++
  codes (nth (Z.to_nat (id mod 5)) [" Clean"; " Crunch"; " Overdrive"; " Lead"; " Acoustic"]%string EmptyString).

(* VirtualKemperClient.js:108-111 updateRig; [date] is what generateRigDate() (164-175) returns *)
Definition update_rig (date : list Z) (s : vdev) : vdev * list msg :=
  let '(s1, o1) := set_raw [INrpn [0; 1]] (JStr (rig_name (get_rig_id s))) s in
  let '(s2, o2) := set_raw [INrpn [0; 3]] (JStr date) s1 in
  (s2, o1 ++ o2).
(* VirtualKemperClient.js:154-159 setRigId *)
Definition set_rig_id (date : list Z) (id : Z) (s : vdev) : vdev * list msg :=
  let '(s1, o1) := set_raw [ICc 32] (JNum (id / 128)) s in
  let '(s2, o2) := set_raw [IPc] (JNum (id mod 128)) s1 in
  let '(s3, o3) := update_rig date s2 in
  (s3, o1 ++ o2 ++ o3).

(* param.options.keys.receive[0].control (VirtualKemperClientSetup.js:56, 91) *)
Definition first_control (p : vparam) : Z := match p_recv p with KCc c _ :: _ => c | _ => 0 end.

(* VirtualKemperClientSetup.js:121-123, 125-129 with VirtualKemperTempo.js:59-84: the tempo is rounded to whole bpm and written back *)
Definition tempo_value (v : Z) : Z :=
  let bpm := if v =? 16383 then 256 else (v + 32) / 64 in if 256 <=? bpm then 16383 else bpm * 64.

(* The callbacks; [p] is the parameter just changed to v *)
Definition run_cb (date : list Z) (p : vparam) (v : jval) (s : vdev) : vdev * list msg :=
  match p_cb p with
  | CbNone => (s, [])
  | CbUpdateRig => update_rig date s
  | CbTempo => match v with
               | JNum n => if tempo_value n =? n then (s, []) else set_raw (p_id p) (JNum (tempo_value n)) s
               | _ => (s, [])
               end
  | CbRig =>                                                                               (* VirtualKemperClientSetup.js:55-79 *)
      let pre := value_of [ICc 47] s in
      let '(s1, o1) := set_raw [ICc 47] JNull s in
      let id := (match pre with JNum b => b | _ => get_rig_id s1 / 5 end) * 5 + (first_control p - 50) in
      if jval_eqb v (JNum 1) then
        let '(s2, o2) := set_rig_id date id s1 in
        let '(s3, o3) := if match vd_last s2 with Some l => l =? id | None => false end then (s2, []) else set_raw [INrpn [0; 11]] (JNum 0) s2 in
        (mkD (vd_params s3) (vd_set s3) (Some id), o1 ++ o2 ++ o3)
      else (s1, o1)
  | CbBank =>                                                                              (* 88-97; the two loops (92-93) are mod 625 *)
      if jval_eqb v (JNum 0) then set_rig_id date ((get_rig_id s + if first_control p =? 48 then 5 else -5) mod 625) s else (s, [])
  end.

(* VirtualKemperParameter.js:203-223 setValue *)
Definition set_val (date : list Z) (i : list vid) (v : jval) (s : vdev) : vdev * list msg :=
  match find_param i (vd_params s) with
  | None => (s, [])
  | Some p =>
      if negb (p_nobuf p) && jval_eqb (p_val p) v then (s, [])
      else if negb (well_typed p v) then (s, [])
      else
        let '(s1, o) := run_cb date p v (mkD (write i v (vd_params s)) (vd_set s) (vd_last s)) in
        (s1, o ++ push_msgs i s1)
  end.

(* VirtualKemperParameterKeys.js:118-129 evaluateValue. Simplification: fewer than two bytes would give NaN (here null) *)
Definition eval_nrpn (str : bool) (d : list Z) : jval :=
  if str then JStr d else match d with a :: b :: _ => JNum (a * 128 + b) | _ => JNull end.

(* VirtualKemperParameter.js:133-198 #parseKey: nothing, a request, or a new value *)
Inductive action := ASend | ASet (v : jval).
Definition starts_with (h d : list Z) : bool := bytes_eqb (firstn (length h) d) h.
Definition parse_key (str : bool) (k : vkey) (m : msg) : option action :=
  match k, m with
  | KNrpn d, SysEx man data =>
      if negb (bytes_eqb man [0; 32; 51]) then None
      else if starts_with ([2; 127; code_request str; 0] ++ d) data then Some ASend
      else if starts_with ([2; 127; code_set str; 0] ++ d) data then Some (ASet (eval_nrpn str (skipn (4 + length d) data)))
      else None
  | KCc c scale, CC c' v => if c =? c' then Some (ASet (JNum (match scale with Some x => v * x | None => v end))) else None
  | KPc, PC v => Some (ASet (JNum v))
  | _, _ => None
  end.
(* VirtualKemperParameter.js:118-128 parse *)
Fixpoint parse_keys (str : bool) (ks : list vkey) (m : msg) : option action :=
  match ks with [] => None | k :: r => match parse_key str k m with Some a => Some a | None => parse_keys str r m end end.
Definition parse_param (p : vparam) (m : msg) : option action := parse_keys (p_str p) (p_recv p) m.
(* VirtualKemperParameters.js:48-55: the first parameter that accepts the message *)
Fixpoint parse_store (l : list vparam) (m : msg) : option (list vid * action) :=
  match l with [] => None | p :: r => match parse_param p m with Some a => Some (p_id p, a) | None => parse_store r m end end.

Definition act (date : list Z) (i : list vid) (a : action) (s : vdev) : vdev * list msg :=
  match a with
  | ASend => (s, match find_param i (vd_params s) with Some p => opt_list (send_msg p) | None => [] end)
  | ASet v => set_val date i v s
  end.

(* get(key), then newParam.parse(message); an exception if that fails (the parameter exists then nevertheless) *)
Definition get_and_parse (date : list Z) (k : vkey) (m : msg) (s : vdev) : vdev * list msg :=
  let s1 := get_param k s in
  match find_param [key_id k] (vd_params s1) with
  | Some p => match parse_param p m with Some a => act date [key_id k] a s1 | None => (s1, []) end
  | None => (s1, [])
  end.
(* VirtualKemperParameterDefault.js:6-64 parse; None: not parsed *)
Definition parse_default (date : list Z) (str : bool) (m : msg) (s : vdev) : option (vdev * list msg) :=
  match m with
  | SysEx man data =>
      if negb (bytes_eqb man [0; 32; 51]) then None
      else
        let k := KNrpn (firstn 2 (skipn 4 (data ++ [247]))) in
        if starts_with [2; 127; code_request str; 0] data then
          let s1 := get_param k s in
          Some (s1, match find_param [key_id k] (vd_params s1) with Some p => opt_list (send_msg p) | None => [] end)
        else if starts_with [2; 127; code_set str; 0] data then Some (get_and_parse date k m s)
        else None
  | CC c _ => Some (get_and_parse date (KCc c None) m s)
  | PC _ => Some (get_and_parse date KPc m s)
  | _ => None
  end.
(* VirtualKemperClient.js:183-199 doSend without the protocol's messages (Model/VirtualProtocol.v; their function code is 126), and
   VirtualKemperParameters.js:46-68 with the defaults of VirtualKemperClientSetup.js:22-23 *)
Definition receive_msg (date : list Z) (m : msg) (s : vdev) : vdev * list msg :=
  match parse_store (vd_params s) m with
  | Some (i, a) => act date i a s
  | None =>
      match parse_default date false m s with
      | Some r => r
      | None => match parse_default date true m s with Some r => r | None => (s, []) end
      end
  end.

(* VirtualKemperClientSetup.js:29-246 *)
Definition nkey (p a : Z) : vkey := KNrpn [p; a].
Definition all_sets : list Z := [1; 2; 3; 4].
Definition num_param (p a : Z) (recv : list vkey) (v : Z) (sets : list Z) : vparam := new_param (Some (nkey p a)) recv (JNum v) sets false CbNone.
Definition setup_params (date : list Z) : list vparam :=
  [ (* 189-209 *)
    new_param (Some (nkey 0 16)) [] (JStr (codes "Amp Comment")) [] false CbUpdateRig;
    num_param 60 0 [] 151 []; num_param 60 3 [KCc 26 None; KCc 27 None] 1 [];
    num_param 61 0 [] 180 []; num_param 61 3 [KCc 28 None; KCc 29 None] 1 [];
    (* 214-238 *)
    num_param 50 0 [] 8 all_sets; num_param 50 3 [KCc 17 None] 1 all_sets;
    num_param 51 0 [] 13 all_sets; num_param 51 3 [KCc 18 None] 1 all_sets;
    num_param 52 0 [] 38 all_sets; num_param 52 3 [KCc 19 None] 0 all_sets;
    num_param 53 0 [] 50 all_sets; num_param 53 3 [KCc 20 None] 1 all_sets;
    num_param 56 0 [] 115 all_sets; num_param 56 3 [KCc 22 None] 1 all_sets;
    num_param 58 0 [] 104 all_sets; num_param 58 3 [KCc 24 None] 1 all_sets;
    (* 243-246, and the rig of the start (VirtualKemperClient.js:49) *)
    new_param (Some (nkey 0 1)) [] (JStr (rig_name 0)) [2; 3; 4] false CbNone;
    (* 33-46 *)
    new_param (Some (KCc 32 None)) [] (JNum 0) all_sets true CbNone;
    new_param (Some KPc) [] (JNum 0) all_sets true CbNone;
    (* 49-50 *)
    new_param None [KCc 47 None] JNull [] false CbNone;
    (* 81-85 *)
    new_param None [KCc 50 None] (JNum 0) [] false CbRig; new_param None [KCc 51 None] (JNum 0) [] false CbRig;
    new_param None [KCc 52 None] (JNum 0) [] false CbRig; new_param None [KCc 53 None] (JNum 0) [] false CbRig;
    new_param None [KCc 54 None] (JNum 0) [] false CbRig;
    (* 99-100 *)
    new_param None [KCc 48 None] (JNum 0) [] true CbBank; new_param None [KCc 49 None] (JNum 0) [] true CbBank;
    (* 103 *)
    new_param (Some (nkey 0 3)) [] (JStr date) [] false CbNone;
    (* 109-123; 120 bpm at the start (VirtualKemperTempo.js:15) *)
    num_param 124 0 [] 0 all_sets;
    new_param None [KCc 30 None] (JNum 0) [] false CbNone;
    new_param (Some (nkey 4 0)) [] (JNum 7680) [] false CbTempo;
    (* 142-148 *)
    num_param 127 126 [KCc 31 None] 0 all_sets; num_param 125 84 [] 0 all_sets; num_param 124 15 [] 8191 all_sets;
    (* 158-166 *)
    num_param 0 11 [KCc 11 (Some 128)] 0 []; new_param None [KCc 80 None] (JNum 0) [] false CbNone;
    (* 172-184 *)
    num_param 5 1 [] 0 []; num_param 5 6 [] 0 []; num_param 5 11 [] 0 []; num_param 5 16 [] 0 []; num_param 5 21 [] 0 []; num_param 5 26 [] 0 [];
    num_param 5 36 [] 0 []; num_param 5 41 [] 0 [] ].
(* A new virtual device; not connected *)
Definition vdev_new (date : list Z) : vdev := mkD (setup_params date) None None.

(* VRecv: a message of the firmware arrives (doSend). VUi: a parameter, got by its key, is set by the user interface or by one of the device's
   clocks (tempo pulse, taps). VUiRig: the user chooses a rig (VirtualKemperClientUI.js:149). VSend: a parameter is sent by a clock
   (VirtualKemperTuner.js:20-26). VBeacon: a beacon of the protocol (VirtualKemperProtocol.js:77-112, 117-126). VOffline: the lease is over (49-54). *)
Inductive vop := VRecv (m : msg) (date : list Z) | VUi (k : vkey) (v : jval) (date : list Z) | VUiRig (id : Z) (date : list Z)
  | VSend (k : vkey) | VBeacon (set : Z) (init : bool) | VOffline.
Definition vd_step (s : vdev) (o : vop) : vdev * list msg :=
  match o with
  | VRecv m date => receive_msg date m s
  | VUi k v date => set_val date [key_id k] v (get_param k s)
  | VUiRig id date => set_rig_id date id s
  | VSend k => act [] [key_id k] ASend (get_param k s)
  | VBeacon x init =>
      let s1 := mkD (vd_params s) (Some x) (vd_last s) in
      (s1, if init then flat_map (fun p => if in_set s1 p then opt_list (send_msg p) else []) (vd_params s1) else [])
  | VOffline => (mkD (vd_params s) None (vd_last s), [])
  end.
