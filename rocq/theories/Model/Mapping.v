(* controller/client.py:10-229  ClientParameterMapping, ClientTwoPartParameterMapping *)
From Coq Require Import String.
From Verif.Lib Require Import Base.
From Verif.Model Require Import Midi.

(* client.py:42-43 parameter types *)
Inductive ptype := Numeric | Str.

(* A parameter value: an int, or a string given by its character codes. *)
Inductive value := VNum (n : Z) | VStr (s : list Z).

(* client.py:51-53: the set / request / response fields hold nothing, one message or a list of messages.
   List entries may be None (client.py:299, 457). *)
Inductive tmpl := TNone | TOne (m : msg) | TMany (l : list (option msg)).

(* client.py:46-58 fields of a mapping; [two_part] is the class (client.py:183), [value_1] its private
   __value_1 (client.py:211; always None for the base class). [depends] is the identity of another mapping. *)
Record mapping := mkMapping {
  name : string;
  set_t : tmpl;
  request_t : tmpl;
  response_t : tmpl;
  val : option value;
  typ : ptype;
  depends : option nat;
  two_part : bool;
  value_1 : option value
}.

Definition with_val (m : mapping) (v : option value) : mapping :=
  mkMapping (name m) (set_t m) (request_t m) (response_t m) v (typ m) (depends m) (two_part m) (value_1 m).
Definition with_set (m : mapping) (t : tmpl) : mapping :=
  mkMapping (name m) t (request_t m) (response_t m) (val m) (typ m) (depends m) (two_part m) (value_1 m).
Definition with_value_1 (m : mapping) (v : option value) : mapping :=
  mkMapping (name m) (set_t m) (request_t m) (response_t m) (val m) (typ m) (depends m) (two_part m) v.
Definition without_request (m : mapping) : mapping :=
  mkMapping (name m) (set_t m) TNone (response_t m) (val m) (typ m) None (two_part m) (value_1 m).

(* Truthiness of a message field: None and the empty list are falsy. *)
Definition truthy (t : tmpl) : bool :=
  match t with TNone => false | TOne _ => true | TMany [] => false | TMany (_ :: _) => true end.

(* Python slice d[a:b] with 0 <= a <= b *)
Definition slice (d : list Z) (a b : nat) : list Z := skipn a (firstn b d).

(* client.py:99  midi_message.data[-2] * 128 + midi_message.data[-1]; IndexError for fewer than two bytes *)
Definition last_two (d : list Z) : res Z :=
  match rev d with
  | lo :: hi :: _ => Ok (hi * 128 + lo)
  | _ => Raise
  end.

(* client.py:72-138 parse_against. [resp] is a template: an object that is not one of the three message
   classes (None, a list, ...) fails every isinstance test and is [None] here. *)
Definition parse_against (t : ptype) (m : msg) (resp : option msg) : res (option value) :=
  match m with
  | SysEx man data =>
      match resp with
      | Some (SysEx rman rdata) =>
          if negb (bytes_eqb man rman) then Ok None                      (* 79-80 *)
          else if negb (bytes_eqb (slice data 2 6) (slice rdata 2 6)) then Ok None   (* 90-91 *)
          else match t with
               | Str => Ok (Some (VStr (removelast (skipn 6 data))))     (* 96: data[6:-1] *)
               | Numeric =>                                              (* 99 *)
                   match last_two data with Ok n => Ok (Some (VNum n)) | Raise => Raise end
               end
      | _ => Ok None                                                     (* 75-76 *)
      end
  | CC c v =>
      match resp with
      | Some (CC rc _) => if c =? rc then Ok (Some (VNum v)) else Ok None  (* 106-107 *)
      | _ => Ok None
      end
  | PC p =>
      match resp with
      | Some (PC _) => Ok (Some (VNum p))                                (* 114 *)
      | _ => Ok None
      end
  | _ => Ok None                                                         (* 138 *)
  end.

(* client.py:63-69 parse of the base class. A list as response is no message instance. *)
Definition parse_plain (m : mapping) (x : msg) : res (mapping * bool) :=
  match parse_against (typ m) x (match response_t m with TOne r => Some r | _ => None end) with
  | Raise => Raise
  | Ok (Some v) => Ok (with_val m (Some v), true)
  | Ok None => Ok (m, false)
  end.

(* client.py:222  128 * a + b  on ints, and on strings (repetition and concatenation); mixed is a TypeError *)
Definition combine (a b : value) : res value :=
  match a, b with
  | VNum x, VNum y => Ok (VNum (128 * x + y))
  | VStr x, VStr y => Ok (VStr (concat (repeat x 128) ++ y))
  | _, _ => Raise
  end.

(* client.py:213-226 parse of the two-part class. self.response[0], self.response[1]: anything but a list with
   enough entries raises (a message object is not subscriptable); response[1] is only evaluated if reached. *)
Definition parse_two (m : mapping) (x : msg) : res (mapping * bool) :=
  match response_t m with
  | TMany (r0 :: rest) =>
      match parse_against (typ m) x r0 with
      | Raise => Raise
      | Ok (Some v1) => Ok (with_value_1 m (Some v1), true)
      | Ok None =>
          match rest with
          | [] => Raise
          | r1 :: _ =>
              match parse_against (typ m) x r1 with
              | Raise => Raise
              | Ok None => Ok (m, false)
              | Ok (Some v2) =>
                  match value_1 m with
                  | None => Ok (m, false)
                  | Some v1 =>
                      match combine v1 v2 with
                      | Raise => Raise
                      | Ok v => Ok (with_value_1 (with_val m (Some v)) None, true)
                      end
                  end
              end
          end
      end
  | _ => Raise
  end.

(* dynamic dispatch of parse *)
Definition parse (m : mapping) (x : msg) : res (mapping * bool) :=
  if two_part m then parse_two m x else parse_plain m x.

(* client.py:174-175, 228-229 result_finished *)
Definition result_finished (m : mapping) : bool :=
  if two_part m then match value_1 m with None => true | Some _ => false end else true.

(* client.py:158-160: fill up to 8 bytes *)
Definition pad8 (d : list Z) : list Z := d ++ repeat 0 (8 - length d).

Fixpoint set_nth (n : nat) (x : Z) (d : list Z) : list Z :=
  match n, d with
  | _, [] => []
  | O, _ :: d' => x :: d'
  | S n', y :: d' => y :: set_nth n' x d'
  end.

Definition is_byte (b : Z) : bool := (0 <=? b) && (b <=? 255).

(* client.py:148-170 __set_value on one message. bytes(data) (166) raises if an entry is no byte.
   int(floor(value / 128)) is [v / 128] (exact below 2^53). Other objects (None, other classes) are left alone. *)
Definition set_value_one (t : ptype) (x : msg) (v : Z) : res msg :=
  match t with
  | Str => Raise                                             (* 149-150 *)
  | Numeric =>
      match x with
      | CC c _ => Ok (CC c v)                                (* 154 *)
      | SysEx man data =>
          let d := set_nth 7 (v mod 128) (set_nth 6 (v / 128) (pad8 data)) in
          if forallb is_byte d then Ok (SysEx man d) else Raise
      | PC _ => Ok (PC v)                                    (* 170 *)
      | other => Ok other
      end
  end.

(* The argument of set: one number, or a list of numbers. *)
Inductive setarg := One (v : Z) | Many (l : list Z).

(* client.py:142-144, list case: value[i] raises IndexError if there are too few values. Returns the entries
   as far as they were changed, and whether an exception left the loop. *)
Fixpoint set_value_list (t : ptype) (xs : list (option msg)) (vs : list Z) : list (option msg) * bool :=
  match xs with
  | [] => ([], true)
  | x :: xs' =>
      match vs with
      | [] => (xs, false)
      | v :: vs' =>
          match x with
          | None =>
              match t with
              | Str => (xs, false)
              | Numeric => let '(r, ok) := set_value_list t xs' vs' in (None :: r, ok)
              end
          | Some m =>
              match set_value_one t m v with
              | Raise => (xs, false)
              | Ok m' => let '(r, ok) := set_value_list t xs' vs' in (Some m' :: r, ok)
              end
          end
      end
  end.

(* client.py:141-146 set_value; the mapping's message objects are changed in place, also when an exception
   leaves the loop half way. The second component is false if an exception was raised.
   A list of values for a single message makes value / 128 raise, except that CC and PC store it unchecked:
   that misuse is outside the model (treated as raising). A number for a list of messages is not
   subscriptable and raises. *)
Definition set_value (m : mapping) (a : setarg) : mapping * bool :=
  match set_t m with
  | TMany xs =>
      match a with
      | Many vs => let '(xs', ok) := set_value_list (typ m) xs vs in (with_set m (TMany xs'), ok)
      | One _ => match xs with [] => (m, true) | _ => (m, false) end
      end
  | TOne x =>
      match a with
      | One v => match set_value_one (typ m) x v with
                 | Ok x' => (with_set m (TOne x'), true)
                 | Raise => (m, false)
                 end
      | Many _ => (m, false)
      end
  | TNone => match typ m with Str => (m, false) | Numeric => (m, true) end
  end.

(* Messages handed to midi.send for a message field: client.py:297-310 and 455-461 (None entries skipped). *)
Definition wire (t : tmpl) : list msg :=
  match t with
  | TNone => []
  | TOne x => [x]
  | TMany xs => flat_map (fun o => match o with Some x => [x] | None => [] end) xs
  end.

(* ---- Registry: the class level list ClientParameterMapping._mappings (client.py:13) ----
   An object is identified by its position in that list. *)

Definition registry := list mapping.

Fixpoint find_name (n : string) (r : registry) (i : nat) : option nat :=
  match r with
  | [] => None
  | m :: r' => if String.eqb (name m) n then Some i else find_name n r' (S i)
  end.

(* The arguments of get (name None is modelled by the empty name). *)
Record get_args := mkArgs {
  g_two_part : bool;        (* which factory is called *)
  g_name : string;
  g_set : tmpl; g_request : tmpl; g_response : tmpl;
  g_value : option value; g_type : ptype; g_depends : option nat
}.

Definition new_mapping (a : get_args) : mapping :=
  mkMapping (g_name a) (g_set a) (g_request a) (g_response a) (g_value a) (g_type a) (g_depends a)
            (g_two_part a) None.

(* client.py:17-37 and 187-204: both factories share the list; only the first checks for an empty name. *)
Definition get (r : registry) (a : get_args) : res (registry * nat) :=
  if negb (g_two_part a) && String.eqb (g_name a) "" then Raise
  else match find_name (g_name a) r 0 with
       | Some i => Ok (r, i)
       | None => Ok (r ++ [new_mapping a], length r)
       end.

(* A history of get calls; calls that raise leave the registry alone. *)
Definition get_step (r : registry) (a : get_args) : registry * list (string * option nat) :=
  match get r a with
  | Ok (r', i) => (r', [(g_name a, Some i)])
  | Raise => (r, [(g_name a, None)])
  end.
