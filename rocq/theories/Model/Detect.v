(* Finding a Kemper at a MIDI port: /repo/web/htdocs/clients/kemper/KemperClientDetector.js. Bytes are numbers. *)
From Verif.Lib Require Import Base.
Open Scope Z_scope.

(* 1-4 *)
Definition manufacturer : list Z := [0x00; 0x20; 0x33].
Definition product_type : Z := 0x02.
(* Array.slice(from, to) for 0 <= from *)
Definition js_slice (l : list Z) (from to : nat) : list Z := skipn from (firstn to l).
(* JSON.stringify of two lists of numbers is the same if the lists are *)
Fixpoint same (a b : list Z) : bool := match a, b with [], [] => true | x :: a, y :: b => (x =? y) && same a b | _, _ => false end.
(* 19-41: is the message the answer? Empty messages have no first byte *)
Definition detects (data : list Z) : bool :=
  match data with
  | [] => false
  | first :: _ =>
      if negb (first =? 0xf0) || negb (last data 0 =? 0xf7) then false
      else if negb (same (js_slice data 1 4) manufacturer) then false
      else same (js_slice (js_slice data 4 (length data - 1)) 2 6) [0x01; 0x00; 0x04; 0x01]
  end.
(* 45-58: the request *)
Definition request : list Z := 0xf0 :: manufacturer ++ [product_type; 0x7f; 0x41; 0x00; 0x04; 0x01; 0xf7].
