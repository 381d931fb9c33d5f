(* Navigation in the web application: routes are queued. /repo/web/htdocs/js/routing/CallbackQueue.js, js/routing/Routing.js. *)
From Verif.Lib Require Import Base.
Local Open Scope list_scope.

Section Queue.
  (* What a route is called with (this.params of sammy.js, with the URL) *)
  Context {A : Type}.

  (* What can be seen from outside: the route of call i begins with context c, an error of it is shown, it has ended *)
  Inductive obs := Start (i : nat) (c : A) | Shown (i : nat) | End (i : nat).
  (* [q_waiting]: #queue (line 23), each entry with the number of the call; [q_running]: #running (24); [q_active]: callbacks which have been called (line 51) and whose promise is not settled;
     [q_ready]: calls whose promise has been fulfilled, so that the code after the await (52-54) will run; [q_count]: calls so far *)
  Record queue := { q_waiting : list (nat * A); q_running : bool; q_active : list nat; q_ready : list nat; q_count : nat; q_log : list obs }.
  Definition empty : queue := {| q_waiting := []; q_running := false; q_active := []; q_ready := []; q_count := 0; q_log := [] |}.

  (* CallbackQueue.js 63-72: trigger, with the first part of the callback (49-51), which runs until the callback returns its promise *)
  Definition trigger (s : queue) : queue :=
    if q_running s then s
    else match q_waiting s with
         | [] => s
         | (i, c) :: w => {| q_waiting := w; q_running := true; q_active := q_active s ++ [i]; q_ready := q_ready s; q_count := q_count s; q_log := q_log s ++ [Start i c] |}
         end.
  (* CallbackQueue.js 45-58: enqueue *)
  Definition enqueue (c : A) (s : queue) : queue :=
    {| q_waiting := q_waiting s ++ [(q_count s, c)]; q_running := q_running s; q_active := q_active s; q_ready := q_ready s; q_count := S (q_count s); q_log := q_log s |}.
  (* CallbackQueue.js 30-40: add returns a function; it is called with the context c *)
  Definition call (c : A) (s : queue) : queue := trigger (enqueue c s).
  (* Routing.js 107-119 #executeRoute: [reset], [route], [message]: ui.reset, the route and controller.handle do not throw. The result: is the error handled, is the promise fulfilled *)
  Definition execute (reset route message : bool) : bool * bool :=
    if reset then if route then (false, true) else (true, message) else (true, message).

  Inductive event :=
  (* A route is requested (sammy.js calls the function given to get) *)
  | Call (c : A)
  (* The promise of the callback of call i is settled *)
  | Settle (i : nat) (reset route message : bool)
  (* The code after the await of call i runs *)
  | Resume (i : nat).

  Definition step (s : queue) (e : event) : queue :=
    match e with
    | Call c => call c s
    | Settle i a b m =>
        if existsb (Nat.eqb i) (q_active s) then
          {| q_waiting := q_waiting s; q_running := q_running s; q_active := filter (fun j => negb (Nat.eqb i j)) (q_active s);
             q_ready := if snd (execute a b m) then q_ready s ++ [i] else q_ready s; q_count := q_count s;
             q_log := q_log s ++ (if fst (execute a b m) then [Shown i] else []) ++ [End i] |}
        else s
    (* CallbackQueue.js 52-54 *)
    | Resume i =>
        if existsb (Nat.eqb i) (q_ready s) then
          trigger {| q_waiting := q_waiting s; q_running := false; q_active := q_active s; q_ready := filter (fun j => negb (Nat.eqb i j)) (q_ready s); q_count := q_count s; q_log := q_log s |}
        else s
    end.
  Definition run (l : list event) : queue := fold_left step l empty.
End Queue.
Arguments obs : clear implicits.
Arguments queue : clear implicits.
Arguments event : clear implicits.
