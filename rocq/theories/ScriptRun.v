(** * Running one script: its processes, its two pipes, the tasks reading them, and the join.
    crates/node-maintainer/src/linkers/mod.rs:280-357 (the second half of [run_dep_script]),
    crates/oro-script/src/lib.rs:51-52 (both streams are pipes) and 247-259 ([ScriptChild::wait]). *)
From Verif Require Import Base.
Set Implicit Arguments.
Open Scope list_scope.

Definition bytes := list ascii.
Definition nl : ascii := ascii_of_nat 10.
Definition cr : ascii := ascii_of_nat 13.

Inductive stream := SOut | SErr.
Definition same (a b : stream) : bool := match a, b with SOut, SOut | SErr, SErr => true | _, _ => false end.

(** What a process of the script does, a byte at a time: write to one of the streams (which it shares with the script that
    started it), or start another process in the background. Simplified: what it computes and reads is left out, and every
    process ends. *)
Inductive act := AWrite (s : stream) (b : ascii) | AFork (child : list act).
Definition prog := list act.

(** str::from_utf8 (core::str::validations, the table of first and second bytes), as BufRead::read_line applies it *)
Definition cont (c : ascii) : bool := let n := nat_of_ascii c in Nat.leb 128 n && Nat.leb n 191.
Definition between (a b : nat) (c : ascii) : bool := let n := nat_of_ascii c in Nat.leb a n && Nat.leb n b.
Fixpoint utf8_ok (s : bytes) : bool :=
  match s with
  | [] => true
  | a :: t =>
      if between 0 127 a then utf8_ok t
      else match t with
      | [] => false
      | b :: t =>
          if between 194 223 a then cont b && utf8_ok t
          else match t with
          | [] => false
          | c :: t =>
              if between 224 224 a then between 160 191 b && cont c && utf8_ok t
              else if between 225 236 a || between 238 239 a then cont b && cont c && utf8_ok t
              else if between 237 237 a then between 128 159 b && cont c && utf8_ok t
              else match t with
              | [] => false
              | d :: t =>
                  if between 240 240 a then between 144 191 b && cont c && cont d && utf8_ok t
                  else if between 241 243 a then cont b && cont c && cont d && utf8_ok t
                  else if between 244 244 a then between 128 143 b && cont c && cont d && utf8_ok t
                  else false
              end
          end
      end
  end.

(** io::Lines (BufRead::lines): the line without its line feed, and without a carriage return before it; what follows the last
    line feed is a line as it is *)
Definition chomp (l : bytes) : bytes :=
  match rev l with c :: t => if Ascii.eqb c cr then rev t else l | [] => [] end.

(** The task of one stream (mod.rs:310-325, 326-343): reading (with what it has read and not passed on yet), at its end, or ended
    by a line that is not UTF-8; in the last case its end of the pipe is closed. *)
Inductive reader := Reading (buf : bytes) | Done | Broken.
(** A stream: what is in the pipe, and the task. [sent] is not in the code: everything written to it so far. *)
Record chan := Chan { pipe : bytes; task : reader; sent : bytes }.
Definition chans := stream -> chan.
Definition upd (s : stream) (c : chan) (f : chans) : chans := fun x => if same s x then c else f x.

(** What run_dep_script returns for a script that was spawned (futures::try_join!, mod.rs:309-356) *)
Inductive outcome := Success | BadStatus | BadLine.

(** [sh]: the script's own process (what is left of it, and whether it will end with success); [status]: how it ended;
    [bg]: the background processes; [waiter]: the third task (mod.rs:344-347); [log]: the calls of on_script_line so far, with
    the stream (the handler does not see it); [returned]: what the join has returned. *)
Record st := mkSt {
  sh : option (prog * bool);
  status : option bool;
  bg : list prog;
  ch : chans;
  waiter : option bool;
  log : list (stream * bytes);
  returned : option outcome }.

Definition alive (x : st) : bool := match sh x, bg x with None, [] => false | _, _ => true end.

Section Run.
  (** the size of a pipe *)
  Variable cap : nat.

  (** a process goes on: a write waits for room in the pipe; into a pipe nobody reads it fails, which the process may ignore *)
  Inductive goes : chans -> prog -> chans -> prog -> list prog -> Prop :=
  | GWrite f s b r buf :
      task (f s) = Reading buf -> List.length (pipe (f s)) < cap ->
      goes f (AWrite s b :: r) (upd s (Chan (pipe (f s) ++ [b]) (Reading buf) (sent (f s) ++ [b])) f) r []
  | GIgnored f s b r : task (f s) = Broken -> goes f (AWrite s b :: r) f r []
  | GFork f c r : goes f (AFork c :: r) f r [c].

  (** ... or not, and is killed by SIGPIPE *)
  Definition killed (f : chans) (p : prog) : Prop := match p with AWrite s _ :: _ => task (f s) = Broken | _ => False end.

  (** one stream's task: it reads what there is (some of it), and passes lines on; [al]: is a process left that could write? *)
  Inductive reads (al : bool) : chan -> chan -> option bytes -> Prop :=
  | RRead buf a b w : a <> [] -> ~ In nl buf -> reads al (Chan (a ++ b) (Reading buf) w) (Chan b (Reading (buf ++ a)) w) None
  | RLine l r p w : ~ In nl l -> utf8_ok (l ++ [nl]) = true ->
      reads al (Chan p (Reading (l ++ nl :: r)) w) (Chan p (Reading r) w) (Some (chomp l))
  | RBadLine l r p w : ~ In nl l -> utf8_ok (l ++ [nl]) = false ->
      reads al (Chan p (Reading (l ++ nl :: r)) w) (Chan p Broken w) None
  | RLast l w : al = false -> l <> [] -> ~ In nl l -> utf8_ok l = true -> reads al (Chan [] (Reading l) w) (Chan [] (Reading []) w) (Some l)
  | RBadLast l w : al = false -> l <> [] -> ~ In nl l -> utf8_ok l = false -> reads al (Chan [] (Reading l) w) (Chan [] Broken w) None
  | REnd w : al = false -> reads al (Chan [] (Reading []) w) (Chan [] Done w) None.

  Definition joined (x : st) (o : outcome) : Prop :=
    match o with
    | Success => task (ch x SOut) = Done /\ task (ch x SErr) = Done /\ waiter x = Some true
    | BadStatus => waiter x = Some false
    | BadLine => task (ch x SOut) = Broken \/ task (ch x SErr) = Broken
    end.

  (** One step of anything. The tasks run on threads of their own (spawn_blocking) and are not stopped when the join returns
      early; that is why there are steps after it. *)
  Inductive step : st -> st -> Prop :=
  | SShell p e so f f' p' new b w l o : goes f p f' p' new ->
      step (mkSt (Some (p, e)) so b f w l o) (mkSt (Some (p', e)) so (b ++ new) f' w l o)
  | SKilled p e so b f w l o : killed f p -> step (mkSt (Some (p, e)) so b f w l o) (mkSt None (Some false) b f w l o)
  | SExit e so b f w l o : step (mkSt (Some ([], e)) so b f w l o) (mkSt None (Some e) b f w l o)
  | SBack x so b1 b2 p p' new f f' w l o : goes f p f' p' new ->
      step (mkSt x so (b1 ++ p :: b2) f w l o) (mkSt x so (b1 ++ p' :: b2 ++ new) f' w l o)
  | SBackEnd x so b1 b2 p f w l o : p = [] \/ killed f p -> step (mkSt x so (b1 ++ p :: b2) f w l o) (mkSt x so (b1 ++ b2) f w l o)
  | SRead x s c line : reads (alive x) (ch x s) c line ->
      step x (mkSt (sh x) (status x) (bg x) (upd s c (ch x)) (waiter x)
                   (log x ++ match line with Some t => [(s, t)] | None => [] end) (returned x))
  | SWait x e b f l o : step (mkSt x (Some e) b f None l o) (mkSt x (Some e) b f (Some e) l o)
  | SJoin x o : returned x = None -> joined x o -> step x (mkSt (sh x) (status x) (bg x) (ch x) (waiter x) (log x) (Some o)).

  Definition start (p : prog) (e : bool) : st :=
    mkSt (Some (p, e)) None [] (fun _ => Chan [] (Reading []) []) None [] None.
  Inductive reach (p : prog) (e : bool) : st -> Prop :=
  | R0 : reach p e (start p e)
  | RS x y : reach p e x -> step x y -> reach p e y.
End Run.

(** mod.rs:266-298 and 349-360: what run_dep_script returns ([true]: Ok). package.json is read first, and failing to is an error even
    for an optional package; without a script for the event nothing runs; spawning, and then the script, may fail, which does
    not matter for an optional package. *)
Inductive attempt := Unreadable | NoScript | NotSpawned | Ran (o : outcome).
Definition dep_script (optional : bool) (a : attempt) : bool :=
  match a with
  | Unreadable => false
  | NoScript => true
  | NotSpawned => optional
  | Ran Success => true
  | Ran _ => optional
  end.
