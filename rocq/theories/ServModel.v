(** A command sent to the server: libcare-client.c, libcare-server.c:handle_client.
    Definitions only. *)
From Verif Require Import Base.

(** ** The client *)

(** libcare-client.c:49-69: the bytes for [args]; [None]: "buflen overflow".
    Simplified: the sum of the lengths does not overflow an int. *)
Definition MAX_BUFLEN := 16384.
Definition encode (args : list (list Z)) : list Z :=
  flat_map (fun a => a ++ [0]) args ++ [0].
Definition client_message (args : list (list Z)) : option (list Z) :=
  let buflen := fold_left (fun n a => n + (zlen a + 1)) args 0 + 1 in
  if (buflen <=? 0) || (MAX_BUFLEN <? buflen) then None else Some (encode args).

(** libcare-client.c:24-44: what is sent for the command line [argv] (without the
    program's name); a leading argument that starts with '/' is the socket. *)
Definition starts_slash (a : list Z) : bool := match a with c :: _ => c =? 47 | [] => false end.
Definition client_args (argv : list (list Z)) : option (list (list Z)) :=
  match argv with
  | [] => None
  | a :: r => if starts_slash a then match r with [] => None | _ => Some r end else Some argv
  end.

(** ** The server *)

(** What recv does: delivers bytes, reports the end of the stream, EINTR, or another
    error. *)
Inductive recv_ev := Data (bs : list Z) | Eof | Eintr | Rerr.

(** [msg]: 4096 cells; [None] is a cell nothing was written to. *)
Definition MSG_SIZE := 4096.
Definition ARGV_SIZE := 32.
Definition msgbuf := Z -> option Z.
Definition msg_store (b : msgbuf) (off : Z) (bs : list Z) : msgbuf :=
  fun i => if (off <=? i) && (i <? off + zlen bs)
           then Some (nth (Z.to_nat (i - off)) bs 0) else b i.

(** libcare-server.c:162-165, the condition of the loop; [off] is compared with an
    unsigned number in the first part.  [None]: an uninitialised cell decides. *)
Definition again (b : msgbuf) (off : Z) : option bool :=
  if negb (u64 off <? MSG_SIZE) then Some false
  else if off <? 2 then Some true
  else match b (off - 2), b (off - 1) with
       | Some x, Some y => Some (negb (x =? 0) || negb (y =? 0))
       | _, _ => None
       end.

(** The outcome of handling one connection: the connection is closed, more input is
    awaited, the command is executed; or memory that was never written is used
    ([HUndef]), or something is written outside an array ([HOverrun]). *)
Inductive hres :=
  | HClosed | HWait | HExec (argv : list (list Z)) | HUndef | HOverrun.

Inductive lres := LDone (b : msgbuf) (off : Z) | LClosed | LWait | LUndef | LOverrun.

(** libcare-server.c:155-165.  recv is given the room left in the buffer. *)
Fixpoint recv_loop (evs : list recv_ev) (b : msgbuf) (off : Z) : lres :=
  match evs with
  | [] => LWait
  | e :: r =>
      let next b off :=
        match again b off with
        | None => LUndef
        | Some true => recv_loop r b off
        | Some false => LDone b off
        end in
      match e with
      | Eintr => next b off
      | Eof | Data [] => LClosed
      | Rerr => next b (off - 1)
      | Data bs =>
          let got := firstn (Z.to_nat (MSG_SIZE - off)) bs in
          if (off <? 0) || (MSG_SIZE <? off + zlen got) then LOverrun
          else next (msg_store b off got) (off + zlen got)
      end
  end.

(** libcare-server.c:172-185: positions of the arguments.  Result [None]: a cell
    never written is looked at; [Some None]: a write outside [argv].
    Fuel: the buffer's size. *)
Fixpoint scan (fuel : nat) (b : msgbuf) (off p : Z) (argv : list Z) : option (option (list Z)) :=
  match fuel with
  | O => None
  | S f =>
      if (p <? off) && (zlen argv <? ARGV_SIZE) then
        match b p with
        | None => None
        | Some c =>
            if negb (c =? 0) then scan f b off (p + 1) argv
            else if ARGV_SIZE <=? zlen argv then Some None
            else match b (p + 1) with
                 | None => None
                 | Some d => if d =? 0 then Some (Some argv)
                             else scan f b off (p + 2) (argv ++ [p + 1])
                 end
        end
      else Some (Some argv)
  end.

(** The string at a position of the buffer. *)
Fixpoint msg_str (fuel : nat) (b : msgbuf) (p : Z) : option (list Z) :=
  match fuel with
  | O => None
  | S f => match b p with
           | None => None
           | Some c => if c =? 0 then Some []
                       else match msg_str f b (p + 1) with
                            | Some s => Some (c :: s) | None => None end
           end
  end.
Fixpoint msg_strs (b : msgbuf) (ps : list Z) : option (list (list Z)) :=
  match ps with
  | [] => Some []
  | p :: r => match msg_str (Z.to_nat (MSG_SIZE - p)) b p, msg_strs b r with
              | Some s, Some l => Some (s :: l) | _, _ => None end
  end.

(** libcare-server.c:148-193: server_execute_cmd gets the arguments. *)
Definition handle_client (evs : list recv_ev) : hres :=
  match recv_loop evs (fun _ => None) 0 with
  | LClosed => HClosed
  | LWait => HWait
  | LUndef => HUndef
  | LOverrun => HOverrun
  | LDone b off =>
      if off =? MSG_SIZE then HClosed
      else match scan 4097 b off 0 [0] with
           | None => HUndef
           | Some None => HOverrun
           | Some (Some ps) => match msg_strs b ps with
                               | Some argv => HExec argv
                               | None => HUndef
                               end
           end
  end.
