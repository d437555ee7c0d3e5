(** copy_file of the compiler wrapper (/repo/src/kpatch_cc.c:995-1047).  Definitions only. *)
From Verif Require Import Base.

(** What the kernel answers to a read or a write: [Did n] does [n] bytes, or as many as
    are asked for and there are, at least one; [Intr] is EINTR, [Bad] another error. *)
Inductive io := Did (n : nat) | Intr | Bad.
(** How the copy ends: the contents of the new file; kpccfatal; a read of bytes outside
    the buffer (undefined in C, EFAULT or foreign data for the kernel); out of steps *)
Inductive copied := Done (out : list Z) | Fatal (out : list Z) | Outside | Steps.

Definition buf_size : nat := 4096.
Definition how_many (n asked : nat) : nat := Nat.min (Nat.max 1 n) asked.
(** write at [pos] of a file *)
Definition overwrite (file : list Z) (pos : nat) (bs : list Z) : list Z :=
  firstn pos file ++ bs ++ skipn (pos + length bs) file.

(** 1010-1037.  [buf] is the buffer, 4096 bytes; [inp] what is left of the input; [wr] is
    [Some (r, w)] inside the loop 1024-1036; [out] and [pos] are the output file and the
    position in it; [ro] and [wo] the answers to come to reads and to writes, a full read
    or write when they run out. *)
Definition first_io (o : list io) : io := match o with [] => Did buf_size | a :: _ => a end.
Fixpoint copy_loop (fuel : nat) (ro wo : list io) (buf inp : list Z) (wr : option (nat * nat)) (out : list Z) (pos : nat) : copied :=
  match fuel with
  | O => Steps
  | S f =>
      match wr with
      | None =>
          match first_io ro with
          | Intr => copy_loop f (tl ro) wo buf inp None out pos
          | Bad => Fatal out
          | Did n =>
              let r := how_many n (Nat.min buf_size (length inp)) in
              if Nat.eqb r 0 then Done out
              else copy_loop f (tl ro) wo (firstn r inp ++ skipn r buf) (skipn r inp) (Some (r, O)) out pos
          end
      | Some (r, w) =>
          if Nat.ltb w r then
            if Nat.ltb (length buf) (w + r) then Outside
            else match first_io wo with
                 | Intr => copy_loop f ro (tl wo) buf inp (Some (r, w)) out pos
                 | Bad => Fatal out
                 | Did n =>
                     let c := how_many n r in                      (* write(fdout, buffer + w, r) *)
                     let bs := firstn c (skipn w buf) in
                     copy_loop f ro (tl wo) buf inp (Some (r, (w + c)%nat)) (overwrite out pos bs) (pos + c)
                 end
          else copy_loop f ro wo buf inp None out pos
      end
  end.
(** [there] is what the output file holds when it is opened: nothing if unlink removed it
    (1005; its failure is ignored and the file is not truncated, 1007); [junk] what the
    buffer holds. *)
Definition copy_file (fuel : nat) (ro wo : list io) (junk inp there : list Z) : copied := copy_loop fuel ro wo junk inp None there 0.
