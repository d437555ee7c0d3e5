(** Vocabulary for the statements about a program that has just been started. *)
From Coq Require Import String.
From Verif Require Import Base StorageModel CliSpec StartModel.
Open Scope list_scope.

(** The auxiliary vector of a process as read(2) delivers it, pair by pair, with
    interruptions. *)
Inductive pairs_read : list (Z * Z) -> list rd -> Prop :=
| pr_nil : pairs_read [] []
| pr_intr ps rs : pairs_read ps rs -> pairs_read ps (RIntr :: rs)
| pr_pair k v ps rs : 0 <= k < 2 ^ 64 -> 0 <= v < 2 ^ 64 -> pairs_read ps rs ->
    pairs_read ((k, v) :: ps) (RBytes (le_bytes 8 k ++ le_bytes 8 v) :: rs).

(** [b] is the last part of the path [p]. *)
Definition last_part (p b : list Z) : Prop :=
  ~ In 47 b /\ (p = b \/ exists d, p = d ++ 47 :: b).
Definition starts_with (p s : list Z) : Prop := exists r, s = p ++ r.

(** The file of a program: a path the kernel can give, whose last part is [name]. *)
Definition program (exe name : list Z) : Prop :=
  ~ In 0 exe /\ zlen exe <= 4096 /\ last_part exe name /\ name <> [] /\ zlen name <= 127.

(** What a program does until it is let go on by the tool no more: system calls with their
    number and result, and signals between them. *)
Inductive act := Call (nr ret : Z) | Sig (s : Z).
(** The stops a tracer sees: two for a call, with the number in its register at both and the
    result in its register at the second; one for a signal. *)
Inductive stops_of : list act -> list mstop -> Prop :=
| so_nil : stops_of [] []
| so_call nr ret f1 p1 f2 p2 x l evs : 0 <= nr < 2 ^ 31 -> stops_of l evs ->
    stops_of (Call nr ret :: l)
      (MStop 5 {| r_nr := nr; r_ret := x; r_fp := f1; r_pc := p1 |}
       :: MStop 5 {| r_nr := nr; r_ret := ret; r_fp := f2; r_pc := p2 |} :: evs)
| so_sig s r l evs : s <> 5 -> u64 (r_nr r) = 2 ^ 64 - 1 -> stops_of l evs ->
    stops_of (Sig s :: l) (MStop s r :: evs).
Definition is_call (x : act) : Prop := match x with Call _ _ => True | Sig _ => False end.
Definition not_call (n : Z) (x : act) : Prop := match x with Call nr _ => nr <> n | Sig _ => True end.

(** The file a status is read from: lines, then the one of the thread group. *)
Definition status_line (l : list Z) : Prop := exists b, l = b ++ [10] /\ ~ In 10 b /\ zlen l <= 255 /\
  ~ starts_with (str "Tgid:") l.

(** The bytes of a file as read(2) delivers them, piece by piece, with interruptions. *)
Inductive bytes_read : list Z -> list rd -> Prop :=
| br_end : bytes_read [] [RBytes []]
| br_intr bs rs : bytes_read bs rs -> bytes_read bs (RIntr :: rs)
| br_some b bs rs : b <> [] -> bytes_read bs rs -> bytes_read (b ++ bs) (RBytes b :: rs).

(** What is printed for a byte: itself, or backslash, x and two hexadecimal digits. *)
Definition printable (c : Z) : Prop := 32 <= c <= 126.
Inductive shown : list Z -> list Z -> Prop :=
| sh_nil : shown [] []
| sh_plain c bs t : printable c -> shown bs t -> shown (c :: bs) (c :: t)
| sh_hex c h l bs t : ~ printable c -> 
    nth_error (str "0123456789abcdef") (Z.to_nat (c / 16)) = Some h ->
    nth_error (str "0123456789abcdef") (Z.to_nat (c mod 16)) = Some l ->
    shown bs t -> shown (c :: bs) (str "\x" ++ h :: l :: t).

Definition sends (l : list kev) : Z := zlen (filter (fun e => match e with KSend => true | _ => false end) l).
Definition detached (l : list kev) : list Z :=
  flat_map (fun e => match e with KDetach t => [t] | _ => [] end) l.
(** A stop at the breakpoint the wrapper has before its execve, as the x86 leaves it: the
    byte before the program counter is 0xcc. *)
Definition stopped_after (byte : Z) (s : kstop) : Prop :=
  exists pc peek w, s = Some (pc, peek) /\ 0 < pc < 2 ^ 64 - 1 /\ peek (pc - 1) = Some w /\ 0 <= w < 2 ^ 64 /\ w mod 256 = byte.
(** As RISC-V leaves it: the word at the program counter. *)
Definition stopped_at (word : Z) (s : kstop) : Prop :=
  exists pc peek w, s = Some (pc, peek) /\ peek pc = Some w /\ w mod 2 ^ 32 = word.
