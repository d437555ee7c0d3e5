(** The text of /proc/pid/maps: how kpatch_process.c reads it.  Definitions only. *)
From Coq Require Import String.
From Verif Require Import Base StorageModel ProcModel.
Open Scope list_scope.

(** ** fgets *)

(** fgets into a buffer of [k] + 1 bytes: up to and including the first newline, at most
    [k] characters. *)
Fixpoint fgets (k : nat) (s : list Z) : list Z * list Z :=
  match k, s with
  | O, _ => ([], s)
  | _, [] => ([], [])
  | S j, c :: r => if c =? 10 then ([c], r)
                   else let '(l, q) := fgets j r in (c :: l, q)
  end.

(** kpatch_process.c:507-515, the reads of the loop: line[1024].  [fuel]: the length of
    the text is enough, a read takes at least one character. *)
Fixpoint pieces (fuel : nat) (s : list Z) : list (list Z) :=
  match fuel, s with
  | S f, _ :: _ => let '(l, q) := fgets 1023 s in l :: pieces f q
  | _, _ => []
  end.

(** ** sscanf *)

Definition hex_val (c : Z) : option Z :=
  if (48 <=? c) && (c <=? 57) then Some (c - 48)
  else if (97 <=? c) && (c <=? 102) then Some (c - 87)
  else if (65 <=? c) && (c <=? 70) then Some (c - 55)
  else None.

(** The digits in base [b] (10 or 16) in front of [s]: how many, their value, the rest. *)
Fixpoint scan_digits (b : Z) (s : list Z) (n : nat) (v : Z) : nat * Z * list Z :=
  match s with
  | [] => (n, v, [])
  | c :: r => match hex_val c with
              | Some d => if d <? b then scan_digits b r (S n) (b * v + d) else (n, v, s)
              | None => (n, v, s)
              end
  end.

(** A sign *)
Definition scan_sign (s : list Z) : bool * list Z :=
  match s with
  | c :: r => if c =? 45 then (true, r) else if c =? 43 then (false, r) else (false, s)
  | [] => (false, [])
  end.

(** %lx: white space, a sign, 0x, digits; strtoul(3) gives ULONG_MAX when the number is too
    large and negates modulo 2^64.  Simplified: 0x without a digit does not match. *)
Definition scan_hex (s : list Z) : option (Z * list Z) :=
  let '(neg, s1) := scan_sign (skip_space s) in
  let s2 := match s1 with
            | 48 :: x :: r => if (x =? 120) || (x =? 88) then r else s1
            | _ => s1
            end in
  let '(n, v, r) := scan_digits 16 s2 0 0 in
  if Nat.eqb n 0 then None
  else Some ((if 2 ^ 64 <=? v then 2 ^ 64 - 1 else if neg then u64 (- v) else v), r).

(** %x: the same, stored in an unsigned int *)
Definition scan_x (s : list Z) : option (Z * list Z) :=
  match scan_hex s with Some (v, r) => Some (v mod 2 ^ 32, r) | None => None end.

(** %d into an unsigned int: white space, a sign, decimal digits; strtol(3) stops at the
    limits of long, the int is its lower half. *)
Definition scan_d (s : list Z) : option (Z * list Z) :=
  let '(neg, s1) := scan_sign (skip_space s) in
  let '(n, v, r) := scan_digits 10 s1 0 0 in
  if Nat.eqb n 0 then None
  else Some ((if neg then Z.max (- 2 ^ 63) (- v) else Z.min (2 ^ 63 - 1) v) mod 2 ^ 32, r).

(** %s and %255s: white space, then up to [k] characters that are no white space. *)
Fixpoint word (k : nat) (s : list Z) : list Z * list Z :=
  match k, s with
  | O, _ => ([], s)
  | _, [] => ([], [])
  | S j, c :: r => if is_space c then ([], s) else let '(w, q) := word j r in (c :: w, q)
  end.
Definition scan_s (k : nat) (s : list Z) : option (list Z * list Z) :=
  match word k (skip_space s) with
  | ([], _) => None
  | (w, r) => Some (w, r)
  end.
(** An ordinary character of the format *)
Definition scan_c (c : Z) (s : list Z) : option (list Z) :=
  match s with x :: r => if x =? c then Some r else None | [] => None end.

(** ** A line *)

(** perms2prot, kpatch_process.c:389-402; [None]: perms[1] or perms[2] is read though the
    word is too short for them to be set. *)
Definition perms2prot (p : list Z) : option Z :=
  match p ++ [0] with
  | a :: b :: c :: _ => Some ((if a =? 114 then 1 else 0) + (if b =? 119 then 2 else 0)
                              + (if c =? 120 then 4 else 0))
  | _ => None
  end.

(** makedev(3), glibc *)
Definition makedev (maj min : Z) : Z :=
  min mod 256 + (maj mod 4096) * 256 + (min / 256) * 2 ^ 20 + (maj / 4096) * 2 ^ 44.

(** What comes of a line: the numbers and the name (and the file offset, vma.offset), an
    error, or the use of variables that have not been set, or a write behind perms[5]. *)
Inductive lres := LOk (l : mline) (off : Z) | LErr | LUndef.

(** kpatch_process.c:516-532: sscanf with "%lx-%lx %s %lx %x:%x %d %255s", and what is
    made of its result.  A white space of the format matches any amount of it; the
    conversion behind it skips white space anyway, %s, %lx, %x and %d all do. *)
Definition scan_line (line : list Z) : lres :=
  let s := upto_nul line in
  match skip_space s with
  | [] => LErr                                        (* r == EOF *)
  | _ =>
  match scan_hex s with None => LUndef | Some (start, s) =>
  match scan_c 45 s with None => LUndef | Some s =>
  match scan_hex s with None => LUndef | Some (end_, s) =>
  match scan_s (length s) s with None => LUndef | Some (perms, s) =>
  if 4 <? zlen perms then LUndef else
  match scan_hex s with None => LUndef | Some (off, s) =>
  match scan_x s with None => LUndef | Some (maj, s) =>
  match scan_c 58 s with None => LUndef | Some s =>
  match scan_x s with None => LUndef | Some (min, s) =>
  match scan_d s with None => LUndef | Some (inode, s) =>
  match perms2prot perms with None => LUndef | Some prot =>
  let name := match scan_s 255 s with Some (w, _) => w | None => str "[anonymous]" end in
  LOk {| l_start := start; l_end := end_; l_prot := prot; l_dev := makedev maj min;
         l_inode := inode; l_name := name |} off
  end end end end end end end end end end
  end.

(** ** The file *)

(** The lines as the loop of kpatch_process_parse_proc_maps (506-561) meets them. *)
Inductive mres := MOk (ls : list (mline * Z)) | MErr | MUndef.
Fixpoint scan_lines (ps : list (list Z)) : mres :=
  match ps with
  | [] => MOk []
  | p :: r => match scan_line p with
              | LOk l off => match scan_lines r with
                             | MOk ls => MOk ((l, off) :: ls)
                             | e => e
                             end
              | LErr => MErr
              | LUndef => MUndef
              end
  end.
Definition read_maps (text : list Z) : mres := scan_lines (pieces (length text) text).
