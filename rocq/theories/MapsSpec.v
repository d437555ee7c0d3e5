(** Vocabulary for the statements about /proc/pid/maps: what the kernel writes. *)
From Coq Require Import String.
From Verif Require Import Base StorageModel CliSpec ProcModel.
Open Scope list_scope.

(** An area of a process's memory. *)
Record area := {
  a_start : Z; a_end : Z; a_read : bool; a_write : bool; a_exec : bool; a_shared : bool;
  a_off : Z; a_major : Z; a_minor : Z; a_inode : Z; a_path : list Z }.

(** Hexadecimal, as the kernel writes it, with or without leading zeros. *)
Definition hex_digit (c d : Z) : Prop := (48 <= c <= 57 /\ d = c - 48) \/ (97 <= c <= 102 /\ d = c - 87).
Inductive hex_of : list Z -> Z -> Prop :=
| hex_one c d : hex_digit c d -> hex_of [c] d
| hex_more s v c d : hex_of s v -> hex_digit c d -> hex_of (s ++ [c]) (16 * v + d).

Definition letter (b : bool) (c : string) : list Z := str (if b then c else "-").
Definition access (a : area) : list Z :=
  letter (a_read a) "r" ++ letter (a_write a) "w" ++ letter (a_exec a) "x"
  ++ str (if a_shared a then "s" else "p").

(** [t] is the line of [a]: show_map_vma of the kernel,
    "%08lx-%08lx %c%c%c%c %08llx %02x:%02x %lu ", blanks, the name and a newline. *)
Definition line_of (a : area) (t : list Z) : Prop :=
  exists s e o mj mn i pad,
    hex_of s (a_start a) /\ hex_of e (a_end a) /\ hex_of o (a_off a) /\
    hex_of mj (a_major a) /\ hex_of mn (a_minor a) /\ numeral i (a_inode a) /\
    Forall (fun c => c = 32) pad /\
    t = s ++ str "-" ++ e ++ str " " ++ access a ++ str " " ++ o ++ str " " ++ mj ++ str ":"
        ++ mn ++ str " " ++ i ++ str " " ++ pad ++ a_path a ++ [10].

(** What the kernel can have: 64-bit addresses, device numbers of 12 and 20 bits, names
    without newline or NUL that do not start with white space. *)
Definition area_ok (a : area) : Prop :=
  0 <= a_start a < 2 ^ 64 /\ 0 <= a_end a < 2 ^ 64 /\ 0 <= a_off a < 2 ^ 64 /\
  0 <= a_major a < 2 ^ 12 /\ 0 <= a_minor a < 2 ^ 20 /\ 0 <= a_inode a < 2 ^ 63 /\
  ~ In 0 (a_path a) /\ ~ In 10 (a_path a) /\
  (forall c r, a_path a = c :: r -> is_space c = false).

(** The name the tool goes by: none, or the path up to the first white space, at most 255
    characters of it. *)
Definition short_name (p w : list Z) : Prop :=
  (p = [] /\ w = str "[anonymous]")
  \/ (exists r, p = w ++ r /\ w <> [] /\ Forall (fun c => is_space c = false) w /\ zlen w <= 255 /\
      (r = [] \/ zlen w = 255 \/ exists c q, r = c :: q /\ is_space c = true)).

(** [l] and [off] say what [a] is. *)
Definition says (a : area) (x : mline * Z) : Prop :=
  let '(l, off) := x in
  l_start l = a_start a /\ l_end l = a_end a /\ off = a_off a /\
  Z.testbit (l_prot l) 0 = a_read a /\ Z.testbit (l_prot l) 1 = a_write a /\
  Z.testbit (l_prot l) 2 = a_exec a /\ 0 <= l_prot l < 8 /\
  l_inode l = a_inode a mod 2 ^ 32 /\ short_name (a_path a) (l_name l).
