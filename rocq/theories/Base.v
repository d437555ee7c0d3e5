(** Machine words, little-endian bytes, the patient's memory.
    Definitions only; lemmas are in BaseProofs.v. *)
From Coq Require Export ZArith List Bool Lia.
Export ListNotations.
Open Scope Z_scope.

(** ** Words.  C's unsigned arithmetic wraps; every place of the code where a
    wrap is possible is written with these. *)
Definition u8  (x : Z) : Z := x mod 2 ^ 8.
Definition u16 (x : Z) : Z := x mod 2 ^ 16.
Definition u32 (x : Z) : Z := x mod 2 ^ 32.
Definition u64 (x : Z) : Z := x mod 2 ^ 64.

(** Two's complement reading of the low [n] bits. *)
Definition sext (n x : Z) : Z :=
  let y := x mod 2 ^ n in if y <? 2 ^ (n - 1) then y else y - 2 ^ n.
Definition s32 (x : Z) : Z := sext 32 x.
Definition s64 (x : Z) : Z := sext 64 x.

(** ** Little-endian encoding of integers (the four architectures are all
    little-endian). *)
Fixpoint le_bytes (n : nat) (x : Z) : list Z :=
  match n with
  | O => []
  | S n' => x mod 256 :: le_bytes n' (x / 256)
  end.

Fixpoint le_val (bs : list Z) : Z :=
  match bs with
  | [] => 0
  | b :: r => b + 256 * le_val r
  end.

Definition byte_ok (b : Z) : Prop := 0 <= b < 256.
Definition bytes_ok (bs : list Z) : Prop := Forall byte_ok bs.

(** Length of a list as a [Z]. *)
Definition zlen {A : Type} (l : list A) : Z := Z.of_nat (length l).

(** [slice bs off n]: [n] bytes from offset [off], [None] when they are not all
    inside the buffer (an out-of-bounds access of the C program). *)
Definition slice (bs : list Z) (off n : Z) : option (list Z) :=
  if (0 <=? off) && (0 <=? n) && (off + n <=? zlen bs)
  then Some (firstn (Z.to_nat n) (skipn (Z.to_nat off) bs))
  else None.

(** Overwrite the bytes of [bs] from offset [off] by [new] (inside the buffer,
    otherwise [None]). *)
Definition splice (bs : list Z) (off : Z) (new : list Z) : option (list Z) :=
  if (0 <=? off) && (off + zlen new <=? zlen bs)
  then Some (firstn (Z.to_nat off) bs ++ new
             ++ skipn (Z.to_nat off + length new) bs)
  else None.

(** ** include/kpatch_common.h:19-20.
    [ROUND_DOWN(x, m) ((x) & ~((m) - 1))],
    [ROUND_UP(x, m) (((x) + (m) - 1) & ~((m) - 1))], computed in 64 bits. *)
Definition round_down (x m : Z) : Z := Z.land (u64 x) (u64 (Z.lnot (m - 1))).
Definition round_up (x m : Z) : Z := Z.land (u64 (x + m - 1)) (u64 (Z.lnot (m - 1))).

(** The page size of the machine, [getpagesize()] (include/kpatch_common.h:55-58):
    some power of two; 4 KiB and 64 KiB are the ones in use. *)
Definition page_ok (pg : Z) : Prop := exists k, 12 <= k <= 16 /\ pg = 2 ^ k.

(** ** The patient's memory: address to byte, [None] is unmapped. *)
Definition mem : Type := Z -> option Z.

(** Replace the bytes [a .. a + length bs) by [bs]. *)
Definition mset (m : mem) (a : Z) (bs : list Z) : mem :=
  fun x => if (a <=? x) && (x <? a + zlen bs)
           then Some (nth (Z.to_nat (x - a)) bs 0)
           else m x.

(** How many of the [n] bytes at [a] are mapped, counting from [a] upwards. *)
Fixpoint maplen (m : mem) (a : Z) (n : nat) : nat :=
  match n with
  | O => O
  | S n' => match m a with
            | None => O
            | Some _ => S (maplen m (a + 1) n')
            end
  end.

(** Read [n] bytes at [a]; [None] if one of them is unmapped. *)
Fixpoint mread (m : mem) (a : Z) (n : nat) : option (list Z) :=
  match n with
  | O => Some []
  | S n' => match m a, mread m (a + 1) n' with
            | Some b, Some r => Some (b :: r)
            | _, _ => None
            end
  end.

Definition in_range (x a n : Z) : Prop := a <= x < a + n.
Definition mapped (m : mem) (a n : Z) : Prop :=
  forall x, in_range x a n -> m x <> None.

(** pwrite(2) on /proc/pid/mem: transfers bytes up to the first unmapped one and
    returns how many.  Page protections are ignored by the kernel here. *)
Definition pwrite (m : mem) (a : Z) (bs : list Z) : nat * mem :=
  let k := maplen m a (length bs) in (k, mset m a (firstn k bs)).

(** mmap(MAP_FIXED|MAP_ANONYMOUS): zero-filled, replaces what was there. *)
Definition mmap_fixed (m : mem) (a n : Z) : mem :=
  fun x => if (a <=? x) && (x <? a + n) then Some 0 else m x.

(** munmap: nothing is mapped in the range any more. *)
Definition munmap (m : mem) (a n : Z) : mem :=
  fun x => if (a <=? x) && (x <? a + n) then None else m x.

(** C strings inside byte buffers: the bytes before the first NUL.  [None] when
    the buffer ends before a NUL (the C code would read on). *)
Fixpoint cstr (bs : list Z) : option (list Z) :=
  match bs with
  | [] => None
  | b :: r => if b =? 0 then Some []
              else match cstr r with Some s => Some (b :: s) | None => None end
  end.

Fixpoint list_eqb (xs ys : list Z) : bool :=
  match xs, ys with
  | [], [] => true
  | x :: xs', y :: ys' => (x =? y) && list_eqb xs' ys'
  | _, _ => false
  end.

(** strcmp on NUL-free byte strings: sign of the first difference of unsigned
    bytes, the terminating NUL counting as 0. *)
Fixpoint strcmp (xs ys : list Z) : Z :=
  match xs, ys with
  | [], [] => 0
  | [], y :: _ => - y
  | x :: _, [] => x
  | x :: xs', y :: ys' => if x =? y then strcmp xs' ys' else x - y
  end.
