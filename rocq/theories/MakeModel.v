(** Making a patch file: kpatch_make.c.  Definitions only. *)
From Coq Require Import String.
From Verif Require Import Base StorageModel.
Open Scope list_scope.

(** ALIGN(size, 16), kpatch_make.c:33; the size of a file is not negative. *)
Definition align16 (n : Z) : Z := Z.land (n + 15) (Z.lnot 15).

(** strncpy(dst, s, n): at most [n] bytes of the string, the rest NUL. *)
Definition strncpy (s : list Z) (n : Z) : list Z :=
  let c := firstn (Z.to_nat n) (upto_nul s) in
  c ++ repeat 0 (Z.to_nat (n - zlen c)).

(** struct kpatch_file as filled by make_file, kpatch_make.c:39-57; layout in
    include/kpatch_file.h:130-180. *)
Definition make_header (size : Z) (bid id : list Z) (now : Z) : list Z :=
  str "KPATCH1" ++ [0]                      (* magic, 0 *)
  ++ strncpy id 7 ++ [0]                    (* id, 8 *)
  ++ [0; 0] ++ repeat 0 6                   (* flags, safety_method, pad, 16 *)
  ++ repeat 0 64                            (* modulename, 24 *)
  ++ strncpy bid 40 ++ [0] ++ repeat 0 7    (* buildid, pad1, 88 *)
  ++ le_bytes 8 now                         (* build_time, 136 *)
  ++ le_bytes 4 0 ++ le_bytes 4 0           (* csum, nr_reloc, 144 *)
  ++ le_bytes 4 504                         (* kpatch_offset, 152 *)
  ++ le_bytes 4 504                         (* rel_offset, 156 *)
  ++ le_bytes 4 (504 + align16 size)        (* total_size, 160 *)
  ++ le_bytes 4 0 ++ le_bytes 4 0 ++ repeat 0 4   (* jmp_offset, elf_offset, pad2 *)
  ++ le_bytes 8 0                           (* kpatch_total_mem_sz, 176 *)
  ++ repeat 0 64                            (* entries, 184 *)
  ++ repeat 0 256.                          (* srcversion, pad3, 248 *)

(** The bytes of the mapped input, with the zeros of the last page, that write is
    given: kpatch_make.c:55,59. *)
Definition make_body (input : list Z) : list Z :=
  input ++ repeat 0 (Z.to_nat (align16 (zlen input) - zlen input)).

(** make_file, kpatch_make.c:39-68: result and what the output holds afterwards.
    [w1], [w2]: the results of the two calls of write; a call that returns [w >= 0]
    has written that many bytes, one that fails none.  [res] is an int, compared
    with an unsigned 64-bit sum. *)
Definition make_file (input bid id : list Z) (now w1 w2 : Z) : Z * list Z :=
  let hdr := make_header (zlen input) bid id now in
  let out := firstn (Z.to_nat w1) hdr ++ firstn (Z.to_nat w2) (make_body input) in
  let res := s32 (s32 w1 + w2) in
  if negb (u64 res =? u64 (504 + align16 (zlen input))) then (-1, out) else (0, out).

(** kpatch_make.c:main 125-171.  Options not given are [None]; [input = None] when it
    cannot be opened, queried or mapped (an empty file cannot be mapped);
    [out_ok]: the output can be opened.  The result is the exit status (-1 is 255 to
    the caller, usage exits with 1) and the contents of the output, [None] if it was
    not opened.  A build id of the wrong length is only complained about. *)
Definition make_main (bid id : option (list Z)) (input : option (list Z)) (out_ok : bool)
    (now w1 w2 : Z) : Z * option (list Z) :=
  match bid, id with
  | Some b, Some (c :: i) =>
      match input with
      | None | Some [] => (-1, None)
      | Some d => if out_ok
                  then let '(r, o) := make_file d b (c :: i) now w1 w2 in (r, Some o)
                  else (-1, None)
      end
  | _, _ => (1, None)
  end.
