(** What the ABIs require of a relocated field, and what the processors make of
    the instruction fields.  Written from the psABI documents and instruction
    set manuals; of the model, only the records are used (symbols, relocation
    entries, the section being relocated). *)
From Verif Require Import Base JumpSpec RelocModel.

(** [buf'] differs from [buf] at most in the [n] bytes at [off]. *)
Definition only_at (buf buf' : list Z) (off n : Z) : Prop :=
  length buf' = length buf /\
  forall i, 0 <= i -> ~ in_range i off n ->
    nth_error buf' (Z.to_nat i) = nth_error buf (Z.to_nat i).

(** The [n]-byte little-endian integer at [off] is [v]. *)
Definition has (buf : list Z) (off n v : Z) : Prop :=
  exists bs, slice buf off n = Some bs /\ le_val bs = v.

(** The bits of [w'] outside [mask] are those of [w]. *)
Definition keeps (mask w w' : Z) : Prop :=
  forall i, 0 <= i -> Z.testbit mask i = false -> Z.testbit w' i = Z.testbit w i.

(** A 64-bit value as the [n]-bit signed field a processor will sign-extend:
    the field represents the value. *)
Definition fits_signed (n v : Z) : Prop := - 2 ^ (n - 1) <= sext 64 v < 2 ^ (n - 1).
Definition fits_unsigned (n v : Z) : Prop := v mod 2 ^ 64 < 2 ^ n.

(** ** x86-64 psABI, table 4.9: field width in bytes and value, from symbol
    value, addend and place. *)
Definition x86_abi (ty S A P : Z) : option (nat * Z) :=
  match ty with
  | 0 => Some (0%nat, 0)
  | 1 => Some (8%nat, S + A)
  | 2 => Some (4%nat, S + A - P)
  | 10 => Some (4%nat, S + A)
  | 11 => Some (4%nat, S + A)
  | _ => None
  end.

Definition undefined (s : sym) : Prop := y_shndx s = 0 \/ 0xff00 <= y_shndx s.
Definition undefinedb (s : sym) : bool := (y_shndx s =? 0) || (0xff00 <=? y_shndx s).
Definition place (c : rctx) (r : rela) : Z := t_addr c + r_offset r.
Definition locn (c : rctx) (r : rela) : Z := t_off c + r_offset r.

(** Width and value required of a relocation of a patch.  Undefined symbols have
    a jump-table slot as their value, whose second half (slot + 8) holds the
    address and serves as the GOT entry; their real address is kept in st_size,
    and is what .kpatch.info needs.  The addend of a thread-local GOT reference
    is the distance of the object's own GOT entry from the load address, and
    refers to the end of the 4-byte field. *)
Inductive x86_right (c : rctx) (s : sym) (r : rela) : Z -> Z -> Prop :=
| xr_abi n v : ~ (t_info c = true /\ undefined s) ->
    x86_abi (r_type r) (y_value s) (r_addend r) (place c r) = Some (n, v) ->
    x86_right c s r (Z.of_nat n) v
| xr_info n v : t_info c = true -> undefined s ->
    x86_abi (r_type r) (y_size s) 0 (place c r) = Some (n, v) ->
    x86_right c s r (Z.of_nat n) v
| xr_got : t_info c = false -> undefined s -> In (r_type r) [9; 41; 42] ->
    x86_right c s r 4 (y_value s + 8 + r_addend r - place c r)
| xr_tls : ~ undefined s -> y_type s = 6 -> In (r_type r) [9; 22; 41; 42] ->
    x86_right c s r 4 (t_load c + r_addend r - (place c r + 4)).

(** Field widths of the types that are supported; the supported types. *)
Definition x86_width (ty : Z) : Z :=
  if ty =? 1 then 8
  else if existsb (Z.eqb ty) [2; 9; 10; 11; 22; 41; 42] then 4 else 0.
Definition x86_known (ty : Z) : bool :=
  existsb (Z.eqb ty) [0; 1; 2; 9; 10; 11; 18; 22; 23; 41; 42].

(** No two relocations of a section overlap. *)
Definition disjoint_fields (width : Z -> Z) (c : rctx) (rs : list rela) : Prop :=
  ForallOrdPairs (fun r1 r2 =>
    locn c r1 + width (r_type r1) <= locn c r2 \/
    locn c r2 + width (r_type r2) <= locn c r1) rs.

(** ** AArch64 *)
(** Page of an address. *)
Definition pg12 (x : Z) : Z := 4096 * (x / 4096).
(** ADRP: immhi = bits 23..5, immlo = bits 30..29. *)
Definition adrp_result (pc w : Z) : Z :=
  u64 (pg12 pc + 4096 * sext 21 (4 * bits w 23 5 + bits w 30 29)).
(** ADD immediate / LDR, STR unsigned offset: imm12 = bits 21..10. *)
Definition imm12 (w : Z) : Z := bits w 21 10.
(** B, BL: imm26. *)
Definition b26_target (pc w : Z) : Z := u64 (pc + 4 * sext 26 (bits w 25 0)).
(** The immediate bits of each. *)
Definition adrp_mask : Z := 0x60FFFFE0.
Definition imm12_mask : Z := 0x003FFC00.
Definition b26_mask : Z := 0x03FFFFFF.
Definition a64_width (ty : Z) : Z :=
  if ty =? 257 then 8
  else if existsb (Z.eqb ty) [275; 277; 278; 282; 283; 285; 286; 311; 312; 541] then 4 else 0.

(** What the field [w'] that replaces [w] must be, for a target [X] and a place
    [P] (both 64-bit addresses).  Branch and page relocations have to be right
    only if the target is in range. *)
Definition a64_right (ty X P : Z) (w w' : Z) : Prop :=
  if ty =? 257 then w' = X
  else if existsb (Z.eqb ty) [275; 311; 541] then
    keeps adrp_mask w w' /\
    (- 2 ^ 32 <= pg12 X - pg12 P < 2 ^ 32 -> adrp_result P w' = pg12 X)
  else if ty =? 277 then keeps imm12_mask w w' /\ imm12 w' = X mod 4096
  else if ty =? 286 then
    keeps imm12_mask w w' /\ (X mod 8 = 0 -> imm12 w' * 8 = X mod 4096)
  else if existsb (Z.eqb ty) [282; 283] then
    keeps b26_mask w w' /\
    ((X - P) mod 4 = 0 -> - 2 ^ 27 <= X - P < 2 ^ 27 -> b26_target P w' = X)
  else keeps imm12_mask w w'.

(** Where a relocation points: the symbol plus the addend; for undefined symbols
    in .kpatch.info their real address; for global thread-local symbols the
    object's GOT entry. *)
Definition a64_X (c : rctx) (s : sym) (r : rela) : Z :=
  if y_type s =? 6 then u64 (r_addend r + t_load c)
  else if t_info c && undefinedb s then y_size s
  else u64 (y_value s + r_addend r).

(** LD64_GOT_LO12_NC: for an undefined object the load reads the second half of
    its slot; otherwise the load (from a GOT that does not exist) becomes
    "add x, x, #lo12". *)
Definition a64_got_right (s : sym) (X w w' : Z) : Prop :=
  if (y_type s =? 1) && (y_shndx s =? 0) && (y_bind s =? 1)
  then keeps imm12_mask w w' /\ (X mod 8 = 0 -> imm12 w' * 8 = (X + 8) mod 4096)
  else keeps 0xFFFFFC00 w w' /\ bits w' 31 22 = 0x244 /\ imm12 w' = X mod 4096.

Definition a64_good (s : sym) (ty X P w w' : Z) : Prop :=
  if ty =? 312 then a64_got_right s X w w' else a64_right ty X P w w'.

Definition a64_known (ty : Z) : bool :=
  existsb (Z.eqb ty) [0; 257; 275; 277; 278; 282; 283; 285; 286; 311; 312; 541; 542].

(** A relocation against a local thread-local symbol. *)
Definition local_tls (syms : list sym) (r : rela) : Prop :=
  exists s, nth_error syms (Z.to_nat (r_sym r)) = Some s /\ y_type s = 6 /\ y_bind s = 0.

Definition sym_ok (s : sym) : Prop := addr_ok (y_value s) /\ addr_ok (y_size s).

(** ** RISC-V *)
Definition u_imm (w : Z) : Z := sext 32 (bits w 31 12 * 4096).
Definition i_imm (w : Z) : Z := sext 12 (bits w 31 20).
Definition s_imm (w : Z) : Z := sext 12 (bits w 31 25 * 32 + bits w 11 7).
Definition j_imm (w : Z) : Z :=
  sext 21 (bits w 31 31 * 2 ^ 20 + bits w 19 12 * 2 ^ 12 + bits w 20 20 * 2 ^ 11
           + bits w 30 21 * 2).
(** C.J: offset[11|4|9:8|10|6|7|3:1|5] in bits 12..2. *)
Definition cj_imm (w : Z) : Z :=
  sext 12 (bits w 12 12 * 2 ^ 11 + bits w 8 8 * 2 ^ 10 + bits w 10 9 * 2 ^ 8
           + bits w 6 6 * 2 ^ 7 + bits w 7 7 * 2 ^ 6 + bits w 2 2 * 2 ^ 5
           + bits w 11 11 * 2 ^ 4 + bits w 5 3 * 2).
(** C.LUI: nzimm[17] in bit 12, nzimm[16:12] in bits 6..2. *)
Definition clui_imm (w : Z) : Z := sext 18 (bits w 12 12 * 2 ^ 17 + bits w 6 2 * 2 ^ 12).
Definition u_mask : Z := 0xFFFFF000.
Definition i_mask : Z := 0xFFF00000.
Definition s_mask : Z := 0xFE000F80.
Definition j_mask : Z := 0xFFFFF000.
Definition cj_mask : Z := 0x1FFC.
Definition clui_mask : Z := 0x107C.
(** The signed distance from [P] to [X]. *)
Definition dist (X P : Z) : Z := sext 64 (X - P).
(** What a pair hi20/lo12 can reach: the low part is sign-extended. *)
Definition hi_lo_reach (d : Z) : Prop := - 2 ^ 31 - 2 ^ 11 <= d < 2 ^ 31 - 2 ^ 11.

Definition rv_width (ty : Z) : Z :=
  if ty =? 2 then 8
  else if existsb (Z.eqb ty) [18; 19] then 8
  else if existsb (Z.eqb ty) [45; 46] then 2
  else if existsb (Z.eqb ty) [1; 17; 21; 23; 24; 25; 26; 27; 28; 56; 57] then 4 else 0.

(** Old and new content of the field, for a target [X] and a place [P]; [D] is
    the low half's own distance, for the types that refer to another
    instruction's relocation.  RVC_JUMP and RVC_LUI are in separate theorems. *)
Definition rv_right (ty X P D w w' : Z) : Prop :=
  if ty =? 2 then w' = X
  else if existsb (Z.eqb ty) [1; 56] then sext 32 w' = sext 64 X
  else if ty =? 57 then sext 32 w' = dist X P
  else if ty =? 17 then
    keeps j_mask w w' /\
    (dist X P mod 2 = 0 -> - 2 ^ 20 <= dist X P < 2 ^ 20 -> j_imm w' = dist X P)
  else if existsb (Z.eqb ty) [18; 19] then
    keeps (u_mask + i_mask * 2 ^ 32) w w' /\
    (hi_lo_reach (dist X P) -> u_imm (bits w' 31 0) + i_imm (bits w' 63 32) = dist X P)
  else if existsb (Z.eqb ty) [23; 21] then
    keeps u_mask w w' /\
    (hi_lo_reach (dist X P) -> u_imm w' + sext 12 (dist X P) = dist X P)
  else if ty =? 26 then
    keeps u_mask w w' /\
    (hi_lo_reach (sext 64 X) -> u_imm w' + sext 12 X = sext 64 X)
  else if ty =? 27 then keeps i_mask w w' /\ i_imm w' = sext 12 X
  else if ty =? 28 then keeps s_mask w w' /\ s_imm w' = sext 12 X
  else if ty =? 24 then keeps i_mask w w' /\ i_imm w' = sext 12 D
  else if ty =? 25 then keeps s_mask w w' /\ s_imm w' = sext 12 D
  else True.

(** Branches are ignored (their targets are in the same function), and so are
    the relaxation marks. *)
Definition rv_known (ty : Z) : bool :=
  existsb (Z.eqb ty) [0; 1; 2; 16; 17; 18; 19; 21; 23; 24; 25; 26; 27; 28; 29; 30; 31; 32; 35; 36;
                      39; 40; 44; 45; 46; 47; 48; 49; 50; 51; 56; 57].

(** the target of TLS_GOT_HI20 against a defined thread-local symbol is the
    object's own GOT entry *)
Definition rv_X (c : rctx) (s : sym) (r : rela) (val : Z) : Z :=
  if (r_type r =? 21) && negb (undefinedb s) && (y_type s =? 6)
  then u64 (r_addend r + t_load c) else val.

(** The types for which the object of an undefined symbol is reached through
    the jump table. *)
Definition rv_adjusts (s : sym) (ty : Z) : bool :=
  undefinedb s && (y_type s =? 1) && existsb (Z.eqb ty) [26; 21; 46].
Definition rv_plain (syms : list sym) (r : rela) : Prop :=
  forall s, nth_error syms (Z.to_nat (r_sym r)) = Some s -> rv_adjusts s (r_type r) = false.

(** ** LoongArch *)
(** si12 = bits 21..10; si20 = bits 24..5; offs16 = bits 25..10;
    offs21 = bits 4..0 : bits 25..10; offs26 = bits 9..0 : bits 25..10. *)
Definition la_si12 (w : Z) : Z := sext 12 (bits w 21 10).
Definition la_si20 (w : Z) : Z := sext 20 (bits w 24 5).
Definition la_b16_target (pc w : Z) : Z := u64 (pc + 4 * sext 16 (bits w 25 10)).
Definition la_b21_target (pc w : Z) : Z :=
  u64 (pc + 4 * sext 21 (bits w 4 0 * 2 ^ 16 + bits w 25 10)).
Definition la_b26_target (pc w : Z) : Z :=
  u64 (pc + 4 * sext 26 (bits w 9 0 * 2 ^ 16 + bits w 25 10)).
(** pcaddi rd, si20: pc + 4 * si20; pcalau12i: page of pc + 4096 * si20. *)
Definition la_pcaddi (pc w : Z) : Z := u64 (pc + 4 * la_si20 w).
Definition la_pcalau12i (pc w : Z) : Z := u64 (pg12 pc + 4096 * la_si20 w).
Definition si12_mask : Z := 0x003FFC00.
Definition si20_mask : Z := 0x01FFFFE0.
Definition b16_mask : Z := 0x03FFFC00.
Definition b21_mask : Z := 0x03FFFC1F.
Definition b26la_mask : Z := 0x03FFFFFF.

Definition la_width (ty : Z) : Z :=
  if existsb (Z.eqb ty) [2; 51; 56] then 8
  else if existsb (Z.eqb ty) [0; 100] then 0 else 4.

(** The number of 4096-byte pages a HI20 relocation is about: the address, or its distance from
    the instruction, for 71 rounded such that a signed low part completes it; 79 and 91 take 32 bits. *)
Definition la_pages (ty X P : Z) : Z :=
  if ty =? 67 then X / 4096
  else if ty =? 71 then (X + 2048) / 4096 - P / 4096
  else if existsb (Z.eqb ty) [75; 87] then X / 4096 - P / 4096
  else sext 32 X / 4096.
(** Old and new content of the field, target [X], place [P].  For B16 and the HI20 types, which the
    code gets wrong, it says what is stored: the distance in bytes and a quarter of the pages. *)
Definition la_right (ty X P w w' : Z) : Prop :=
  if ty =? 1 then w' = X mod 2 ^ 32
  else if ty =? 2 then w' = X mod 2 ^ 64
  else if ty =? 50 then w' = (w + X) mod 2 ^ 32
  else if ty =? 51 then w' = (w + X) mod 2 ^ 64
  else if ty =? 55 then w' = (w - X) mod 2 ^ 32
  else if ty =? 56 then w' = (w - X) mod 2 ^ 64
  else if existsb (Z.eqb ty) [68; 72; 76; 80; 88; 92] then
    keeps si12_mask w w' /\ la_si12 w' = sext 12 X
  else if ty =? 64 then keeps b16_mask w w' /\ bits w' 25 10 = (X - P) mod 2 ^ 16
  else if ty =? 65 then keeps b21_mask w w' /\ la_b21_target P w' = u64 X
  else if ty =? 66 then keeps b26la_mask w w' /\ la_b26_target P w' = u64 X
  else if ty =? 103 then keeps si20_mask w w' /\ la_pcaddi P w' = u64 X
  else keeps si20_mask w w' /\ bits w' 24 5 = la_pages ty X P / 4 mod 2 ^ 20.

Definition la_known (ty : Z) : bool :=
  existsb (Z.eqb ty) [0; 1; 2; 50; 51; 55; 56; 64; 65; 66; 67; 68; 71; 72; 75; 76; 79; 80;
                      87; 88; 91; 92; 100; 103].

(** 1 as a symbol value plus addend, or as the place of the object's GOT entry,
    would be taken for a mark (arch_elf.c:112). *)
Definition la_no_mark (c : rctx) (s : sym) (r : rela) : Prop :=
  u64 (y_value s + r_addend r) <> 1 /\ u64 (t_load c + r_addend r) <> 1.
