(** What the relocations of a patch are to mean before and after kpatch_strip --rel-fixup. *)
From Coq Require Import String.
From Verif Require Import Base RelocModel RelocSpec TextModel StorageModel StripModel.
Open Scope list_scope.

(** Where a relocation points: the number of a section and the place in it.  A section's
    symbol stands for its start. *)
Inductive points (secs : list sec) (syms : list sym) (r : rela) : Z -> Z -> Prop :=
| pt_section : forall y, nth_error syms (Z.to_nat (r_sym r)) = Some y -> y_type y = STT_SECTION ->
    points secs syms r (y_shndx y) (r_addend r mod 2 ^ 64)
| pt_symbol : forall y s, nth_error syms (Z.to_nat (r_sym r)) = Some y -> y_type y <> STT_SECTION -> y_type y <> STT_TLS ->
    nth_error secs (Z.to_nat (y_shndx y)) = Some s ->
    points secs syms r (y_shndx y) ((y_value y - s_addr s + r_addend r) mod 2 ^ 64).
(** A reference to the Global Offset Table on x86-64 *)
Definition got_type (t : Z) : Prop := In t [9; 41; 42].
(** The type of relocation afterwards: a call through the PLT becomes a call. *)
Definition retyped (t t' : Z) : Prop := t' = t \/ t = 4 /\ t' = 2.
(** The register after the instruction [op] with the memory operand at [ea] *)
Definition register (op ea : Z) (mem : Z -> Z) : option Z :=
  if op =? 0x8b then Some (mem ea) else if op =? 0x8d then Some ea else None.
(** An entry of .rela.dyn *)
Definition dynrela (o : obj) (e : rela) : Prop :=
  exists pre s suf rs, tl (o_secs o) = pre ++ s :: suf /\ Forall (fun t => s_name t <> str ".rela.dyn") pre
    /\ s_name s = str ".rela.dyn" /\ s_data s = CRelas rs /\ In e rs.
(** The offset of a thread-local variable of the program itself is put in a slot. *)
Definition tpoff_slot (types : list Z) (o : obj) (v slot : Z) : Prop :=
  exists e, dynrela o e /\ In (r_type e) types /\ r_sym e = 0 /\ r_addend e = v /\ r_offset e = slot.
(** ADRP: the page the instruction at [pc] names *)
Definition adrp_page (w pc : Z) : Z :=
  let imm := w / 2 ^ 5 mod 2 ^ 19 * 4 + w / 2 ^ 29 mod 4 in
  let imm := if imm <? 2 ^ 20 then imm else imm - 2 ^ 21 in
  (pc / 4096 + imm) * 4096.
