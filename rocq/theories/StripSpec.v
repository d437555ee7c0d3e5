(** What kpatch_strip is to do to an object file. *)
From Coq Require Import String.
From Verif Require Import Base RelocModel EngineModel TextModel StorageModel StripModel.
Open Scope list_scope.

(** ** Stripping *)
(** The sections a patch is made of *)
Definition wanted (n : text) : Prop :=
  (exists a b, n = a ++ str "kpatch" ++ b) \/ n = str ".symtab" \/ n = str ".strtab" \/ n = str ".shstrtab".
(** A section of the stripped file and the section it comes from *)
Definition stripped (s s' : sec) : Prop :=
  s_name s' = s_name s /\ s_addr s' = s_addr s /\ s_link s' = s_link s /\ s_info s' = s_info s /\ s_align s' = s_align s /\
  (wanted (s_name s) -> s_type s' = s_type s /\ s_flags s' = s_flags s /\
     (s_name s <> str ".kpatch.info" -> s_data s' = s_data s /\ s_size s' = s_size s) /\
     (s_name s = str ".kpatch.info" -> forall bs, s_data s = CBytes bs -> s_size s = zlen bs -> zlen bs + 24 < 2 ^ 64 ->
        s_data s' = CBytes (bs ++ repeat 0 24) /\ s_size s' = zlen bs + 24)) /\
  (~ wanted (s_name s) -> s_type s' = SHT_NOBITS /\ s_data s' = CBytes [] /\ s_size s' = s_size s).
(** The place of a section in the file *)
Definition in_file (s : sec) : Prop := wanted (s_name s).
(** Sections in their places: each aligned, none before [lo], each after those before it,
    all before [hi] *)
Inductive laid : Z -> list sec -> Z -> Prop :=
| laid_nil : forall lo hi, lo <= hi -> laid lo [] hi
| laid_in : forall lo s ss hi, in_file s -> lo <= s_offset s -> s_offset s mod s_align s = 0 -> 0 <= s_size s ->
    laid (s_offset s + s_size s) ss hi -> laid lo (s :: ss) hi
| laid_out : forall lo s ss hi, ~ in_file s -> laid lo ss hi -> laid lo (s :: ss) hi.

(** ** Undoing the link *)
(** The relocation before, when the section relocated is put back at [a] *)
Definition relinked (a : Z) (r r' : rela) : Prop :=
  (r_offset r' + a) mod 2 ^ 64 = r_offset r /\ r_type r' = r_type r /\ r_sym r' = r_sym r /\ r_addend r' = r_addend r.
(** The symbol before, when its section is put back at [a] *)
Definition resymbol (a : Z) (y y' : sym) : Prop :=
  (y_value y' + a) mod 2 ^ 64 = y_value y /\ y_name y' = y_name y /\ y_size y' = y_size y /\ y_shndx y' = y_shndx y
  /\ y_type y' = y_type y /\ y_bind y' = y_bind y.
(** Symbols that are relative to no section: undefined, reserved, thread-local; and those
    of sections *)
Definition free (y : sym) : Prop := y_shndx y = 0 \/ 0xff00 <= y_shndx y \/ y_type y = STT_TLS \/ y_type y = STT_SECTION.
Definition sec_addr (secs : list sec) (n a : Z) : Prop := exists s, nth_error secs (Z.to_nat n) = Some s /\ s_addr s = a.
(** Everything of a section but its address, and the offsets of its relocations *)
Definition same_section (s s' : sec) : Prop :=
  s_name s' = s_name s /\ s_type s' = s_type s /\ s_flags s' = s_flags s /\ s_offset s' = s_offset s /\ s_size s' = s_size s
  /\ s_link s' = s_link s /\ s_info s' = s_info s /\ s_align s' = s_align s.
(** Memory is given to the section when the program runs. *)
Definition alloc (s : sec) : Prop := Z.odd (s_flags s / 2) = true.
(** One list within another, in order *)
Inductive within {A} : list A -> list A -> Prop :=
| wi_nil : forall l, within [] l
| wi_take : forall x a l, within a l -> within (x :: a) (x :: l)
| wi_skip : forall x a l, within a l -> within a (x :: l).
