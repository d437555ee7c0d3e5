(** What a command line of kpatch_strip asks for, as the usage text says. *)
From Coq Require Import String.
From Verif Require Import Base StorageModel StripModel FixupSpec StripMainModel.
Open Scope list_scope.

(** A word that names one action: its letter, or its name or the beginning of it *)
Inductive action_word : list Z -> mode -> Prop :=
| aw_letter : forall c m, In (c, m) [(115, MStrip); (114, MFixup); (117, MUndo)] -> action_word [45; c] m
| aw_name : forall full n rest m, In (full, m) [(str "strip", MStrip); (str "rel-fixup", MFixup); (str "undo-link", MUndo)] ->
    full = n ++ rest -> n <> [] -> action_word (str "--" ++ n) m.
(** A word that is no option *)
Definition operand (f : list Z) : Prop := f = str "-" \/ forall r, f <> 45 :: r.
(** One action and two files; behind "--" a file may begin with a dash. *)
Definition asks (args : list (list Z)) (m : mode) (f1 f2 : list Z) : Prop :=
  exists w, action_word w m /\ (args = [w; f1; f2] /\ operand f1 \/ args = [w; str "--"; f1; f2]).

(** Each descriptor that was opened is closed once, and no other. *)
Fixpoint opened (evs : list sev) : list (list Z) :=
  match evs with SOpen n _ true :: r => n :: opened r | _ :: r => opened r | [] => [] end.
Fixpoint closed (evs : list sev) : list (list Z) :=
  match evs with SClose n :: r => n :: closed r | _ :: r => closed r | [] => [] end.

(** A file before and after --rel-fixup: sections differ only in their content; relocations
    point where they pointed, and bytes change only where a load from the global offset table
    becomes the computation of the address. *)
Definition same_but_data (s s' : sec) : Prop :=
  s_name s' = s_name s /\ s_type s' = s_type s /\ s_flags s' = s_flags s /\ s_addr s' = s_addr s /\ s_offset s' = s_offset s /\
  s_size s' = s_size s /\ s_link s' = s_link s /\ s_info s' = s_info s /\ s_align s' = s_align s.
Definition got_load (p : obj) (k : nat) (j : nat) : Prop :=
  exists i s rs r t, nth_error (o_secs p) i = Some s /\ s_type s = 4 /\ s_data s = CRelas rs /\ In r rs /\ Z.to_nat (s_info s) = k /\
    got_type (RelocModel.r_type r) /\ nth_error (o_secs p) k = Some t /\
    Z.of_nat j = (RelocModel.r_offset r - s_addr t - 2) mod 2 ^ 64.
Definition bytes_fixed (p : obj) (k : nat) (bs bs' : list Z) : Prop :=
  length bs' = length bs /\ forall j, nth_error bs' j = nth_error bs j \/
    (nth_error bs j = Some 0x8b /\ nth_error bs' j = Some 0x8d /\ got_load p k j).
Definition relas_fixed (p : obj) (rs rs' : list RelocModel.rela) : Prop :=
  Forall2 (fun r r' => RelocModel.r_offset r' = RelocModel.r_offset r /\
     exists y, nth_error (o_syms p) (Z.to_nat (RelocModel.r_sym r)) = Some y /\
     (RelocModel.y_type y <> 6 -> retyped (RelocModel.r_type r) (RelocModel.r_type r') /\
        forall sh o, points (o_secs p) (o_syms p) r sh o -> points (o_secs p) (o_syms p) r' sh o)) rs rs'.
Definition data_fixed (p : obj) (k : nat) (s s' : sec) : Prop :=
  match s_data s, s_data s' with
  | CRelas rs, CRelas rs' => if s_type s =? 4 then relas_fixed p rs rs' else rs' = rs
  | CBytes bs, CBytes bs' => bytes_fixed p k bs bs'
  | _, _ => False
  end.
