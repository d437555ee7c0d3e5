(** The sections of the lines of an assembler file, as the assembler sees them;
    independent of ParseModel's tables. *)
From Coq Require Import String.
From Verif Require Import Base StorageModel TextModel TextSpec.
Open Scope list_scope.

(** What a directive does to the current section *)
Inductive sop := Enter (n : list Z) | Push (n : list Z) | Pop | Previous | Sub | Stay.

(** The state of the GNU assembler: the section, the section before, the stack *)
Record gas := { g_cur : list Z; g_prev : option (list Z); g_stack : list (list Z * option (list Z)) }.
Definition gas_step (g : gas) (o : sop) : gas :=
  match o with
  | Enter n => {| g_cur := n; g_prev := Some (g_cur g); g_stack := g_stack g |}
  | Push n => {| g_cur := n; g_prev := Some (g_cur g); g_stack := (g_cur g, g_prev g) :: g_stack g |}
  | Pop => match g_stack g with
           | (c, p) :: s => {| g_cur := c; g_prev := p; g_stack := s |}
           | [] => g                                         (* a warning *)
           end
  | Previous => match g_prev g with
                | Some p => {| g_cur := p; g_prev := Some (g_cur g); g_stack := g_stack g |}
                | None => g                                  (* a warning *)
                end
  | Sub => {| g_cur := g_cur g; g_prev := Some (g_cur g); g_stack := g_stack g |}
  | Stay => g
  end.
Definition gas_start : gas := {| g_cur := str ".text"; g_prev := None; g_stack := [] |}.
(** The section each line is in, after its directive *)
Fixpoint gas_sections (g : gas) (os : list sop) : list (list Z) :=
  match os with [] => [] | o :: r => let g' := gas_step g o in g_cur g' :: gas_sections g' r end.

(** The name in a section directive: the word after the directive, up to a blank, comma
    or semicolon, or a quoted word *)
Definition word_of (w : list Z) : Prop := w <> [] /\ Forall (fun c => ~ In c asm_delims) w /\ hd_error w <> Some 34.
Definition name_word (n : list Z) : Prop := n <> [] /\ Forall (fun c => ~ In c [32; 9; 44; 10; 59]) n /\ hd_error n <> Some 34.
Definition names_section (s n : list Z) : Prop :=
  exists g w g' r, blank g /\ word_of w /\ blank g' /\ g' <> []
    /\ ((name_word n /\ (forall c r', r = c :: r' -> In c [32; 9; 44; 10; 59]) /\ s = g ++ w ++ g' ++ n ++ r)
        \/ (n <> [] /\ ~ In 34 n /\ ~ In 92 n /\ s = g ++ w ++ g' ++ 34 :: n ++ 34 :: r)).
(** The same with the flags behind the name *)
Definition names_flags (s n fl : list Z) : Prop :=
  exists g w g' g1 g2 r, blank g /\ word_of w /\ blank g' /\ g' <> [] /\ blank g1 /\ blank g2
    /\ ~ In 34 fl /\ ~ In 92 fl
    /\ ((name_word n /\ s = g ++ w ++ g' ++ n ++ g1 ++ 44 :: g2 ++ 34 :: fl ++ 34 :: r)
        \/ (n <> [] /\ ~ In 34 n /\ ~ In 92 n /\ s = g ++ w ++ g' ++ 34 :: n ++ 34 :: g1 ++ 44 :: g2 ++ 34 :: fl ++ 34 :: r)).
(** What a line with a directive says *)
Definition says (d : dir) (s : list Z) (o : sop) : Prop :=
  match d with
  | DText => o = Enter (str ".text")
  | DData => o = Enter (str ".data")
  | DBss => o = Enter (str ".bss")
  | DSection => exists n, names_section s n /\ o = Enter n
  | DPushsection => exists n, names_section s n /\ o = Push n
  | DPopsection => o = Pop
  | DPrevious => o = Previous
  | DSubsection => o = Sub
  | _ => o = Stay
  end.
(** Simple files: .popsection comes before any other change of the section after
    .pushsection; .previous does not come straight after .popsection nor before the
    first change.  The state: what the section before is known to be. *)
Inductive phase := Fresh | Known | Pushed.
Fixpoint simple (p : phase) (os : list sop) : Prop :=
  match os with
  | [] => True
  | Stay :: r => simple p r
  | o :: r => match p, o with
              | Pushed, Pop => simple Fresh r
              | Pushed, _ => False
              | _, Enter _ | _, Sub => simple Known r
              | _, Push _ => simple Pushed r
              | Known, Previous => simple Known r
              | _, _ => False
              end
  end.
