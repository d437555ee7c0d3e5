(** Moves to and from symbols, directly and through the global offset table: their text
    and their effect on registers and memory. *)
From Coq Require Import String.
From Verif Require Import Base StorageModel TextSpec.
Open Scope list_scope.

(** ** Registers: the number of the 64-bit register and the part of it that is named *)
Inductive view := V64 | V32 | V16 | V8 | V8H.
Definition reg_names : list (Z * view * list Z) :=
  map (fun x => (fst x, str (snd x)))
  [((0, V64), "%rax"); ((0, V32), "%eax"); ((0, V16), "%ax"); ((0, V8), "%al"); ((0, V8H), "%ah");
   ((1, V64), "%rcx"); ((1, V32), "%ecx"); ((1, V16), "%cx"); ((1, V8), "%cl"); ((1, V8H), "%ch");
   ((2, V64), "%rdx"); ((2, V32), "%edx"); ((2, V16), "%dx"); ((2, V8), "%dl"); ((2, V8H), "%dh");
   ((3, V64), "%rbx"); ((3, V32), "%ebx"); ((3, V16), "%bx"); ((3, V8), "%bl"); ((3, V8H), "%bh");
   ((4, V64), "%rsp"); ((4, V32), "%esp"); ((4, V16), "%sp"); ((4, V8), "%spl");
   ((5, V64), "%rbp"); ((5, V32), "%ebp"); ((5, V16), "%bp"); ((5, V8), "%bpl");
   ((6, V64), "%rsi"); ((6, V32), "%esi"); ((6, V16), "%si"); ((6, V8), "%sil");
   ((7, V64), "%rdi"); ((7, V32), "%edi"); ((7, V16), "%di"); ((7, V8), "%dil");
   ((8, V64), "%r8"); ((8, V32), "%r8d"); ((8, V16), "%r8w"); ((8, V8), "%r8b");
   ((9, V64), "%r9"); ((9, V32), "%r9d"); ((9, V16), "%r9w"); ((9, V8), "%r9b");
   ((10, V64), "%r10"); ((10, V32), "%r10d"); ((10, V16), "%r10w"); ((10, V8), "%r10b");
   ((11, V64), "%r11"); ((11, V32), "%r11d"); ((11, V16), "%r11w"); ((11, V8), "%r11b");
   ((12, V64), "%r12"); ((12, V32), "%r12d"); ((12, V16), "%r12w"); ((12, V8), "%r12b");
   ((13, V64), "%r13"); ((13, V32), "%r13d"); ((13, V16), "%r13w"); ((13, V8), "%r13b");
   ((14, V64), "%r14"); ((14, V32), "%r14d"); ((14, V16), "%r14w"); ((14, V8), "%r14b");
   ((15, V64), "%r15"); ((15, V32), "%r15d"); ((15, V16), "%r15w"); ((15, V8), "%r15b")]%string.
Definition names_reg (nm : list Z) (i : Z) (v : view) : Prop := In (i, v, nm) reg_names.

(** The part of a register read and written; writing 32 bits clears the upper half. *)
Definition view_read (v : view) (x : Z) : Z :=
  match v with V64 => x mod 2 ^ 64 | V32 => x mod 2 ^ 32 | V16 => x mod 2 ^ 16 | V8 => x mod 2 ^ 8 | V8H => (x / 2 ^ 8) mod 2 ^ 8 end.
Definition view_write (v : view) (old x : Z) : Z :=
  match v with
  | V64 => x mod 2 ^ 64
  | V32 => x mod 2 ^ 32
  | V16 => 2 ^ 16 * (old / 2 ^ 16) + x mod 2 ^ 16
  | V8 => 2 ^ 8 * (old / 2 ^ 8) + x mod 2 ^ 8
  | V8H => 2 ^ 16 * (old / 2 ^ 16) + 2 ^ 8 * (x mod 2 ^ 8) + old mod 2 ^ 8
  end.

(** ** Instructions.  [fl] is what follows mov in the name. *)
Inductive source := SReg (i : Z) (v : view) | SImm (t : list Z).
Inductive instr :=
| Load (fl sym : list Z) (i : Z) (v : view)        (* mov sym(%rip), register *)
| Store (fl : list Z) (s : source) (sym : list Z)  (* mov source, sym(%rip) *)
| Got (sym : list Z) (i : Z)                       (* movq sym@GOTPCREL(%rip), register *)
| LoadAt (fl : list Z) (b : Z) (i : Z) (v : view)  (* mov (base), register *)
| StoreAt (fl : list Z) (s : source) (b : Z)       (* mov source, (base) *)
| Push (i : Z) | Pop (i : Z).

(** Their texts *)
Definition source_text (s : source) (t : list Z) : Prop :=
  match s with SReg i v => names_reg t i v | SImm w => t = str "$" ++ w end.
Inductive instr_text : instr -> list Z -> Prop :=
| it_load : forall fl sym i v r, names_reg r i v ->
    instr_text (Load fl sym i v) (str "	mov" ++ fl ++ str "	" ++ sym ++ str "(%rip), " ++ r)
| it_store : forall fl s t sym, source_text s t ->
    instr_text (Store fl s sym) (str "	mov" ++ fl ++ str "	" ++ t ++ str ", " ++ sym ++ str "(%rip)")
| it_got : forall sym i r, names_reg r i V64 ->
    instr_text (Got sym i) (str "	movq	" ++ sym ++ str "@GOTPCREL(%rip), " ++ r)
| it_loadat : forall fl b bn i v r, names_reg bn b V64 -> names_reg r i v ->
    instr_text (LoadAt fl b i v) (str "	mov" ++ fl ++ str "	(" ++ bn ++ str "), " ++ r)
| it_storeat : forall fl s t b bn, names_reg bn b V64 -> source_text s t ->
    instr_text (StoreAt fl s b) (str "	mov" ++ fl ++ str "	" ++ t ++ str ", (" ++ bn ++ str ")")
| it_push : forall i r, names_reg r i V64 -> instr_text (Push i) (str "	pushq	" ++ r)
| it_pop : forall i r, names_reg r i V64 -> instr_text (Pop i) (str "	popq	" ++ r).
(** A program is the lines of its instructions. *)
Inductive code_text : list instr -> list Z -> Prop :=
| ct_one : forall i t, instr_text i t -> code_text [i] t
| ct_more : forall i t c u, instr_text i t -> code_text c u -> code_text (i :: c) (t ++ 10 :: u).

(** ** Effect.  [addr]: the address of a symbol, which its slot of the global offset
    table holds; [ld fl m a]: the value a move of kind [fl] loads from [a]; [imm]: the
    value of an immediate operand; [sto fl x a m]: the memory after a move of kind [fl]
    stored [x] at [a]. *)
Record machine := { rg : Z -> Z; me : Z -> Z }.
Section Run.
Variable addr : list Z -> Z.
Variable ld : list Z -> (Z -> Z) -> Z -> Z.
Variable imm : list Z -> Z.
Variable sto : list Z -> Z -> Z -> (Z -> Z) -> (Z -> Z).
Definition set_reg (m : machine) (i : Z) (v : view) (x : Z) : machine :=
  {| rg := fun j => if j =? i then view_write v (rg m i) x else rg m j; me := me m |}.
Definition value (m : machine) (s : source) : Z :=
  match s with SReg i v => view_read v (rg m i) | SImm t => imm t end.
Definition rsp : Z := 4.
Fixpoint word (m : Z -> Z) (a : Z) (n : nat) : Z :=
  match n with O => 0 | S n' => m a mod 256 + 256 * word m (a + 1) n' end.
Definition put_word (m : Z -> Z) (a x : Z) : Z -> Z :=
  fun b => if (a <=? b) && (b <? a + 8) then (x / 256 ^ (b - a)) mod 256 else m b.
Definition exec (m : machine) (i : instr) : machine :=
  match i with
  | Load fl sym i v => set_reg m i v (ld fl (me m) (addr sym))
  | Store fl s sym => {| rg := rg m; me := sto fl (value m s) (addr sym) (me m) |}
  | Got sym i => set_reg m i V64 (addr sym)
  | LoadAt fl b i v => set_reg m i v (ld fl (me m) (rg m b))
  | StoreAt fl s b => {| rg := rg m; me := sto fl (value m s) (rg m b) (me m) |}
  | Push i => let x := rg m i in
              let sp := rg m rsp - 8 in
              {| rg := fun j => if j =? rsp then sp else rg m j; me := put_word (me m) sp x |}
  | Pop i => let x := word (me m) (rg m rsp) 8 in
             {| rg := fun j => if j =? i then x else if j =? rsp then rg m rsp + 8 else rg m j; me := me m |}
  end.
Definition run (m : machine) (c : list instr) : machine := fold_left exec c m.
End Run.

(** Registers hold 64 bits. *)
Definition regs_ok (m : machine) : Prop := forall i, 0 <= rg m i < 2 ^ 64.
(** The same machine, up to the memory at [skip] *)
Definition same_but (skip : Z -> Prop) (a b : machine) : Prop :=
  (forall i, rg a i = rg b i) /\ (forall x, ~ skip x -> me a x = me b x).
(** A plain symbol: a word without an at sign, not a local label *)
Definition plain_symbol (s : list Z) : Prop :=
  s <> [] /\ Forall (fun c => ~ In c asm_delims /\ c <> 34 /\ c <> 64) s /\ firstn 2 s <> str ".L".
(** What follows mov *)
Definition plain_flavor (f : list Z) : Prop :=
  Forall (fun c => ~ In c asm_delims) f /\ (length f < 16)%nat.
