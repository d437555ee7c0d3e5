(** What functions called in a process are expected to do. *)
From Coq Require Import String.
From Verif Require Import Base StorageModel TextModel RemoteModel PtraceModel CoroModel CallModel.
Open Scope list_scope.

(** A function that uses at most [k] bytes of stack, below the stack pointer it is entered with, changes nothing else and comes back with the stack pointer it was entered with. *)
Definition tame (a : carch) (k : Z) (f : callee) : Prop :=
  forall addr g m m2 g2, f addr g m = Some (m2, g2) ->
    (forall x, ~ (g (sp_reg a) - k <= x < g (sp_reg a)) -> m2 x = m x) /\ g2 (sp_reg a) = g (sp_reg a).
Definition word_at (m : mem) (x v : Z) : Prop := mread m x 8 = Some (le_bytes 8 v).
(** makecontext of glibc on x86-64, without arguments for the new function and with the top of the stack aligned: the address of
    __start_context is put three words below the top; rbp is kept. *)
Definition glibc_makecontext (mk start : Z) (f : callee) : Prop :=
  forall g m m2 g2 sp size, f mk g m = Some (m2, g2) -> word_at m (g 7 + 16) sp -> word_at m (g 7 + 32) size -> 0 <= sp < 2 ^ 64 -> 0 <= size < 2 ^ 64 -> g 2 = 0 -> (sp + size) mod 16 = 0 ->
    word_at m2 (sp + size - 24) start /\ g2 5 = g 5.
(** The thread runs until the breakpoint; other signals than SIGTRAP (5) and SIGSTOP (19) are handed on. *)
Inductive reaches_trap : list (bool * wstatus) -> Prop :=
| Trap r : reaches_trap ((true, Stopped 5) :: r)
| Signal sig r : sig <> 5 -> sig <> 19 -> reaches_trap r -> reaches_trap ((true, Stopped sig) :: r).
Definition apart (x n y k : Z) : Prop := x + n <= y \/ y + k <= x.
(** The registers a resolver is entered with (the stack pointer and, where there is one, the link register apart): the argument and other
    registers the tool sets hold zero (on RISC-V what the tool's stack held), one of them the resolver's address; the others are the thread's. *)
Definition tool_sets (a : carch) : list Z :=
  match a with
  | CX86 => [0; 1; 2; 3; 5; 6; 7; 8; 9; 10; 11; 12; 13; 14; 15]
  | CAarch64 => [0; 1; 2; 3; 4; 5; 8; 9; 10; 11; 12; 13; 14; 15; 16; 17; 18; 19; 20; 29]
  | CRiscv => [10; 11; 12; 13; 14; 15; 16; 17]
  | CLoong => [4; 5; 6; 7; 8; 9; 10; 11]
  end.
Definition entered (a : carch) (junk : Z -> Z) (addr : Z) (r0 : cpu) (g : Z -> Z) : Prop :=
  g (match a with CX86 => 0 | CAarch64 => 8 | CRiscv => 10 | CLoong => 4 end) = addr
  /\ (forall x, In x (tool_sets a) -> x <> (match a with CX86 => 0 | CAarch64 => 8 | CRiscv => 10 | CLoong => 4 end) -> g x = match a with CRiscv => junk x | _ => 0 end)
  /\ (forall x, ~ In x (tool_sets a) -> x <> (match a with CX86 => 4 | CAarch64 => 30 | _ => 1 end) -> g x = gr r0 x).

(** * Names of objects *)
Definition begins (p s : text) : Prop := exists r, s = p ++ r.
Definition contains (p s : text) : Prop := exists a b, s = a ++ p ++ b.
(** The first element with the property *)
Definition first_with {A} (P : A -> Prop) (l : list A) (x : A) : Prop := exists a b, l = a ++ x :: b /\ P x /\ Forall (fun y => ~ P y) a.
Definition answers {A} (r : option A) (P : A -> Prop) (l : list A) : Prop :=
  match r with Some x => first_with P l x | None => Forall (fun y => ~ P y) l end.
(** Names without characters that mean something in a regular expression *)
Definition plain_text (s : text) : Prop := Forall (fun c => ~ In c (str ".[]*\^$")) s.

(** glibc's makecontext on RISC-V: __start_context is put into the context (its program counter, at 176),
    nothing on the new stack; written are the context, 968 bytes, and its own frame; s0 is kept. *)
Definition glibc_makecontext_riscv (mk start : Z) (f : callee) : Prop :=
  forall g m m2 g2, f mk g m = Some (m2, g2) ->
    g2 8 = g 8 /\ word_at m2 (g 10 + 176) start
    /\ exists k, 0 <= k <= 1024 /\ forall x, ~ (g 10 <= x < g 10 + 968) -> ~ (g 2 - k <= x < g 2) -> m2 x = m x.

(** * The instructions of x86-64 in the injected code, from the manual: all with REX.W, registers 0 ... 7, no SIB byte. *)
Inductive xinstr :=
| XMov (d s : Z) | XAnd (d imm : Z) | XSub (d imm : Z) | XLea (d b disp : Z) | XStore (b disp s : Z) | XStoreI (b disp imm : Z) | XMovI (d imm : Z) | XXor (d s : Z) | XCall (r : Z) | XTrap.
Definition signed (bits v : Z) : Z := if v <? 2 ^ (bits - 1) then v else v - 2 ^ bits.
Definition simm (bs : list Z) : Z := signed (8 * zlen bs) (le_val bs).
(** The instruction at the beginning of [c] and its length *)
Definition xdecode (c : list Z) : option (xinstr * nat) :=
  match c with
  | [] => None
  | b0 :: r0 =>
      if b0 =? 0xcc then Some (XTrap, 1%nat)
      else
      match r0 with
      | [] => None
      | b1 :: r1 =>
          if b0 =? 0xff then if (0xd0 <=? b1) && (b1 <=? 0xd7) then Some (XCall (b1 - 0xd0), 2%nat) else None
          else if b0 =? 0x48 then
            match r1 with
            | [] => None
            | mm :: r2 =>
                let md := mm / 64 in let reg := mm / 8 mod 8 in let rm := mm mod 8 in
                if md =? 3 then
                  if b1 =? 0x89 then Some (XMov rm reg, 3%nat)
                  else if b1 =? 0x31 then Some (XXor rm reg, 3%nat)
                  else if (b1 =? 0x83) && (reg =? 4) then Some (XAnd rm (simm (firstn 1 r2)), 4%nat)
                  else if (b1 =? 0x83) && (reg =? 5) then Some (XSub rm (simm (firstn 1 r2)), 4%nat)
                  else if (b1 =? 0x81) && (reg =? 4) then Some (XAnd rm (simm (firstn 4 r2)), 7%nat)
                  else if (b1 =? 0x81) && (reg =? 5) then Some (XSub rm (simm (firstn 4 r2)), 7%nat)
                  else if (b1 =? 0xc7) && (reg =? 0) then Some (XMovI rm (simm (firstn 4 r2)), 7%nat)
                  else None
                else if (md =? 1) && negb (rm =? 4) then
                  let disp := simm (firstn 1 r2) in
                  if b1 =? 0x8d then Some (XLea reg rm disp, 4%nat)
                  else if b1 =? 0x89 then Some (XStore rm disp reg, 4%nat)
                  else if (b1 =? 0xc7) && (reg =? 0) then Some (XStoreI rm disp (simm (firstn 4 (skipn 1 r2))), 8%nat)
                  else None
                else None
            end
          else None
      end
  end.
(** All instructions *)
Fixpoint xdecodes (n : nat) (c : list Z) : option (list (xinstr * nat)) :=
  match n with
  | O => None
  | S n' => match c with
            | [] => Some []
            | _ => match xdecode c with
                   | Some (i, len) => match xdecodes n' (skipn len c) with Some l => Some ((i, len) :: l) | None => None end
                   | None => None
                   end
            end
  end.
(** Instructions at the address [p], run to the first call: the address called, the memory and the registers there.  [None]: they
    come to something else.  Simplification: the code is not changed by its own stores. *)
Fixpoint xrun (l : list (xinstr * nat)) (p : Z) (m : mem) (g : Z -> Z) : option (Z * mem * (Z -> Z)) :=
  match l with
  | [] => None
  | (i, len) :: r =>
      let p' := p + Z.of_nat len in
      match i with
      | XMov d s => xrun r p' m (set_gr g d (g s))
      | XAnd d k => xrun r p' m (set_gr g d (Z.land (g d) (k mod 2 ^ 64)))
      | XSub d k => xrun r p' m (set_gr g d ((g d - k) mod 2 ^ 64))
      | XLea d b k => xrun r p' m (set_gr g d ((g b + k) mod 2 ^ 64))
      | XStore b k s => xrun r p' (mset m ((g b + k) mod 2 ^ 64) (le_bytes 8 (g s))) g
      | XStoreI b k v => xrun r p' (mset m ((g b + k) mod 2 ^ 64) (le_bytes 8 (v mod 2 ^ 64))) g
      | XMovI d v => xrun r p' m (set_gr g d (v mod 2 ^ 64))
      | XXor d s => xrun r p' m (set_gr g d (Z.lxor (g d) (g s)))
      | XCall t => let sp := (g 4 - 8) mod 2 ^ 64 in Some (g t, mset m sp (le_bytes 8 p'), set_gr g 4 sp)
      | XTrap => None
      end
  end.
Definition xcode (c : list Z) (p : Z) (m : mem) (g : Z -> Z) : option (Z * mem * (Z -> Z)) :=
  match xdecodes (S (List.length c)) c with Some l => xrun l p m g | None => None end.
