(** What the operations on a traced process should do, independent of how. *)
From Verif Require Import Base RemoteModel PtraceModel.

(** Memory [m'] is [m] with exactly the bytes [bs] at [a]. *)
Definition holds_write (m : mem) (a : Z) (bs : list Z) (m' : mem) : Prop :=
  (forall k, 0 <= k < zlen bs -> m' (a + k) = Some (nth (Z.to_nat k) bs 0)) /\
  (forall x, ~ in_range x a (zlen bs) -> m' x = m x).

(** A broken-off write: every byte is either the old or the new one. *)
Definition holds_part (m : mem) (a : Z) (bs : list Z) (m' : mem) : Prop :=
  (forall k, 0 <= k < zlen bs ->
     m' (a + k) = m (a + k) \/ m' (a + k) = Some (nth (Z.to_nat k) bs 0)) /\
  (forall x, ~ in_range x a (zlen bs) -> m' x = m x).

(** A sequence of reads through the cached reader. *)
Fixpoint peeks (pg : Z) (it : iter) (reqs : list (Z * Z)) (s : st)
  : list (option (list Z)) * st :=
  match reqs with
  | [] => ([], s)
  | (a, size) :: r =>
      match iter_peek pg it size a s with
      | (Ret (it', res), s') => let '(l, s'') := peeks pg it' r s' in (res :: l, s'')
      | (_, s') => ([None], s')
      end
  end.

(** The bytes occupied by breakpoints at the wanted addresses (0: none wanted). *)
Definition at_target (n : Z) (targets : list Z) (x : Z) : Prop :=
  exists t, In t targets /\ t <> 0 /\ in_range x t n.

(** Different targets do not overlap. *)
Definition targets_apart (n : Z) (targets : list Z) : Prop :=
  forall t u, In t targets -> In u targets -> t <> 0 -> u <> 0 -> t <> u ->
    t + n <= u \/ u + n <= t.

(** ** Instructions.  Does an instruction word stop the program with a trap? *)
Definition a64_brk (w : Z) : Prop := Z.land w 0xffe0001f = 0xd4200000.   (* BRK #imm16 *)
Definition loong_break (w : Z) : Prop := w / 2 ^ 15 = 0x54.              (* BREAK code *)
Definition riscv_ebreak (w : Z) : Prop := w = 0x00100073.                (* EBREAK *)

(** ** The threads of the patient left alone: threads that are not held can exit
    or start others (with ids never used before); held ones do nothing. *)
Definition env_step (w w' : pworld) : Prop :=
  held w' = held w /\
  exists gone new,
    (forall t, In t gone -> ~ In t (held w)) /\
    live w' = filter (fun t => negb (existsb (Z.eqb t) gone)) (live w) ++ new /\
    (forall t, In t new -> ~ In t (used w)) /\
    ((forall t, In t (live w) -> In t (held w)) -> new = []) /\
    used w' = new ++ used w.

Definition world_fine (w : pworld) : Prop :=
  (forall t, In t (live w) -> In t (used w)) /\
  (forall t, In t (held w) -> In t (live w)).

(** The same with thread ids used again once their thread is gone. *)
Definition env_step_reuse (w w' : pworld) : Prop :=
  held w' = held w /\
  exists gone new,
    (forall t, In t gone -> ~ In t (held w)) /\
    live w' = filter (fun t => negb (existsb (Z.eqb t) gone)) (live w) ++ new /\
    (forall t, In t new -> In t gone \/ ~ In t (live w)) /\
    ((forall t, In t (live w) -> In t (held w)) -> new = []).

(** A failing write has changed nothing. *)
Definition fails_clean (a : answer) : Prop := match a with AShort k => k = 0%nat | _ => True end.

(** An event of the wait that tells the truth about a thread reaching its target:
    no failing call, no stop elsewhere, and errno not left at ESRCH or ECHILD. *)
Definition event_fine (n : Z) (ts : list thr) (e : wevent) : Prop :=
  match e with
  | WNone | WExit _ | WKilled true => True
  | WKilled false => False
  | WFail en => en <> esrch /\ en <> echild
  | WStop pid sig pc gr sr =>
      gr = true /\ sr = true /\
      exists t, find (fun t => t_pid t =? pid) ts = Some t /\ t_until t <> 0 /\
                pc = (t_until t + n) mod 2 ^ 64
  end.

(** Events judged against the threads as they are when the event comes. *)
Fixpoint events_fine (brk : list Z) (evs : list (wevent * Z)) (ts : list thr) : Prop :=
  match evs with
  | [] => True
  | (e, _) :: r => event_fine (zlen brk) ts e /\ events_fine brk r (snd (fst (arch_waitpid brk e ts)))
  end.

(** The signal a report tells about (an exit: none). *)
Definition sig_of (w : wstatus) : Z :=
  match w with Stopped s | Signaled s => s | _ => 0 end.
