(** Vocabulary for the statements about the operations on a process. *)
From Verif Require Import Base DriverModel.

(** Reading the events in order: things are opened with new numbers; what is released
    must be open.  [Some live]: no violation, [live] is what is still open. *)
Fixpoint take_one (id : nat) (l : list nat) : option (list nat) :=
  match l with
  | [] => None
  | x :: r => if Nat.eqb x id then Some r
              else match take_one id r with Some k => Some (x :: k) | None => None end
  end.
Fixpoint check (n : nat) (live : list nat) (log : list ev) : option (nat * list nat) :=
  match log with
  | [] => Some (n, live)
  | Open id :: r => if Nat.eqb id n then check (S n) (id :: live) r else None
  | Close id :: r => match take_one id live with Some l => check n l r | None => None end
  | Step _ _ :: r => check n live r
  end.
Definition no_double_release (log : list ev) : Prop := check 0 [] log <> None.
Definition all_released (log : list ev) : Prop := exists n, check 0 [] log = Some (n, []).

(** The steps done, with their results. *)
Definition steps (log : list ev) : list (step * Z) :=
  flat_map (fun e => match e with Step s r => [(s, r)] | _ => [] end) log.
