(** Vocabulary for the statements about the command channel. *)
From Verif Require Import Base ServModel.

(** Ways in which a byte stream can arrive: non-empty pieces and interruptions. *)
Inductive arrives : list Z -> list recv_ev -> Prop :=
  | arr_nil : arrives [] []
  | arr_intr s evs : arrives s evs -> arrives s (Eintr :: evs)
  | arr_data bs s evs : bs <> [] -> arrives s evs -> arrives (bs ++ s) (Data bs :: evs).

(** An argument of a command line that is not empty (a C string has no NUL). *)
Definition arg_ok (a : list Z) : Prop := a <> [] /\ Forall (fun x => 0 < x) a.

(** All the bytes of a sequence of events. *)
Fixpoint received (evs : list recv_ev) : list Z :=
  match evs with
  | [] => []
  | Data bs :: r => bs ++ received r
  | _ :: r => received r
  end.
