(** Vocabulary for the statements about the command line. *)
From Coq Require Import String.
From Verif Require Import Base StorageModel CliModel.
Open Scope list_scope.

(** [s] is the decimal numeral of [n], without leading zeros. *)
Definition value (s : list Z) : Z := fold_left (fun a c => 10 * a + (c - 48)) s 0.
Definition numeral (s : list Z) (n : Z) : Prop :=
  s <> [] /\ Forall (fun c => 48 <= c <= 57) s /\ value s = n /\ (hd 0 s = 48 -> s = [48]).

(** Options as a user writes them: a letter and its argument, in two words or in one. *)
Record uopt := { u_letter : Z; u_arg : list Z; u_joined : bool }.
Definition words (o : uopt) : list (list Z) :=
  if u_joined o then [45 :: u_letter o :: u_arg o] else [[45; u_letter o]; u_arg o].
Definition uopt_ok (letters : list Z) (o : uopt) : Prop :=
  In (u_letter o) letters /\ (u_joined o = true -> u_arg o <> []).
(** An operand: a word that is not taken for an option. *)
Definition operand (w : list Z) : Prop := forall c t, w <> 45 :: c :: t.

(** A name of /proc that is not a number: it starts neither with a digit nor with what a
    number may start with. *)
Definition plain_name (s : list Z) : Prop :=
  match s with
  | [] => False
  | c :: _ => is_digit c = false /\ is_space c = false /\ c <> 43 /\ c <> 45
  end.

(** What the names in /proc look like: plain names, or the numeral of a pid. *)
Definition proc_name (s : list Z) : Prop := plain_name s \/ exists n, numeral s n /\ n < 2 ^ 31.
(** The processes to be visited: named in /proc, not 0, 1 or the tool itself, with an
    executable. *)
Definition eligible (self : Z) (exe : Z -> bool) (names : list (list Z)) (n : Z) : Prop :=
  (exists s, In s names /\ numeral s n) /\ n <> 0 /\ n <> 1 /\ n <> self /\ exe n = true.

(** A word with at most one option in it: not an option, or a dash and a letter, or -p and
    its argument. *)
Definition one_option (w : list Z) : Prop := forall c t, w = 45 :: c :: t -> t = [] \/ c = ch_p.
