(** The streams of kpatch_gensrc: read_file, create_file and close_file,
    kpatch_io.c:43-123, as main calls them, kpatch_gensrc.c:1690-1798.  Definitions
    only.  GenMainModel has the contents; here it is which streams are open. *)
From Verif Require Import Base.
Open Scope list_scope.

(** A FILE pointer: stdin, stdout, or the one of the [n]th fopen. *)
Inductive stream := StdIn | StdOut | File (n : nat).
Definition stream_eqb (a b : stream) : bool :=
  match a, b with
  | StdIn, StdIn | StdOut, StdOut => true
  | File x, File y => Nat.eqb x y
  | _, _ => false
  end.

(** How it ends: [Misuse] is the use of a stream that was closed. *)
Inductive out (A : Type) := Fine (x : A) | Misuse | Fatal.
Arguments Fine {A}. Arguments Misuse {A}. Arguments Fatal {A}.
Definition bind {A B} (r : out A) (f : A -> out B) : out B :=
  match r with Fine x => f x | Misuse => Misuse | Fatal => Fatal end.
Notation "'let!' x := r 'in' k" := (bind r (fun x => k))
  (at level 200, x pattern, r at level 100, k at level 200).

(** The number of fopens so far, the streams closed, infile's count [k], outfile.f. *)
Record st := mkSt { opened : nat; closed : list stream; k : nat; outf : option stream }.

Definition is_closed (s : st) (f : stream) : bool := existsb (stream_eqb f) (closed s).
Definition use (s : st) (f : stream) : out st := if is_closed s f then Misuse else Fine s.
Definition fclose (s : st) (f : stream) : out st :=
  if is_closed s f then Misuse else Fine (mkSt (opened s) (f :: closed s) (k s) (outf s)).

(** An argument of -i or -o: [-], a file that can be opened, one that cannot. *)
Inductive name := Dash | Can | Cannot.
(** The options: -i, -o, another known one, an unknown one. *)
Inductive opt := OptI (n : name) | OptO (n : name) | OptOther | OptBad.

(** fopen *)
Definition fopen (s : st) : st * stream :=
  (mkSt (S (opened s)) (closed s) (k s) (outf s), File (opened s)).

(** read_file, 43-85: it reads to the end and closes the stream, stdin too. *)
Definition read_file (s : st) (n : name) : out st :=
  let go (s1 : st) (f : stream) :=
    let! s2 := use s1 f in                                                  (* fgets *)
    let! s3 := fclose s2 f in
    Fine (mkSt (opened s3) (closed s3) (S (k s3)) (outf s3)) in
  match n with
  | Dash => go s StdIn
  | Can => let (s1, f) := fopen s in go s1 f
  | Cannot => Fatal
  end.

(** create_file, 87-98. *)
Definition create_file (s : st) (n : name) : out st :=
  match n with
  | Dash => Fine (mkSt (opened s) (closed s) (k s) (Some StdOut))
  | Can => let (s1, f) := fopen s in Fine (mkSt (opened s1) (closed s1) (k s1) (Some f))
  | Cannot => Fatal
  end.

(** close_file of outfile, 108-109: [f] is not cleared. *)
Definition close_out (s : st) : out st :=
  match outf s with None => Fine s | Some f => fclose s f end.

(** An option, kpatch_gensrc.c:1690-1752: [false] is the jump to cleanup. *)
Definition step (s : st) (o : opt) : out (st * bool) :=
  match o with
  | OptI n => if Nat.leb 2 (k s) then Fatal else let! s' := read_file s n in Fine (s', true)
  | OptO n => let! s1 := close_out s in let! s2 := create_file s1 n in Fine (s2, true)
  | OptOther => Fine (s, true)
  | OptBad => Fine (s, false)
  end.
Fixpoint steps (s : st) (os : list opt) : out (st * bool) :=
  match os with
  | [] => Fine (s, true)
  | o :: r => let! (s', go) := step s o in if go then steps s' r else Fine (s', false)
  end.

(** main.  [filter]: --dbg-filter; [operands]: there are arguments besides options.
    The work in between (1766-1784) writes to outfile.f, at least its flush does, and
    can end with kpfatal, which is left out.  Simplified: what is logged on stdout at
    other levels than the default, and failing fclose, are left out. *)
Definition gensrc_streams (filter operands : bool) (os : list opt) : out st :=
  let! (s, go) := steps (mkSt 0 [] 0 None) os in
  if negb go then close_out s
  else match outf s with
  | None => Fine s                                                          (* usage *)
  | Some f =>
      if operands then close_out s
      else if Nat.ltb (k s) (if filter then 1 else 2) then Fatal
      else let! s1 := use s f in close_out s1
  end.
