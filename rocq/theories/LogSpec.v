(** Vocabulary for the statements about messages. *)
From Coq Require Import String.
From Verif Require Import Base StorageModel CliModel LogModel.
Open Scope list_scope.

(** What a call is to write when errno is [e] and libelf reports [elf_e]. *)
Definition shown (place : list Z -> Z -> list Z) (errno_line elf_line : Z -> list Z) (log_level log_indent e elf_e : Z) (c : call)
  : list (bool * list Z) :=
  let err f l t with_errno := [(true, place f l); (true, t)]
      ++ (if with_errno && negb (e =? 0) then [(true, errno_line e)] else [])
      ++ (if elf_e =? 0 then [] else [(true, elf_line elf_e)]) in
  match c with
  | Log level t => if level <=? log_level then let to := level <? 2 in [(to, repeat 32 (Z.to_nat log_indent)); (to, t e)] else []
  | LogError f l t | FatalError f l t => err f l (t e) true
  | Kperr f l t => err f l (t 0) false
  | Fatal t => [(true, str "FATAL! "); (true, t e)]
  end.
Definition ends (c : call) : bool := match c with Fatal _ | FatalError _ _ _ => true | _ => false end.
(** The calls made: up to the first that ends the program. *)
Fixpoint made (cs : list call) : list call :=
  match cs with [] => [] | c :: r => if ends c then [c] else c :: made r end.
(** A command that is not info, or info with the options it has (each with a word of its own). *)
Inductive info_opt := Verbose | Pid (n : list Z).
Definition words (o : info_opt) : list (list Z) := match o with Verbose => [str "-v"] | Pid n => [str "-p"; n] end.
Inductive scmd := Other (cmd : list Z) (args : list (list Z)) | Info (name : list Z) (l : list info_opt).
Definition scmd_ok (c : scmd) : Prop :=
  match c with
  | Other cmd _ => cmd <> str "info" /\ cmd <> str "info-user"
  | Info n _ => n = str "info" \/ n = str "info-user"
  end.
Definition typed (c : scmd) : list Z * list (list Z) :=
  match c with Other cmd args => (cmd, args) | Info n l => (n, concat (map words l)) end.
Definition quiet (c : scmd) : bool := match c with Other _ _ => false | Info _ l => forallb (fun o => match o with Verbose => false | Pid _ => true end) l end.
