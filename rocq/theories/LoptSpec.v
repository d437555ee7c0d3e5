(** How the options of libcare-patch-make are written and what they ask for. *)
From Coq Require Import String.
From Verif Require Import Base StorageModel TextModel LpModel LoptModel.
Open Scope list_scope.

Inductive opt := OSrc (v : text) | OUpdate | OClean | ODest (v : text) | OId (v : text) | OBuild (v : text) | OJobs (v : text).
(** A long name, or a beginning of it *)
Definition written_long (name : string) (w : text) : Prop := exists n r, str name = n ++ r /\ n <> [] /\ w = str "--" ++ n.
Definition written_flag (letter name : string) (ws : list text) : Prop := ws = [str letter] \/ exists w, written_long name w /\ ws = [w].
(** With an argument: in the next word or joined.  An argument joined to the letter is not empty. *)
Definition written_arg (letter name : string) (v : text) (ws : list text) : Prop :=
  ws = [str letter; v] \/ (v <> [] /\ ws = [str letter ++ v]) \/
  exists w, written_long name w /\ (ws = [w; v] \/ ws = [w ++ str "=" ++ v]).
Definition says_opt (o : opt) (ws : list text) : Prop :=
  match o with
  | OSrc v => written_arg "-s" "srcdir" v ws
  | OUpdate => written_flag "-u" "update" ws
  | OClean => written_flag "-c" "clean" ws
  | ODest v => written_arg "-d" "destdir" v ws
  | OId v => written_arg "-i" "id" v ws
  | OBuild v => written_arg "-b" "buildid" v ws
  | OJobs v => written_arg "-j" "jobs" v ws
  end.
(** Patches may stand between the options, if they do not begin with a minus *)
Inductive piece := POpt (o : opt) | PPatch (w : text).
Definition says (p : piece) (ws : list text) : Prop :=
  match p with POpt o => says_opt o ws | PPatch w => ws = [w] /\ (forall r, w = 45 :: r -> r = []) end.
Definition opts_of (ps : list piece) : list opt := flat_map (fun p => match p with POpt o => [o] | _ => [] end) ps.
Definition patches_of (ps : list piece) : list text := flat_map (fun p => match p with PPatch w => [w] | _ => [] end) ps.
(** The last value given counts *)
Definition latest (p : opt -> list text) (os : list opt) (d : text) : text := last (flat_map p os) d.
Definition asked (env : conf) (os : list opt) : conf :=
  {| srcdir := latest (fun o => match o with OSrc v => [v] | _ => [] end) os (srcdir env);
     only_update := only_update env || existsb (fun o => match o with OUpdate => true | _ => false end) os;
     do_clean := do_clean env || existsb (fun o => match o with OClean => true | _ => false end) os;
     destdir := latest (fun o => match o with ODest v => [v] | _ => [] end) os (str "DESTDIR");
     patch_id := latest (fun o => match o with OId v => [v] | _ => [] end) os (patch_id env);
     given_id := latest (fun o => match o with OBuild v => [v] | _ => [] end) os (given_id env);
     jobs := latest (fun o => match o with OJobs v => [v] | _ => [] end) os (jobs env) |}.
(** An environment in which none of the script's variables is set *)
Definition nothing : conf := Conf [] false false [] [] [] [].
(** Words that no option is written like: unknown letters, names that no option's begins with *)
Definition unknown_letter (c : Z) : Prop := ~ In c (str "sucdibj") /\ c <> 45.
Definition unknown_name (n : text) : Prop := forall m, In m (map str ["srcdir"; "update"; "clean"; "destdir"; "id"; "buildid"; "jobs"]%string) -> forall r, m <> n ++ r.

(** config-host.mak: lines, all with an end *)
Definition text_of (ls : list text) : text := concat (map (fun l => l ++ [10]) ls).
Definition line_ok (l : text) : Prop := ~ In 10 l.
Definition sets_flags (l : text) : Prop := exists v, l = str "QEMU_LDFLAGS=" ++ v.
Definition inside (p s : text) : Prop := exists a b, s = a ++ p ++ b.
