(** What the description of a package means, without the functions of the model. *)
From Coq Require Import String.
From Verif Require Import Base StorageModel TextModel ToilModel.
Open Scope list_scope.

Definition SLASH := 47. Definition STAR := 42. Definition DOT := 46.
Definition unstarred (u : text) : Prop := forall r, u <> STAR :: r.
Definition occurs (p s : text) : Prop := exists a b, s = a ++ p ++ b.
(** [n] is what is behind the last slash, if there is one *)
Definition file_of (u n : text) : Prop := ~ In SLASH n /\ (u = n \/ exists d, u = d ++ [SLASH] ++ n).
(** What an entry says: the name of the file, its URL, and whether it must be there (parseFileInfo's
    documentation).  An optional file without a name of its own is only covered if its URL has a slash. *)
Inductive says : info -> text -> text -> bool -> Prop :=
| S_url u n : unstarred u -> file_of u n -> says (Url u) n u true
| S_optional k d n : unstarred (d ++ [SLASH] ++ n) -> ~ In SLASH n -> says (Url (repeat STAR (S k) ++ d ++ [SLASH] ++ n)) n (d ++ [SLASH] ++ n) false
| S_named n u : unstarred u -> says (Named [(n, u)]) n u true
| S_named_optional k n u : unstarred u -> says (Named [(n, repeat STAR (S k) ++ u)]) n u false.

(** Where it is.  A relative path is one of the directory of the description, if it has no slash or begins with a dot. *)
Inductive source := Disk (p : text) | Net (u : text).
Definition directory_name (r : text) : Prop := exists a c, r = a ++ [c] /\ c <> SLASH.
Inductive lies (abspath : text -> text) (root : text) : text -> source -> Prop :=
| L_absolute p : ~ occurs (str "://") (SLASH :: p) -> lies abspath root (SLASH :: p) (Disk (abspath (SLASH :: p)))
| L_relative p : ~ occurs (str "://") p -> p <> [] -> (~ In SLASH p \/ exists q, p = DOT :: q) ->
    lies abspath root p (Disk (abspath (root ++ [SLASH] ++ p)))
| L_file p : ~ occurs (str "file://") (SLASH :: p) -> lies abspath root (str "file://" ++ SLASH :: p) (Disk (abspath (SLASH :: p)))
| L_file_relative p : ~ occurs (str "file://") p -> p <> [] -> (~ In SLASH p \/ exists q, p = DOT :: q) ->
    lies abspath root (str "file://" ++ p) (Disk (abspath (root ++ [SLASH] ++ p)))
| L_net u : occurs (str "://") u -> (forall r, u <> str "file://" ++ r) -> lies abspath root u (Net u).
Record wish := Wish { w_info : info; w_name : text; w_from : source; w_must : bool }.
Definition understood (abspath : text -> text) (root : text) (w : wish) : Prop :=
  exists u, says (w_info w) (w_name w) u (w_must w) /\ lies abspath root u (w_from w).

(** Nothing stands in the way of the inputs.  Mark that a local file may be missing whether it must be there or not. *)
Definition no_obstacle (fs : text -> file) (accepts : text -> bool) (web : text -> option text) (w : wish) : Prop :=
  match w_from w with
  | Disk p => fs p <> Unreadable /\ forall c, fs p = There c -> accepts (w_name w) = true
  | Net u => w_must w = true -> web u <> None
  end.
(** What is there under a name *)
Definition provided (fs : text -> file) (web : text -> option text) (ws : list wish) (n : text) (e : entry) : Prop :=
  exists w, In w ws /\ w_name w = n /\
    match w_from w with
    | Disk p => exists c, fs p = There c /\ e = Imported c
    | Net u => exists c, web u = Some c /\ e = Stored c
    end.

(** One run of a script: the directory it saw and the one it left *)
Definition ran (script : mode -> directory -> option directory) (m : mode) (v d : directory) : Prop := script m v = Some d.
(** A directory shows what a storage holds, and beside it at most the script's log, empty *)
Definition shows (m : mode) (v : directory) (st : storage) : Prop :=
  forall n, v n = match st n with Some (Imported c) | Some (Stored c) => Some c | None => None end
            \/ st n = None /\ n = log_name m /\ v n = Some [].
(** What is behind a script: all that was there before, and the new files *)
Definition grown (st : storage) (d : directory) (st' : storage) : Prop :=
  forall n, st' n = match st n, d n with Some e, _ => Some e | None, Some c => Some (Stored c) | None, None => None end.
(** A script that was run on a storage and the storage afterwards *)
Definition worked (script : mode -> directory -> option directory) (m : mode) (st st' : storage) : Prop :=
  exists v d, ran script m v d /\ shows m v st /\ grown st d st'.
(** A URL of a bucket, and the name of the file in it *)
Definition bucket (u n : text) : Prop := file_of u n /\ exists r, u = str "s3://" ++ r.
Definition put_of (u n : text) (st : storage) : list (text * text) := match st n with Some (Stored c) => [(u, c)] | _ => [] end.
