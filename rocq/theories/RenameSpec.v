(** What the table of renames and renaming a line are, in terms of text only. *)
From Coq Require Import String.
From Verif Require Import Base StorageModel TextSpec.
Open Scope list_scope.

(** Operations on a table *)
Inductive rop := RAdd (src dst : list Z) | RDel (src : list Z).
(** A map of names; adding a second target for a source is a conflict, [None]. *)
Definition rmap := list Z -> option (list Z).
Definition text_eq_dec : forall a b : list Z, {a = b} + {a <> b} := list_eq_dec Z.eq_dec.
Definition map_step (m : option rmap) (o : rop) : option rmap :=
  match m with
  | None => None
  | Some m =>
      match o with
      | RAdd src dst =>
          if text_eq_dec src dst then Some m
          else match m src with
               | Some d => if text_eq_dec d dst then Some m else None
               | None => Some (fun n => if text_eq_dec n src then Some dst else m n)
               end
      | RDel src => Some (fun n => if text_eq_dec n src then None else m n)
      end
  end.
Definition map_run (ops : list rop) : option rmap := fold_left map_step ops (Some (fun _ => None)).

(** The tokens of a line, up to where it ends: its pieces; a blank line counts as one
    empty token. *)
Definition has_tokens (s : list Z) (ts : list (list Z)) : Prop :=
  exists l last, pieces asm_delims s l last /\ ts = match l with [] => [[]] | _ => map snd l end.

(** A token of the first line corresponds to one of the second. *)
Definition corresponds (m0 m1 : rmap) (t0 t1 : list Z) : Prop :=
  (m0 t0 = None /\ m1 t1 = None /\ t0 = t1)
  \/ (m0 t0 = Some t1 /\ m1 t1 = None)
  \/ (exists d, m0 t0 = Some d /\ m1 t1 = Some d)
  \/ (m0 t0 = Some t1 /\ m1 t1 = Some t0).

(** Renaming a token *)
Definition rename_token (m : rmap) (t : list Z) : list Z :=
  match m t with Some d => d | None => t end.
