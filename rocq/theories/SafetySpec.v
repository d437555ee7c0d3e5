(** What the safety check is for, in terms of stacks and code ranges only. *)
From Coq Require Import ZArith List Bool.
From Verif Require Import Base EngineModel SafetyModel.
Import ListNotations.
Open Scope Z_scope.

(** A table entry with neither old address nor old length describes a function that
    exists only in the patch; every other entry replaces a function. *)
Definition replaces_code (i : info) : Prop := ~ (daddr i = 0 /\ dlen i = 0).

(** The code that is about to be taken away: the old functions when patching, the
    new ones when unpatching. *)
Definition leaving_start (dir : direction) (i : info) : Z :=
  match dir with Apply => daddr i | Unapply => saddr i end.
Definition leaving_len (dir : direction) (i : info) : Z :=
  match dir with Apply => dlen i | Unapply => slen i end.

Definition in_replaced (dir : direction) (infos : list info) (ip : Z) : Prop :=
  exists i, In i infos /\ replaces_code i /\
    in_range ip (leaving_start dir i) (leaving_len dir i).

(** Functions are not at address zero and do not run around the end of the address
    space. *)
Definition ranges_ok (dir : direction) (infos : list info) : Prop :=
  forall i, In i infos -> replaces_code i ->
    0 < leaving_start dir i /\ 0 <= leaving_len dir i /\
    leaving_start dir i + leaving_len dir i < 2 ^ 64.

(** The frames the unwinder shows, and all the frames there are. *)
Definition seen (sk : stack) : list Z := sk_ip sk :: sk_rest sk.
Definition all_frames (sk : stack) : list Z := seen sk ++ sk_hidden sk.
(** The unwinder reached the outermost frame. *)
Definition complete (l : look) : Prop :=
  match l with NoContext => True | Unwound sk => sk_hidden sk = [] end.

(** A thread or coroutine that can be looked at and has no visible frame in code
    that is about to be taken away. *)
Definition clear_of (dir : direction) (infos : list info) (l : look) : Prop :=
  exists sk, l = Unwound sk /\ forall ip, In ip (seen sk) -> ~ in_replaced dir infos ip.

(** Results of the two helpers are ints; there are fewer than 2^32 threads. *)
Definition world_ok (w : world) : Prop :=
  zlen (w_threads w) < 2 ^ 32 /\ zlen (w_threads' w) < 2 ^ 32 /\
  (forall l, - 2 ^ 31 <= w_until w l < 2 ^ 31) /\ - 2 ^ 31 <= w_attach w < 2 ^ 31.

(** The last look at all threads and coroutines found them clear: the first look
    when nothing had to be resumed, otherwise the one made after the threads were
    run forward and new threads attached. *)
Definition safe_at_last_look (dir : direction) (infos : list info) (w : world) : Prop :=
  Forall (clear_of dir infos) (w_coros w ++ w_threads w) \/
  (~ Forall (clear_of dir infos) (w_coros w ++ w_threads w) /\
   (exists l, w_until w l = 0) /\ w_attach w = 0 /\
   Forall (clear_of dir infos) (w_coros' w ++ w_threads' w)).
