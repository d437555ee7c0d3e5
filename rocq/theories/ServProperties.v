(** C40, C41: the channel between client and server. *)
From Coq Require Import String.
From Verif Require Import Base BaseProofs StorageModel ServModel ServSpec ServProofs.

Open Scope list_scope.

(** ** C40 *)

(** What the client sends for a command line is executed with exactly those
    arguments, however the bytes are cut up and whatever interruptions happen, if there
    are at most 32 non-empty arguments and the message is shorter than the buffer. *)
Theorem C40_arguments_delivered_partial : forall argv args bytes evs rest,
  client_args argv = Some args -> Forall arg_ok args -> (length args <= 32)%nat ->
  client_message args = Some bytes -> zlen bytes < 4096 -> arrives bytes evs ->
  handle_client (evs ++ rest) = HExec args.
Proof.
  intros argv args bytes evs rest C F L M B A. unfold client_message in M.
  destruct (_ || _) in M; [discriminate|]. injection M as <-.
  apply delivered; auto.
  - intros ->. unfold client_args in C. destruct argv as [|a [|b r]]; try discriminate;
      destruct (starts_slash a); discriminate.
  - unfold zlen, ARGV_SIZE. lia.
Qed.

(** As long as a part of the message is missing nothing is executed: the server waits,
    and closes the connection if the client goes away. *)
Theorem C40_not_early : forall args bytes s t evs rest,
  Forall arg_ok args -> args <> [] -> client_message args = Some bytes -> zlen bytes < 4096 ->
  bytes = s ++ t -> t <> [] -> arrives s evs ->
  handle_client evs = HWait /\ handle_client (evs ++ Eof :: rest) = HClosed.
Proof.
  intros args bytes s t evs rest F N M B E Nt A. unfold client_message in M.
  destruct (_ || _) in M; [discriminate|]. injection M as <-.
  destruct (not_early args s t evs F N B E Nt A) as [H1 H2]. split; [exact H1|apply H2].
Qed.

(** Conversely, whatever the peer sends: what is executed are one to 32 strings that
    the received bytes begin with. *)
Theorem C40_executed_was_received : forall evs argv, ~ In Rerr evs ->
  handle_client evs = HExec argv ->
  (1 <= length argv <= 32)%nat /\
  exists rest, received evs = flat_map (fun a => a ++ [0]) argv ++ rest.
Proof. exact executed_was_received. Qed.

Definition c40_args : list (list Z) := [str "patch-user"; str "-p"; str "42"; str "/x/1.kpatch"].
Definition c40_bytes : list Z := match client_message c40_args with Some b => b | None => [] end.
Definition c40_evs : list recv_ev :=
  [Data (firstn 1 c40_bytes); Eintr; Data (firstn 10 (skipn 1 c40_bytes)); Eintr; Eintr;
   Data (skipn 11 c40_bytes)].
Example C40_example_hypotheses :
  client_args ([str "/run/s"] ++ c40_args) = Some c40_args /\ Forall arg_ok c40_args /\
  client_message c40_args = Some c40_bytes /\ zlen c40_bytes = 30 /\
  arrives c40_bytes c40_evs /\ handle_client c40_evs = HExec c40_args.
Proof.
  split; [reflexivity|]. split.
  { repeat apply Forall_cons; try apply Forall_nil; (split; [discriminate|]);
      repeat (apply Forall_cons; [reflexivity|]); apply Forall_nil. }
  split; [reflexivity|]. split; [reflexivity|]. split; [|vm_compute; reflexivity].
  assert (E : c40_bytes = firstn 1 c40_bytes ++ firstn 10 (skipn 1 c40_bytes) ++
              skipn 11 c40_bytes ++ []) by (vm_compute; reflexivity).
  rewrite E at 1. unfold c40_evs.
  apply arr_data; [discriminate|]. apply arr_intr. apply arr_data; [discriminate|].
  apply arr_intr, arr_intr. apply arr_data; [discriminate|]. apply arr_nil.
Qed.
Example C40_example_prefix :
  handle_client [Data (firstn 17 c40_bytes)] = HWait /\
  handle_client [Data (firstn 17 c40_bytes); Eof] = HClosed.
Proof. vm_compute. split; reflexivity. Qed.

(** The client sends every word with a NUL behind it, and one more NUL, if that fits into
    its buffer; else it sends nothing. *)
Theorem C40_client_message : forall args, let bytes := concat (map (fun a => a ++ [0]) args) ++ [0] in
  client_message args = if zlen bytes <=? 16384 then Some bytes else None.
Proof.
  intros args bytes. assert (E : fold_left (fun n a => n + (zlen a + 1)) args 0 + 1 = zlen bytes).
  { unfold bytes. rewrite zlen_app. change (zlen [0]) with 1. f_equal.
    enough (H : forall l n, fold_left (fun n a => n + (zlen a + 1)) l n = n + zlen (concat (map (fun a => a ++ [0]) l))) by apply H.
    induction l as [|x l IH]; intros n; cbn [fold_left map concat]; [change (zlen []) with 0; lia|].
    rewrite IH, !zlen_app. change (zlen [0]) with 1. lia. }
  unfold client_message, encode. rewrite E, flat_map_concat_map. fold bytes. change MAX_BUFLEN with 16384.
  assert (0 < zlen bytes) by (unfold bytes; rewrite zlen_app; change (zlen [0]) with 1; unfold zlen; lia).
  destruct (Z.leb_spec (zlen bytes) 0); [lia|]. cbn [orb]. rewrite Z.leb_antisym. destruct (16384 <? zlen bytes); reflexivity.
Qed.
Print Assumptions C40_client_message.
(** An empty argument ends the command: [storage ""  all] loses its last word. *)
Theorem C40_empty_argument_refuted : exists argv bytes,
  client_args argv = Some argv /\ client_message argv = Some bytes /\
  handle_client [Data bytes] = HExec [str "storage"] /\
  argv = [str "storage"; []; str "all"].
Proof.
  exists [str "storage"; []; str "all"], (encode [str "storage"; []; str "all"]).
  vm_compute. repeat split.
Qed.
(** The 33rd argument is dropped. *)
Theorem C40_many_arguments_refuted : exists args bytes,
  length args = 33%nat /\ Forall arg_ok args /\ client_message args = Some bytes /\
  handle_client [Data bytes] = HExec (firstn 32 args).
Proof.
  exists (repeat [97] 33), (encode (repeat [97] 33)). split; [reflexivity|]. split.
  { apply Forall_forall. intros x Hx. apply repeat_spec in Hx. subst x. split; [discriminate|].
    constructor; [reflexivity|constructor]. }
  split; vm_compute; reflexivity.
Qed.
(** A message the client accepts is thrown away from 4096 bytes on. *)
Theorem C40_long_message_refuted : exists args bytes,
  length args = 2%nat /\ Forall arg_ok args /\ client_message args = Some bytes /\
  zlen bytes = 4096 /\ handle_client [Data bytes] = HClosed.
Proof.
  exists [str "patch"; repeat 97 4088], (encode [str "patch"; repeat 97 4088]).
  split; [reflexivity|]. split.
  { constructor; [|constructor; [|constructor]]; (split; [discriminate|]).
    - repeat (apply Forall_cons; [reflexivity|]); apply Forall_nil.
    - apply Forall_forall. intros x Hx. apply repeat_spec in Hx. subst x. reflexivity. }
  split; [|split]; vm_compute; reflexivity.
Qed.
(** After an error of recv that is not EINTR the last byte received is overwritten:
    another command is executed than the one sent. *)
Theorem C40_receive_error_refuted : exists args bytes k,
  Forall arg_ok args /\ client_message args = Some bytes /\
  handle_client [Data (firstn k bytes); Rerr; Data (skipn k bytes)] = HExec [str "updat"] /\
  args = [str "update"].
Proof.
  exists [str "update"], (encode [str "update"]), 6%nat. split.
  { constructor; [|constructor]. split; [discriminate|].
    repeat (apply Forall_cons; [reflexivity|]); apply Forall_nil. }
  vm_compute. repeat split.
Qed.

(** ** C41 *)

(** Every stream, every behaviour of recv: no write outside the buffer or [argv]. *)
Theorem C41_writes_in_bounds : forall evs, handle_client evs <> HOverrun.
Proof. exact no_overrun. Qed.
(** Nothing is used that was not received, unless recv fails. *)
Theorem C41_reads_received_partial : forall evs, ~ In Rerr evs -> handle_client evs <> HUndef.
Proof. exact no_undef. Qed.
(** If the first recv fails, the uninitialised buffer is executed as a command. *)
Theorem C41_receive_error_refuted : exists evs, handle_client evs = HUndef.
Proof. exists [Rerr]. reflexivity. Qed.

(** The example: more bytes than fit, among them no terminator; a lone terminator. *)
Example C41_example :
  handle_client [Data (repeat 97 5000)] = HClosed /\
  handle_client [Data [0]; Eintr; Data [0; 7]; Eof] = HClosed /\
  handle_client [Data [0; 0]] = HExec [[]] /\
  ~ In Rerr [Data [0]; Eintr; Data [0; 7]; Eof].
Proof.
  split; [vm_compute; reflexivity|]. split; [vm_compute; reflexivity|].
  split; [vm_compute; reflexivity|]. cbn. intros [H|[H|[H|[H|[]]]]]; discriminate.
Qed.

Print Assumptions C40_arguments_delivered_partial.
Print Assumptions C40_not_early.
Print Assumptions C40_executed_was_received.
Print Assumptions C40_empty_argument_refuted.
Print Assumptions C40_many_arguments_refuted.
Print Assumptions C40_long_message_refuted.
Print Assumptions C40_receive_error_refuted.
Print Assumptions C41_writes_in_bounds.
Print Assumptions C41_reads_received_partial.
Print Assumptions C41_receive_error_refuted.
