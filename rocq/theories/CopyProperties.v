(** The copy of a file by the compiler wrapper. *)
From Coq Require Import ZArith List Bool Lia ZifyBool ZifyNat.
From Verif Require Import Base CopyModel CopyProofs.
Import ListNotations.
Open Scope nat_scope.

(** ** C48 *)
(** Writes are whole or fail, the output file was removed: the copy is the same file, for
    all short reads, interrupts and failures; when it gives up, what is written is the
    beginning of the file; nothing outside the buffer is read. *)
Theorem C48_identical_partial fuel ro wo junk inp :
  length junk = 4096 -> Forall (fun a => forall n, a = Did n -> 4096 <= n) wo ->
  match copy_file fuel ro wo junk inp [] with
  | Done out => out = inp
  | Fatal out => exists rest, inp = out ++ rest
  | Outside => False
  | Steps => True
  end.
Proof.
  intros Hj Fw. assert (F : Forall whole wo).
  { revert Fw. apply Forall_impl. intros [n| |] H; cbn; auto. }
  pose proof (copy_right fuel ro wo junk inp None [] F Hj I) as H. cbn [app length] in H.
  unfold copy_file. exact H.
Qed.
Print Assumptions C48_identical_partial.
(** The copy ends, whatever the answers: so many steps are enough. *)
Theorem C48_ends ro wo junk inp there fuel : length ro + length wo + 3 * length inp + 1 <= fuel ->
  copy_file fuel ro wo junk inp there <> Steps.
Proof. intros H. apply copy_ends. unfold measure. lia. Qed.
Print Assumptions C48_ends.
Example C48_case : copy_file 40 [Did 2; Intr; Did 1] [Intr; Did 4096; Intr; Did 5000] (repeat 7%Z 4096) [1; 2; 3; 4; 5]%Z [] = Done [1; 2; 3; 4; 5]%Z.
Proof. vm_compute. reflexivity. Qed.

(** After a short write the whole length is written again from where it stopped: what is
    left in the buffer behind the data comes into the copy. *)
Theorem C48_short_write_refuted : exists fuel wo junk inp out,
  length junk = 4096 /\ copy_file fuel [] wo junk inp [] = Done out /\ out <> inp.
Proof.
  exists 40, [Did 1], (repeat 7%Z 4096), [1; 2; 3]%Z, [1; 2; 3; 7]%Z.
  split; [reflexivity|]. split; [vm_compute; reflexivity|discriminate].
Qed.
Print Assumptions C48_short_write_refuted.
(** With a full buffer, memory behind the buffer is read. *)
Theorem C48_outside_refuted : exists fuel wo junk inp, length junk = 4096 /\ copy_file fuel [] wo junk inp [] = Outside.
Proof.
  exists 5, [Did 1], (repeat 7%Z 4096), (repeat 1%Z 4096). split; [reflexivity|]. vm_compute. reflexivity.
Qed.
Print Assumptions C48_outside_refuted.
(** If the old output file cannot be removed and is longer, its end stays. *)
Theorem C48_old_file_refuted : exists fuel junk inp there out,
  length junk = 4096 /\ copy_file fuel [] [] junk inp there = Done out /\ out <> inp.
Proof.
  exists 40, (repeat 7%Z 4096), [1; 2; 3]%Z, [9; 9; 9; 8]%Z, [1; 2; 3; 8]%Z.
  split; [reflexivity|]. split; [vm_compute; reflexivity|discriminate].
Qed.
Print Assumptions C48_old_file_refuted.
