(** Properties of the safety check: C16-C19, C61. *)
From Coq Require Import ZArith List Bool Lia.
From Verif Require Import Base BaseProofs RemoteModel JumpModel EngineModel EngineSpec EngineExamples
  SafetyModel SafetySpec SafetyProofs SafetyGate.
Import ListNotations.
Open Scope Z_scope.

Definition ex_infos : list info :=
  [ {| daddr := 0x400100; saddr := 0x500100; dlen := 0x40; slen := 0x60; flags := 0 |};
    {| daddr := 0; saddr := 0x500200; dlen := 0; slen := 0x30; flags := 0 |};
    {| daddr := 0x400200; saddr := 0x500300; dlen := 0x10; slen := 0x10; flags := 0 |} ].
Definition ex_stack (l : list Z) : stack :=
  {| sk_ip := hd 0 l; sk_rest := tl l; sk_err := false; sk_hidden := [] |}.
Definition ex_thread (l : list Z) : look := Unwound (ex_stack l).

Lemma ex_ranges dir : ranges_ok dir ex_infos.
Proof.
  intros i Hi Hr. unfold replaces_code in Hr.
  repeat (destruct Hi as [<-|Hi]; [destruct dir; cbn in *; lia|]). destruct Hi.
Qed.

(** ** C16.  The verdict "safe" (0) is given exactly when every coroutine and thread
    could be looked at and none of their visible frames is in code being taken
    away. *)
Theorem C16_safe_iff : forall dir infos coros threads junk,
  ranges_ok dir infos -> zlen threads < 2 ^ 32 ->
  (fst (verify_safety dir infos coros threads junk) = 0 <->
   Forall (clear_of dir infos) (coros ++ threads)).
Proof. intros dir infos coros threads junk HR Hn. exact (verify_safe_iff dir infos HR coros threads junk Hn). Qed.
Print Assumptions C16_safe_iff.

(** With stacks unwound to their ends: no frame at all is in such code. *)
Theorem C16_no_frame_in_replaced_code : forall dir infos coros threads junk,
  ranges_ok dir infos -> zlen threads < 2 ^ 32 ->
  Forall complete (coros ++ threads) ->
  fst (verify_safety dir infos coros threads junk) = 0 ->
  forall l, In l (coros ++ threads) -> exists sk, l = Unwound sk /\
    forall ip, In ip (all_frames sk) -> ~ in_replaced dir infos ip.
Proof.
  intros dir infos coros threads junk HR Hn HC H0 l Hl.
  apply (verify_safe_iff dir infos HR coros threads junk Hn) in H0.
  rewrite Forall_forall in H0, HC. specialize (HC l Hl). destruct (H0 l Hl) as (sk & -> & Hs).
  exists sk. split; auto. cbn in HC. unfold all_frames. rewrite HC, app_nil_r. exact Hs.
Qed.
Print Assumptions C16_no_frame_in_replaced_code.

Example C16_hyps :
  fst (verify_safety Apply ex_infos [ex_thread [0x400300]] [ex_thread [0x400140; 0x4001ff]] 7) = 0 /\
  fst (verify_safety Apply ex_infos [] [ex_thread [0x400140]; ex_thread [0x400150; 0x40013f; 0x400150]] 7) = 1 /\
  fst (verify_safety Unapply ex_infos [ex_thread [0x50015f]] [] 7) = 2 ^ 20 + 1 /\
  ranges_ok Apply ex_infos /\ ranges_ok Unapply ex_infos.
Proof.
  split; [reflexivity|]. split; [reflexivity|]. split; [reflexivity|]. split; apply ex_ranges.
Qed.

(** ** C61.  Unpatching takes away the functions that exist only in the patch as
    well, but the check does not look for them: a thread running in one of them is
    judged safe, and so the engine goes on and unmaps the code it is running. *)
Theorem C61_new_functions_ignored_refuted :
  exists infos threads ip i,
    ranges_ok Unapply infos /\
    fst (verify_safety Unapply infos [] threads 0) = 0 /\
    In (Unwound {| sk_ip := ip; sk_rest := []; sk_err := false; sk_hidden := [] |}) threads /\
    In i infos /\ 0 < saddr i /\ in_range ip (saddr i) (slen i).
Proof.
  exists ex_infos, [ex_thread [0x500210]], 0x500210,
    {| daddr := 0; saddr := 0x500200; dlen := 0; slen := 0x30; flags := 0 |}.
  split; [apply ex_ranges|]. split; [reflexivity|]. split; [left; reflexivity|].
  split; [right; left; reflexivity|]. unfold in_range; cbn. lia.
Qed.
Print Assumptions C61_new_functions_ignored_refuted.

(** The same inside the engine: a table with one replaced and one new function is
    unapplied, with success, while the only thread executes the new function; its
    code is unmapped. *)
Theorem C61_unmapped_while_running_refuted :
  exists infos o s w,
    o_info o = Some infos /\ w_threads w = [ex_thread [0x500210]] /\
    w_threads' w = w_threads w /\
    sm s 0x500210 <> None /\
    let r := object_unapply_patch_with x86 4096 (safety_answer Unapply (fun _ => w)) 10 false o s in
    fst (fst r) = Ret 1 /\ sm (snd r) 0x500210 = None.
Proof.
  exists ex_infos,
    {| o_patch := None; o_is_patch := false; o_applied := [];
       o_hdr := Some (put (repeat 0 504) h_total_mem (le_bytes 8 0x1000));
       o_info := Some ex_infos; o_kpta := 0x500000; o_find := fun _ => 0 |},
    {| sm := fun _ => Some 144; sx := fun _ => true; so := [] |},
    {| w_malloc := true; w_coros := []; w_threads := [ex_thread [0x500210]]; w_junk := 0;
       w_until := fun _ => 0; w_attach := 0;
       w_coros' := []; w_threads' := [ex_thread [0x500210]]; w_junk' := 0 |}.
  split; [reflexivity|]. split; [reflexivity|]. split; [reflexivity|]. split; [discriminate|].
  computed.
Qed.
Print Assumptions C61_unmapped_while_running_refuted.

(** ** C17.  An unwinder error is only logged: the frames beyond the failure are
    taken to be harmless.  Here the frame just outside the visible one is in the
    middle of a function being replaced. *)
Theorem C17_unreadable_stack_judged_safe_refuted :
  exists infos sk, ranges_ok Apply infos /\ sk_err sk = true /\
    (exists ip, In ip (all_frames sk) /\ in_replaced Apply infos ip) /\
    fst (verify_safety Apply infos [] [Unwound sk] 0) = 0.
Proof.
  exists ex_infos, {| sk_ip := 0x7f0000; sk_rest := []; sk_err := true; sk_hidden := [0x400120] |}.
  split; [apply ex_ranges|]. split; [reflexivity|]. split; [|reflexivity].
  exists 0x400120. split; [right; left; reflexivity|].
  eexists. split; [left; reflexivity|]. split; [unfold replaces_code; cbn; lia|].
  unfold in_range; cbn; lia.
Qed.
Print Assumptions C17_unreadable_stack_judged_safe_refuted.

(** What does hold: a thread or coroutine whose unwinding cannot even be started is
    never judged safe, and a replaced function among the frames seen before the
    error is noticed. *)
Theorem C17_no_context_not_safe_partial : forall dir infos coros threads junk,
  ranges_ok dir infos -> zlen threads < 2 ^ 32 ->
  In NoContext (coros ++ threads) \/
  (exists sk ip, In (Unwound sk) (coros ++ threads) /\ In ip (seen sk) /\ in_replaced dir infos ip) ->
  fst (verify_safety dir infos coros threads junk) <> 0.
Proof.
  intros dir infos coros threads junk HR Hn H E.
  apply (verify_safe_iff dir infos HR coros threads junk Hn) in E. rewrite Forall_forall in E.
  destruct H as [H|(sk & ip & H1 & H2 & H3)].
  - destruct (E _ H) as (sk & Q & _). discriminate.
  - destruct (E _ H1) as (sk' & Q & Hs). injection Q as <-. exact (Hs ip H2 H3).
Qed.
Print Assumptions C17_no_context_not_safe_partial.

Example C17_hyps :
  fst (verify_safety Apply ex_infos [] [ex_thread [0x400300]; NoContext] 0) = -1 /\
  fst (verify_safety Apply ex_infos []
    [Unwound {| sk_ip := 0x400300; sk_rest := [0x40020f]; sk_err := true; sk_hidden := [1] |}] 0) = 1.
Proof. split; reflexivity. Qed.

(** ** C18.  A passing check means: at the last look everything was clear. *)
Theorem C18_passed_means_safe_at_last_look : forall dir infos w,
  ranges_ok dir infos -> world_ok w -> ensure_safety dir infos w = 0 ->
  safe_at_last_look dir infos w.
Proof. intros dir infos w HR (H1 & H2 & H3 & H4). exact (ensure_safe dir infos HR w H1 H2 H3 H4). Qed.
Print Assumptions C18_passed_means_safe_at_last_look.

(** A coroutine in replaced code cannot be run forward: the check fails. *)
Theorem C18_coroutine_not_forced : forall dir infos w c,
  ranges_ok dir infos -> In (Unwound c) (w_coros w) ->
  (exists ip, In ip (seen c) /\ in_replaced dir infos ip) ->
  ensure_safety dir infos w = -1.
Proof. intros dir infos w c HR. exact (ensure_coro dir infos HR w c). Qed.
Print Assumptions C18_coroutine_not_forced.

(** Nothing is refused without a reason. *)
Theorem C18_clear_passes : forall dir infos w,
  ranges_ok dir infos -> w_malloc w = true -> zlen (w_threads w) < 2 ^ 32 ->
  Forall (clear_of dir infos) (w_coros w ++ w_threads w) ->
  ensure_safety dir infos w = 0.
Proof. intros dir infos w HR. exact (ensure_complete dir infos HR w). Qed.
Print Assumptions C18_clear_passes.

(** Patching: if any byte outside the patch's own region changed, the check had been
    made before (while all those bytes still had their old values), with the table of
    the patch being applied, and everything was clear at its last look. *)
Theorem C18_patch_writes_only_when_safe : forall A jent pg p off n o s W,
  machine_ok A jent pg -> patch_ok A jent pg p off n -> fresh o p ->
  (forall s1, world_ok (W s1)) ->
  let sz := region_size A jent pg p off n in
  let base := o_find o sz in
  (forall img jt, p_link p base (region_hdr A jent pg p off n) = Some (img, jt) ->
     ranges_ok Apply (infos_of img off n)) ->
  let '(_, _, s') := object_apply_patch_with A jent pg (safety_answer Apply W) o s in
  forall x, ~ in_range x base sz -> sm s' x <> sm s x ->
  exists img jt s1, p_link p base (region_hdr A jent pg p off n) = Some (img, jt) /\
    (forall y, ~ in_range y base sz -> sm s1 y = sm s y) /\
    safe_at_last_look Apply (infos_of img off n) (W s1).
Proof.
  intros A jent pg p off n o s W HM HP Hf HW sz base HR.
  pose proof (apply_gate (safety_answer Apply W)
    ltac:(intros l s1; unfold safety_answer; destruct (_ =? 0); reflexivity)
    A jent pg HM p off n HP o Hf s) as G.
  destruct (object_apply_patch_with A jent pg (safety_answer Apply W) o s) as [[r o'] s'].
  intros x Hx Hne. destruct G as [G|G]; [exfalso; apply Hne, G, Hx|].
  destruct G as (img & jt & s1 & s2 & G1 & G2 & G3). exists img, jt, s1. split; [exact G1|].
  split; [exact G3|]. unfold safety_answer in G2.
  destruct (Z.eqb_spec (ensure_safety Apply (infos_of img off n) (W s1)) 0) as [E|E]; [|discriminate].
  destruct (HW s1) as (H1 & H2 & H3 & H4).
  exact (ensure_safe Apply (infos_of img off n) (HR img jt G1) (W s1) H1 H2 H3 H4 E).
Qed.
Print Assumptions C18_patch_writes_only_when_safe.

(** Unpatching: if any byte at all changed or was unmapped, the check had passed
    while memory was still as at the beginning. *)
Theorem C18_unpatch_writes_only_when_safe : forall A pg fuel flag o s W,
  (forall s1, world_ok (W s1)) ->
  let '(_, _, s') := object_unapply_patch_with A pg (safety_answer Unapply W) fuel flag o s in
  forall x, sm s' x <> sm s x ->
  exists o1 s1, find_applied_info pg fuel o s = (Ret tt, o1, s1) /\ sm s1 = sm s /\
    forall l, o_info o1 = Some l -> ranges_ok Unapply l -> safe_at_last_look Unapply l (W s1).
Proof.
  intros A pg fuel flag o s W HW.
  pose proof (unapply_gate (safety_answer Unapply W)
    ltac:(intros l s1; unfold safety_answer; destruct (_ =? 0); reflexivity) A pg fuel flag o s) as G.
  destruct (object_unapply_patch_with A pg (safety_answer Unapply W) fuel flag o s) as [[r o'] s'].
  intros x Hne. destruct G as [G|G]; [exfalso; cbn [snd] in G; rewrite G in Hne; auto|].
  destruct G as (o1 & s1 & s2 & G1 & G2 & G3). exists o1, s1. split; [exact G1|]. split; [exact G2|].
  intros l El HR. rewrite El in G3. unfold safety_answer in G3.
  destruct (Z.eqb_spec (ensure_safety Unapply l (W s1)) 0) as [E|E]; [|discriminate].
  destruct (HW s1) as (H1 & H2 & H3 & H4).
  exact (ensure_safe Unapply l HR (W s1) H1 H2 H3 H4 E).
Qed.
Print Assumptions C18_unpatch_writes_only_when_safe.

Definition ex_world (ips ips' : list Z) : world :=
  {| w_malloc := true; w_coros := []; w_threads := [ex_thread ips]; w_junk := 0;
     w_until := fun _ => 0; w_attach := 0;
     w_coros' := []; w_threads' := [ex_thread ips']; w_junk' := 0 |}.
Lemma ex_world_ok l l' : world_ok (ex_world l l').
Proof. unfold world_ok, zlen; cbn. repeat split; intros; lia. Qed.

Example C18_hyps :
  ensure_safety Apply ex_infos (ex_world [0x400110; 0x400300] [0x400300]) = 0 /\
  ensure_safety Apply ex_infos (ex_world [0x400110; 0x400300] [0x400200]) = -1 /\
  (forall l l', world_ok (ex_world l l')) /\
  (let r := object_apply_patch_with x86 16 4096
     (safety_answer Apply (fun _ => ex_world [0x400000; 0x400300] [0x400300])) ex_o (ex_st []) in
   ex_result r = Ret 1 /\ sm (snd r) 0x400000 = Some 233) /\
  (let r := object_apply_patch_with x86 16 4096
     (safety_answer Apply (fun _ => ex_world [0x400000; 0x400300] [0x400000])) ex_o (ex_st []) in
   ex_result r = Err /\ sm (snd r) 0x400000 = Some 94).
Proof.
  split; [reflexivity|]. split; [reflexivity|]. split; [exact ex_world_ok|]. split; computed.
Qed.

(** ** C19.  A thread inside a replaced function is run until the instruction
    pointer of the first frame outside, counted from the innermost group of
    replaced activations. *)
Theorem C19_runs_to_the_caller : forall dir infos coros threads junk k sk pre g grp ip rest,
  ranges_ok dir infos ->
  (forall l, In l (coros ++ threads) -> l <> NoContext) ->
  Forall (clear_of dir infos) coros ->
  nth_error threads k = Some (Unwound sk) ->
  seen sk = pre ++ g :: grp ++ ip :: rest ->
  (forall x, In x pre -> ~ in_replaced dir infos x) ->
  in_replaced dir infos g -> (forall x, In x grp -> in_replaced dir infos x) ->
  ~ in_replaced dir infos ip ->
  nth_error (snd (verify_safety dir infos coros threads junk)) k = Some ip.
Proof.
  intros dir infos coros threads junk k sk pre g grp ip rest HR.
  exact (run_until_caller dir infos HR coros threads junk k sk pre g grp ip rest).
Qed.
Print Assumptions C19_runs_to_the_caller.

Example C19_hyps :
  snd (verify_safety Apply ex_infos [] [ex_thread [0x400300];
     ex_thread [0x400310; 0x400120; 0x400205; 0x400320; 0x400120; 0x400330]] 7) = [0; 0x400320].
Proof. reflexivity. Qed.

(** When the replaced function is the outermost frame there is no such caller, and
    the address used is the garbage in an uninitialised variable, any value: the
    tool then plants a breakpoint there. *)
Theorem C19_no_caller_garbage_refuted : forall junk,
  exists infos sk, ranges_ok Apply infos /\
    seen sk = [0x400120] /\ in_replaced Apply infos 0x400120 /\
    snd (verify_safety Apply infos [] [Unwound sk] junk) = [junk].
Proof.
  intros junk. exists ex_infos, (ex_stack [0x400120]). split; [apply ex_ranges|].
  split; [reflexivity|]. split.
  - eexists. split; [left; reflexivity|]. split; [unfold replaces_code; cbn; lia|].
    unfold in_range; cbn; lia.
  - reflexivity.
Qed.
Print Assumptions C19_no_caller_garbage_refuted.

(** Or it is the address found for another thread. *)
Theorem C19_no_caller_stale_refuted :
  exists infos a b, ranges_ok Apply infos /\
    seen a = [0x400110; 0x400330] /\ seen b = [0x400310; 0x400120] /\
    ~ In 0x400330 (seen b) /\
    snd (verify_safety Apply infos [] [Unwound a; Unwound b] 0) = [0x400330; 0x400330].
Proof.
  exists ex_infos, (ex_stack [0x400110; 0x400330]), (ex_stack [0x400310; 0x400120]).
  split; [apply ex_ranges|]. split; [reflexivity|]. split; [reflexivity|].
  split; [|reflexivity]. intros H. cbn in H. lia.
Qed.
Print Assumptions C19_no_caller_stale_refuted.
