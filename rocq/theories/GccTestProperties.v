(** C159: what the tests of kpatch_gensrc on the compiler's output say. *)
From Coq Require Import String Ascii Lia.
From Verif Require Import Base TestsModel TestsProofs GccTestModel GccTestProofs.
Open Scope string_scope.
Open Scope list_scope.
Open Scope Z_scope.

(** What diff promises: taking the lines of one side gives that file. *)
Definition is_diff (differ : list string -> list string -> list edit) : Prop :=
  forall a b, old_of (differ a b) = a /\ new_of (differ a b) = b.

(** A case that passes, with an output there: the lines with the key word are the
    same, in the same order, in the compiler's text and in kpatch_gensrc's but for
    lines that begin with #; and there are two at least. *)
Theorem C159_ok : forall differ name src o,
  is_diff differ -> judge differ (name, src) (Some o) = VOk ->
  let key l := has_key (key_word name) l in
  filter key src = filter key (filter (fun l => negb (prefix "#" l)) o) /\
  2 <= zlen (filter key src).
Proof.
  intros differ name src o D J key. destruct (D src (no_hash o)) as [A B]. split.
  - exact (judge_ok differ name src o A B J).
  - revert J. unfold judge. change (zlen (filter key src)) with (grep_c (key_word name) src).
    destruct (Z.ltb_spec (grep_c (key_word name) src) 2); [discriminate|]. intros _. lia.
Qed.

(** A key word is a text that stands in the line: the name of the case, but .cold for
    the parts of functions that are seldom run. *)
Theorem C159_key : forall k l name,
  (has_key k l = true <-> exists a b, l = (a ++ k ++ b)%string) /\
  key_word "cold_func_suffix" = ".cold" /\
  (name <> "cold_func_suffix" -> key_word name = name).
Proof.
  intros k l name. split; [|split; [reflexivity|]].
  2:{ intros N. unfold key_word. apply String.eqb_neq in N. rewrite N. reflexivity. }
  unfold has_key. rewrite found_spec. split.
  - intros (a & b & E & _). eauto.
  - intros (a & b & E). exists a, b. split; [exact E|discriminate].
Qed.

(** If kpatch_gensrc gives the text back, with lines that begin with # added, every
    case with two such lines passes, whatever diff does with equal files but print. *)
Theorem C159_same : forall differ name src o,
  (forall a, printed (differ a a) = []) ->
  filter (fun l => negb (prefix "#" l)) o = src ->
  2 <= zlen (filter (has_key (key_word name)) src) ->
  judge differ (name, src) (Some o) = VOk.
Proof.
  intros differ name src o P E K. unfold judge, no_hash. rewrite E, P.
  change (grep_c (key_word name) src) with (zlen (filter (has_key (key_word name)) src)).
  destruct (Z.ltb_spec (zlen (filter (has_key (key_word name)) src)) 2); [lia|reflexivity].
Qed.

(** The status is 0 if and only if no case fails, else 1; every file found is counted
    once. *)
Theorem C159_exit : forall major required total differ out cs,
  required <= major ->
  exists code ok fail skip,
  gcc_test major required total differ out cs = (code, (ok, fail, skip)) /\
  ok + fail + skip = zlen cs /\ (code = 0 \/ code = 1) /\
  (code = 0 <-> forall j c, nth_error cs j = Some c -> judge differ c (out j) <> VFail).
Proof.
  intros major required total differ out cs G. unfold gcc_test.
  destruct (Z.ltb_spec major required); [lia|]. cbn zeta.
  rewrite judge_all_spec. do 4 eexists. split; [reflexivity|]. cbn [fst snd].
  assert (T := with_v_total differ out cs 0). assert (N := with_v_nil differ out VFail cs 0).
  split; [lia|]. cbn [Nat.add] in N. rewrite <- N.
  destruct (with_v differ out VFail 0 cs) as [|c r]; cbn.
  - split; [left; reflexivity|]. split; reflexivity.
  - split; [right; reflexivity|]. split; discriminate.
Qed.

(** With an older compiler nothing is run and the status is 0. *)
Theorem C159_old : forall major required total differ out cs,
  major < required -> gcc_test major required total differ out cs = (0, (0, 0, total)).
Proof.
  intros. unfold gcc_test. destruct (Z.ltb_spec major required); [reflexivity|lia].
Qed.

(** A kpatch_gensrc that dies before it opens its output passes every test. *)
Theorem C159_no_output_refuted : exists cs,
  zlen cs = 3 /\
  forall differ, gcc_test 9 8 3 differ (fun _ => None) cs = (0, (3, 0, 0)).
Proof.
  exists [("cold_func_suffix", ["f.cold:"; "	.size	f.cold, .-f.cold"]);
          ("init_array", ["	.section	.init_array"; "	.section	.init_array,""aw"""]);
          ("gnu_unique_object", ["	.type	a, @gnu_unique_object"; "	.type	b, @gnu_unique_object"])].
  split; [reflexivity|]. intros differ. vm_compute. reflexivity.
Qed.

(** And one that loses other lines passes too. *)
Theorem C159_other_lines_refuted : exists differ src o,
  is_diff differ /\ judge differ ("init_array", src) (Some o) = VOk /\
  filter (fun l => negb (prefix "#" l)) o <> src.
Proof.
  exists (fun a b => if list_eq_dec String.string_dec a (b ++ ["	ret"])
                     then map Keep b ++ [Del "	ret"] else map Del a ++ map Add b),
    ["	.init_array"; "	.init_array"; "	ret"], ["	.init_array"; "	.init_array"].
  split; [|split; [reflexivity|discriminate]].
  intros a b.
  assert (K : forall l, old_of (map Keep l) = l /\ new_of (map Keep l) = l).
  { unfold old_of, new_of. intros l. induction l as [|x l [IH1 IH2]]; [split; reflexivity|].
    cbn. rewrite IH1, IH2. split; reflexivity. }
  assert (D : forall l, old_of (map Del l) = l /\ new_of (map Del l) = []).
  { unfold old_of, new_of. intros l. induction l as [|x l [IH1 IH2]]; [split; reflexivity|].
    cbn. rewrite IH1, IH2. split; reflexivity. }
  assert (A : forall l, old_of (map Add l) = [] /\ new_of (map Add l) = l).
  { unfold old_of, new_of. intros l. induction l as [|x l [IH1 IH2]]; [split; reflexivity|].
    cbn. rewrite IH1, IH2. split; reflexivity. }
  unfold old_of, new_of in *.
  destruct (list_eq_dec _ a (b ++ ["	ret"])) as [->|N]; rewrite !flat_map_app.
  - destruct (K b) as [-> ->]. cbn. rewrite app_nil_r. split; reflexivity.
  - destruct (D a) as [-> ->]. destruct (A b) as [-> ->]. rewrite app_nil_r. split; reflexivity.
Qed.

(** Non-vacuity: the three verdicts, with a diff that deletes all and adds all of
    files that are not equal. *)
Example C159_case :
  let differ a b := if list_eq_dec String.string_dec a b then map Keep a
                    else map Del a ++ map Add b in
  let src := ["f.cold:"; "	ret"; "	.size	f.cold, .-f.cold"] in
  gcc_test 9 8 3 differ
    (fun i => match i with O => Some ("#---func---" :: src) | _ => Some ["f.cold:"] end)
    [("cold_func_suffix", src); ("cold_func_suffix", src); ("init_array", src)]
  = (1, (1, 1, 1)).
Proof. vm_compute. reflexivity. Qed.

Print Assumptions C159_ok.
Print Assumptions C159_key.
Print Assumptions C159_same.
Print Assumptions C159_exit.
Print Assumptions C159_old.
Print Assumptions C159_no_output_refuted.
Print Assumptions C159_other_lines_refuted.
