(** C39: patch files made by kpatch_make. *)
From Coq Require Import String.
From Verif Require Import Base BaseProofs StorageModel StorageProofs MakeModel MakeProofs.
Open Scope list_scope.

(** write returns -1 or at most what it was given, and at most 0x7ffff000 (write(2)). *)
Definition write_result (n w : Z) : Prop := -1 <= w <= Z.min n 2147479552.
(** A string of exactly / at most [n] characters. *)
Definition no_nul (s : list Z) : Prop := Forall (fun c => c <> 0) s.

(** If kpatch_make succeeds, the file is read back as it was made: the store accepts
    it if the input is a relocatable object, it carries the build id and the patch
    id, its size is recorded in it, and the ELF part is the input, followed by
    nothing but fewer than 16 zeros.  Assumed: the build id has 40 characters and
    the patch id at most seven. *)
Theorem C39_read_back_partial : forall bid id input ok now w1 w2 d,
  zlen input < 2 ^ 62 -> no_nul bid -> zlen bid = 40 -> no_nul id -> zlen id <= 7 ->
  0 <= now < 2 ^ 64 ->
  write_result 504 w1 -> write_result (align16 (zlen input)) w2 ->
  make_main (Some bid) (Some id) (Some input) ok now w1 w2 = (0, Some d) ->
  slice d 0 8 = Some (str "KPATCH1" ++ [0]) /\
  single_buildid d = bid /\ slice d 88 41 = Some (bid ++ [0]) /\
  (exists x, slice d 8 8 = Some x /\ upto_nul x = id) /\
  read_le d 136 8 = Some now /\
  read_le d 152 4 = Some 504 /\ read_le d 160 4 = Some (zlen d) /\
  slice d 504 (zlen input) = Some input /\
  (exists k, (k < 16)%nat /\ skipn 504 d = input ++ repeat 0 k) /\
  (64 <= zlen input ->
   slice input 0 4 = Some [127; 69; 76; 70] -> read_le input 16 2 = Some 1 ->
   read_le input 58 2 = Some 64 -> single_init (Some d) = Some d).
Proof.
  intros bid id input ok now w1 w2 d L Fb Lb Fi Li T W1 W2 E.
  destruct (make_main_ok _ _ _ _ _ _ _ _ L W1 W2 E) as (-> & -> & -> & Sz & Ni & Nd). clear E.
  pose proof (made_bid input bid id now Fb Lb) as Hb.
  split; [apply made_magic|]. split.
  { unfold single_buildid, off_buildid. apply slice_inv in Hb as (_ & _ & _ & _ & Hb).
    change (Z.to_nat 41) with 41%nat in Hb. change (Z.to_nat 88) with 88%nat in *.
    assert (Hb' : firstn 40 (skipn 88 (made input bid id now)) = bid).
    { assert (Lb' : length bid = 40%nat) by (unfold zlen in Lb; lia).
      transitivity (firstn 40 (firstn 41 (skipn 88 (made input bid id now)))).
      { rewrite firstn_firstn. reflexivity. }
      rewrite <- Hb, firstn_app, firstn_all2 by lia. rewrite Lb', Nat.sub_diag. apply app_nil_r. }
    rewrite Hb'. apply upto_nul_id, Fb. }
  split; [exact Hb|]. split; [apply made_id; assumption|]. split; [apply made_time; assumption|].
  split; [apply made_koff|]. split.
  { rewrite made_zlen. apply made_total, Sz. }
  split; [apply made_content|]. split.
  { destruct (made_padding input bid id now) as (k & Lk & Ek). exists k. split; [exact Lk|].
    rewrite Ek. pose proof (header_zlen (zlen input) bid id now) as Lh.
    rewrite skipn_app, skipn_all2 by (unfold zlen in *; lia).
    replace (504 - length (make_header (zlen input) bid id now))%nat with 0%nat by (unfold zlen in *; lia).
    reflexivity. }
  intros L64 E1 E2 E3. unfold single_init, open_fd. rewrite made_zlen.
  pose proof (align16_spec _ (zlen_nonneg input)). pose proof (zlen_nonneg input).
  unfold hdr_size. replace (504 + align16 (zlen input) <? 504) with false by lia.
  rewrite (proj2 (made_verify input bid id now Sz L64)); [reflexivity|].
  split; [exact E1|]. split; assumption.
Qed.

(** kpatch_make succeeds only if everything was written; and then only. *)
Theorem C39_success_iff_written : forall bid id input now w1 w2,
  0 < zlen input < 2 ^ 62 -> id <> [] ->
  write_result 504 w1 -> write_result (align16 (zlen input)) w2 ->
  (fst (make_main (Some bid) (Some id) (Some input) true now w1 w2) = 0 <->
   w1 = 504 /\ w2 = align16 (zlen input)).
Proof.
  intros bid id input now w1 w2 L Ni W1 W2. unfold make_main.
  destruct id as [|c id]; [congruence|]. destruct input as [|x input]; [cbn in L; lia|].
  rewrite make_file_spec by (auto; lia). cbn [fst].
  destruct (Z.eqb_spec w1 504); destruct (Z.eqb_spec w2 (align16 (zlen (x :: input)))); cbn [andb];
    split; try lia.
Qed.

(** A file left behind by a failed run, in which the sizes were still written, is not
    accepted by a store. *)
Theorem C39_cut_refused : forall bid id input now w1 w2 d,
  0 < zlen input < 2 ^ 31 -> write_result 504 w1 -> write_result (align16 (zlen input)) w2 ->
  164 <= w1 ->
  make_main (Some bid) (Some id) (Some input) true now w1 w2 = (-1, Some d) ->
  single_init (Some d) = None.
Proof.
  intros bid id input now w1 w2 d L W1 W2 W E. unfold make_main in E.
  destruct id as [|c id]; [discriminate|]. destruct input as [|x input]; [discriminate|].
  rewrite make_file_spec in E by (auto; lia). set (inp := x :: input) in *.
  destruct ((w1 =? 504) && (w2 =? align16 (zlen inp))) eqn:C; [discriminate|].
  apply (f_equal snd) in E. cbn [snd] in E. apply some_inj in E. rewrite <- E.
  unfold write_result in *. apply cut_refused; lia.
Qed.

Definition c39_bid : list Z := str "0123456789abcdef0123456789abcdef01234567".
Definition c39_input : list Z :=
  [127; 69; 76; 70] ++ repeat 7 12 ++ [1; 0] ++ repeat 5 40 ++ [64; 0] ++ repeat 9 17.
Definition c39_run (bid id : list Z) : Z * option (list Z) :=
  make_main (Some bid) (Some id) (Some c39_input) true 1700000000 504 80.
Example C39_example :
  zlen c39_input = 77 /\ zlen c39_bid = 40 /\ align16 77 = 80 /\
  fst (c39_run c39_bid (str "fix-42")) = 0 /\
  match snd (c39_run c39_bid (str "fix-42")) with
  | Some d => (zlen d =? 584) && list_eqb (single_buildid d) c39_bid &&
              match single_init (Some d) with Some _ => true | None => false end
  | None => false
  end = true.
Proof. repeat split; vm_compute; reflexivity. Qed.
Example C39_example_hypotheses :
  slice c39_input 0 4 = Some [127; 69; 76; 70] /\ read_le c39_input 16 2 = Some 1 /\
  read_le c39_input 58 2 = Some 64 /\ no_nul c39_bid /\ no_nul (str "fix-42") /\
  write_result 504 504 /\ write_result (align16 (zlen c39_input)) 80 /\
  fst (make_main (Some c39_bid) (Some (str "f")) (Some c39_input) true 0 504 33) = -1.
Proof.
  repeat split; try (vm_compute; reflexivity); try (vm_compute; discriminate);
    repeat (apply Forall_cons; [discriminate|]); apply Forall_nil.
Qed.

(** Patch ids are cut to seven characters: two of them give one and the same file, so
    that the id the file carries is not the one given. *)
Theorem C39_long_id_refuted : exists bid id1 id2 input now w1 w2 d,
  no_nul id1 /\ no_nul id2 /\ id1 <> id2 /\
  make_main (Some bid) (Some id1) (Some input) true now w1 w2 = (0, Some d) /\
  make_main (Some bid) (Some id2) (Some input) true now w1 w2 = (0, Some d).
Proof.
  exists c39_bid, (str "patch-10"), (str "patch-11"), c39_input, 0, 504, 80.
  eexists. split; [repeat (apply Forall_cons; [discriminate|]); apply Forall_nil|].
  split; [repeat (apply Forall_cons; [discriminate|]); apply Forall_nil|].
  split; [discriminate|]. split; vm_compute; reflexivity.
Qed.
(** A build id of the wrong length is complained about, yet a patch is made: it is
    for another object. *)
Theorem C39_buildid_length_refuted : exists bid id input now w1 w2 d,
  no_nul bid /\ zlen bid = 42 /\
  make_main (Some bid) (Some id) (Some input) true now w1 w2 = (0, Some d) /\
  single_init (Some d) = Some d /\ single_buildid d <> bid.
Proof.
  exists (c39_bid ++ str "89"), (str "1"), c39_input, 0, 504, 80.
  eexists. split; [repeat (apply Forall_cons; [discriminate|]); apply Forall_nil|].
  split; [reflexivity|]. split; [vm_compute; reflexivity|]. split; vm_compute; [reflexivity|discriminate].
Qed.

Print Assumptions C39_read_back_partial.
Print Assumptions C39_success_iff_written.
Print Assumptions C39_cut_refused.
Print Assumptions C39_long_id_refuted.
Print Assumptions C39_buildid_length_refuted.
