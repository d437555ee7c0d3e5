(** C42 and C94 of whole files: input files that do not differ; variables without contents. *)
From Coq Require Import String.
From Verif Require Import Base BaseProofs StorageModel StorageProofs CliModel CliSpec TextModel TextSpec TextProofs ParseModel ParseSpec RenameModel RenameSpec
  CmpModel CmpSpec GenModel GenSpec GenFrame GenLoad GenOut GenWhole GenComm GenSame GenProperties.
Open Scope list_scope.

(** ** C42: when the two files have the same lines and blocks, the output has the blocks
    of the program as they were, and what is neither code nor data: no code of a patch and
    no entry of the table of functions. *)
Theorem C42_same_files : forall a o buf i0 i1 out, gensrc a o buf i0 i1 = Ok out ->
  exists f0 f1 st, run_of a o buf i0 i1 f0 f1 st
    /\ (g_lines f1 = g_lines f0 -> g_blocks f1 = g_blocks f0 -> go_unlink o = [] -> tame f0 ->
        exists h p a0 a1 x m, out = h ++ p ++ a0 ++ a1 ++ x
          /\ header_part st h /\ parts (as_it_was o st) (g_blocks (s_0 st)) 0 0 p
          /\ parts (attr0_part st) (g_blocks (s_0 st)) 0 0 a0
          /\ parts (attr1_part st m) (g_blocks (s_1 st)) 0 0 a1
          /\ parts (other_part st) (g_blocks (s_1 st)) 0 0 x).
Proof. exact same_files_output. Qed.
Print Assumptions C42_same_files.

Definition same_ex : string := ex_head ++ ex_var "v" "1" ++ ex_var "w.1" "1" ++ ex_var "w.2" "1" ++ ex_fun "foo" "	incl	%eax
" ++ ex_fun "bar.part.0" "	movl	w.2(%rip), %eax
" ++ ex_tail.
(** Computing whether the names of a file are tame *)
Definition tame_b (f : gfile) : bool :=
  forallb (fun b => negb (btype_beq (b_type b) BVar) || match txt (b_name b) with [] => false | _ => true end) (g_blocks f)
  && forallb (fun b => negb (starts (txt (b_name b)) (str "descriptor."))) (g_blocks f)
  && (fix go (seen : list cblock) (l : list cblock) : bool :=
        match l with
        | [] => true
        | b :: r => (negb (btype_beq (b_type b) BFunc && b_auto b) || forallb (fun c => negb (same (txt (b_hname c)) (txt (b_hname b)))) seen)
                    && go (b :: seen) r
        end) [] (g_blocks f).
Lemma tame_b_ok f : tame_b f = true -> tame f.
Proof.
  unfold tame_b. intros H. apply andb_true_iff in H as (H & H3). apply andb_true_iff in H as (H1 & H2). rewrite forallb_forall in H1, H2. split.
  - intros b I T. specialize (H1 b I). rewrite T in H1. cbn in H1. intros E. now rewrite E in H1.
  - intros b c _ Ic _ _ _ _ D. specialize (H2 c Ic). apply negb_true_iff in H2. apply starts_spec in D. congruence.
  - intros b u v E T A c Ic Q. rewrite E in H3. revert H3.
    assert (K : forall u seen, (In c seen \/ In c u) -> (fix go (seen : list cblock) (l : list cblock) : bool :=
        match l with
        | [] => true
        | b :: r => (negb (btype_beq (b_type b) BFunc && b_auto b) || forallb (fun c => negb (same (txt (b_hname c)) (txt (b_hname b)))) seen)
                    && go (b :: seen) r
        end) seen (u ++ b :: v) = true -> False).
    { clear u E Ic. induction u as [|x u IH]; intros seen J H; cbn [app] in H; apply andb_true_iff in H as (Ha & Hb).
      - rewrite T, A in Ha. cbn in Ha. rewrite forallb_forall in Ha. destruct J as [J|[]]. specialize (Ha c J). rewrite Q, same_refl in Ha. discriminate.
      - apply (IH (x :: seen)); auto. destruct J as [J|[->|J]]; [left; now right|left; now left|now right]. }
    intros H. apply (K u [] (or_intror Ic) H).
Qed.
Example C42_same_files_hyps :
  (exists out, gensrc px86 opt 4095 (inp same_ex) (inp same_ex) = Ok out /\ contains out (str ".kpatch") = false)
  /\ exists ms ls tb f0 ms' ls' tb' f1, load px86 4095 predefined (inp same_ex) = Ok (ms, ls, tb) /\ file_of px86 (inp same_ex) ls = Ok f0
    /\ load px86 4095 tb (inp same_ex) = Ok (ms', ls', tb') /\ file_of px86 (inp same_ex) ls' = Ok f1
    /\ g_lines f1 = g_lines f0 /\ g_blocks f1 = g_blocks f0 /\ tame f0 /\ length (filter b_auto (g_blocks f0)) = 3%nat.
Proof.
  split; [eexists; split; vm_compute; reflexivity|].
  eexists _, _, _, _, _, _, _, _. split; [vm_compute; reflexivity|]. split; [vm_compute; reflexivity|]. split; [vm_compute; reflexivity|].
  split; [vm_compute; reflexivity|]. split; [vm_compute; reflexivity|]. split; [vm_compute; reflexivity|].
  split; [apply tame_b_ok; vm_compute; reflexivity|vm_compute; reflexivity].
Qed.
(** A function and a part the compiler split from it: the part is not found again and is
    put in the patch, although nothing changed. *)
Definition split_ex : string := ex_head ++ ex_fun "foo" "	incl	%eax
" ++ ex_fun "foo.part.0" "	decl	%eax
" ++ ex_tail.
Theorem C42_split_function_refuted : exists a o buf i out, gensrc a o buf i i = Ok out /\ go_unlink o = []
  /\ contains out (str "foo.part.0.kpatch:") = true /\ contains out (str ".pushsection .kpatch.info") = true.
Proof. exists px86, opt, 4095%nat, (inp split_ex). eexists. split; [vm_compute; reflexivity|]. split; [reflexivity|]. split; vm_compute; reflexivity. Qed.
Print Assumptions C42_split_function_refuted.

(** ** C94: how a variable without contents is read: .comm name,size or
    .comm name,size,alignment *)
Theorem C94_comm : forall g1 g2 n z zv tl av,
  blank g1 -> blank g2 -> g2 <> [] -> word n -> numeral z zv -> zv < 2 ^ 31 ->
  ((tl = [] /\ av = 0) \/ exists a, numeral a av /\ av < 2 ^ 31 /\ tl = 44 :: a) ->
  get_comm_args (g1 ++ str ".comm" ++ g2 ++ n ++ 44 :: z ++ tl) = Ok (n, zv, av).
Proof. exact comm_args. Qed.
Print Assumptions C94_comm.
Example C94_comm_hyps : get_comm_args (9 :: str ".comm" ++ 9 :: str "x.1,4096,32") = Ok (str "x.1", 4096, 32)
  /\ word (str "x.1") /\ numeral (str "4096") 4096 /\ numeral (str "32") 32.
Proof.
  split; [vm_compute; reflexivity|]. split; [|split].
  - split; [discriminate|]. split; [|discriminate]. repeat constructor; cbn; lia.
  - split; [discriminate|]. split; [cbn; repeat (apply Forall_cons; [lia|]); apply Forall_nil|]. split; [reflexivity|]. discriminate.
  - split; [discriminate|]. split; [cbn; repeat (apply Forall_cons; [lia|]); apply Forall_nil|]. split; [reflexivity|]. discriminate.
Qed.
