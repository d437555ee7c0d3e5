(** C111-C115: a program that has just been started. *)
From Coq Require Import String ZifyBool.
From Verif Require Import Base BaseProofs StorageModel CliSpec ProcModel MapsModel MapsProofs
  StartModel StartSpec StartProofs.
Open Scope list_scope.

(** * C111: the entry point is the one the kernel gives *)

Theorem C111_entry_point pre v rs more : pairs_read (pre ++ [(9, v)]) rs ->
  Forall (fun x => fst x <> 9) pre -> get_entry_point (rs ++ more) = EPoint (Some v).
Proof. intros P F. exact (entry_found pre v rs more P F _). Qed.
Print Assumptions C111_entry_point.
Example C111_entry_point_example :
  pairs_read ([(6, 4096); (3, 4194368)] ++ [(9, 4198400)])
    [RBytes (le_bytes 8 6 ++ le_bytes 8 4096); RIntr; RBytes (le_bytes 8 3 ++ le_bytes 8 4194368);
     RBytes (le_bytes 8 9 ++ le_bytes 8 4198400)].
Proof. repeat constructor; vm_compute; discriminate. Qed.

(** Without one, or when the file cannot be read so far, it fails. *)
Theorem C111_no_entry_point ps rs last more : pairs_read ps rs -> Forall (fun x => fst x <> 9) ps ->
  last = RErr \/ last = RBytes [] -> get_entry_point (rs ++ last :: more) = ENone.
Proof. intros P F L. apply (entry_none ps); auto. vm_compute. discriminate. Qed.
Print Assumptions C111_no_entry_point.
Example C111_no_entry_point_example : get_entry_point [RIntr; RBytes (le_bytes 8 6 ++ le_bytes 8 4096); RBytes []] = ENone.
Proof. vm_compute. reflexivity. Qed.

(** A file that ends after the first half of the pair: success, and no entry point. *)
Theorem C111_half_a_pair_refuted : exists rs, get_entry_point rs = EPoint None.
Proof. exists [RBytes (le_bytes 8 9)]. vm_compute. reflexivity. Qed.
Print Assumptions C111_half_a_pair_refuted.

(** * C112: a process goes by the name of its program *)

(** The name lacks the last character of the file's name and is cut to 15. *)
Theorem C112_last_character_lost path exe name cmdline : program exe name -> ~ In 32 name ->
  ~ starts_with (str "ld") (removelast name) ->
  get_comm path (Some exe) cmdline = COk (firstn 15 (removelast name)) false.
Proof.
  intros P NB NL. destruct (real_base exe name P) as (F & NE & B). destruct P as (_ & _ & _ & NN & LN).
  unfold get_comm. rewrite F. replace (Nat.eqb (length exe) 0) with false by (symmetry; now apply Nat.eqb_neq).
  rewrite B. unfold zlen in *. rewrite removelast_length.
  assert (0 < length name)%nat by (destruct name; [easy|cbn; lia]).
  replace (127 <=? Z.of_nat (pred (length name))) with false by lia.
  rewrite cut_plain by (intros I; now apply NB, removelast_in).
  destruct (is_prefix (str "ld") (firstn 15 (removelast name))) eqn:E; [|reflexivity].
  elim NL. apply is_prefix_starts in E as [r E]. exists (r ++ skipn 15 (removelast name)).
  rewrite app_assoc, <- E. symmetry. apply firstn_skipn.
Qed.
Print Assumptions C112_last_character_lost.
Example C112_last_character_lost_example :
  program (str "/usr/sbin/sshd") (str "sshd") /\ get_comm [] (Some (str "/usr/sbin/sshd")) None = COk (str "ssh") false.
Proof.
  split; [|vm_compute; reflexivity]. split; [vm_compute; intuition discriminate|]. split; [vm_compute; discriminate|].
  split; [|split; [discriminate|vm_compute; discriminate]].
  split; [vm_compute; intuition discriminate|right; now exists (str "/usr/sbin")].
Qed.

(** So a name of 16 characters and more is the one the kernel has as well. *)
Theorem C112_long_name_partial path exe name cmdline : program exe name -> ~ In 32 name ->
  ~ starts_with (str "ld") name -> 16 <= zlen name ->
  get_comm path (Some exe) cmdline = COk (firstn 15 name) false.
Proof.
  intros P NB NL L.
  assert (R : name <> []) by (intros ->; now cbn in L).
  pose proof (app_removelast_last 0 R) as E.
  rewrite (C112_last_character_lost path exe name cmdline P NB).
  - f_equal. rewrite E at 2. unfold zlen in L. rewrite firstn_app, removelast_length.
    replace (15 - pred (length name))%nat with 0%nat by lia. now rewrite firstn_O, app_nil_r.
  - intros [r ER]. apply NL. exists (r ++ [last name 0]). rewrite app_assoc, <- ER. exact E.
Qed.
Print Assumptions C112_long_name_partial.

Theorem C112_short_name_refuted : exists exe name, program exe name /\ zlen name <= 15 /\ ~ In 32 name /\
  get_comm [] (Some exe) None <> COk name false.
Proof.
  exists (str "/usr/sbin/sshd"), (str "sshd"). split; [apply C112_last_character_lost_example|].
  split; [vm_compute; discriminate|]. split; [vm_compute; intuition discriminate|vm_compute; discriminate].
Qed.
Print Assumptions C112_short_name_refuted.

(** Virtual machines are recognised: the name starts with "qemu-" exactly when that of the
    program does and has more to it. *)
Theorem C112_qemu path exe name cmdline : program exe name ->
  (exists comm ld, get_comm path (Some exe) cmdline = COk comm ld /\ ld = false /\ named_qemu comm = true)
  <-> starts_with (str "qemu-") name /\ 6 <= zlen name.
Proof.
  intros P. destruct (real_base exe name P) as (F & NE & B). destruct P as (_ & _ & _ & NN & LN).
  unfold get_comm. rewrite F. replace (Nat.eqb (length exe) 0) with false by (symmetry; now apply Nat.eqb_neq).
  rewrite B. unfold zlen in *. rewrite removelast_length.
  assert (LP : (0 < length name)%nat) by (destruct name; [easy|cbn; lia]).
  replace (127 <=? Z.of_nat (pred (length name))) with false by lia.
  pose proof (app_removelast_last 0 NN) as E.
  unfold named_qemu. split.
  - intros (comm & ld & G & -> & Q).
    destruct (is_prefix (str "ld") _) eqn:D.
    { unfold get_comm_ld_linux in G. destruct cmdline as [d|]; [|discriminate].
      destruct (Nat.eqb _ 0); [discriminate|]. destruct (c_string _); discriminate. }
    assert (EC : comm = firstn 15 (cut_at (str " (deleted)") (removelast name))) by congruence.
    clear G. subst comm. apply is_prefix_starts in Q as [r Q].
    destruct (cut_prefix (str " (deleted)") (removelast name)) as [q C].
    set (c := cut_at (str " (deleted)") (removelast name)) in *.
    pose proof (firstn_skipn 15 c) as FS. rewrite Q in FS.
    assert (N : name = str "qemu-" ++ (r ++ skipn 15 c) ++ q ++ [last name 0]).
    { rewrite E at 1. rewrite C, <- FS at 1. now rewrite <- !app_assoc. }
    split; [eexists; exact N|]. rewrite N. rewrite !app_length. cbn [length str]. 
    change (length (str "qemu-")) with 5%nat. lia.
  - intros [[r N] L].
    assert (RN : exists r', removelast name = str "qemu-" ++ r').
    { rewrite N in L |- *. rewrite app_length in L. change (length (str "qemu-")) with 5%nat in L.
      rewrite removelast_app by (destruct r; [cbn in L; lia|discriminate]). eauto. }
    destruct RN as [r' ->]. rewrite cut_app by (vm_compute; intuition discriminate).
    exists (firstn 15 (str "qemu-" ++ cut_at (str " (deleted)") r')), false. split; [reflexivity|]. split; reflexivity.
Qed.
Print Assumptions C112_qemu.

(** The dynamic loader run as a program: the name is that of its first argument. *)
Theorem C112_loader path exe name w1 w2 rest b : program exe name -> starts_with (str "ld") name ->
  3 <= zlen name -> ~ In 32 name -> w1 <> [] -> ~ In 0 w1 -> ~ In 0 w2 -> last_part w2 b ->
  zlen w1 + zlen w2 + 2 <= 1024 ->
  get_comm path (Some exe) (Some (w1 ++ [0] ++ w2 ++ [0] ++ rest)) = COk (firstn 15 b) true.
Proof.
  intros P SL L3 NB N1 Z1 Z2 LB L. destruct (real_base exe name P) as (F & NE & B). destruct P as (_ & _ & _ & NN & LN).
  unfold get_comm. rewrite F. replace (Nat.eqb (length exe) 0) with false by (symmetry; now apply Nat.eqb_neq).
  rewrite B. unfold zlen in *. rewrite removelast_length.
  replace (127 <=? Z.of_nat (pred (length name))) with false by lia.
  rewrite cut_plain by (intros I; now apply NB, removelast_in).
  assert (D : is_prefix (str "ld") (firstn 15 (removelast name)) = true).
  { destruct SL as [r ->]. rewrite app_length in L3. change (length (str "ld")) with 2%nat in L3.
    rewrite removelast_app by (destruct r; [cbn in L3; lia|discriminate]). reflexivity. }
  rewrite D. unfold get_comm_ld_linux.
  set (d := firstn 1024 _).
  assert (ED : exists q, d = w1 ++ 0 :: w2 ++ 0 :: q).
  { exists (firstn (1024 - (length w1 + length w2 + 2)) rest). unfold d.
    rewrite firstn_app, (firstn_all2 w1) by lia. f_equal.
    destruct (1024 - length w1)%nat as [|k] eqn:K; [lia|]. cbn [app firstn]. f_equal.
    rewrite firstn_app, (firstn_all2 w2) by lia. f_equal.
    destruct (k - length w2)%nat as [|k'] eqn:K'; [lia|]. cbn [firstn]. do 2 f_equal. lia. }
  destruct ED as [q ->].
  assert (FN : first_nul (w1 ++ 0 :: w2 ++ 0 :: q) = length w1).
  { clear - Z1. induction w1 as [|c w1 IH]; [reflexivity|]. cbn in *. replace (c =? 0) with false by lia.
    rewrite IH; tauto. }
  rewrite FN. replace (Nat.eqb (length w1) 0) with false by (symmetry; apply Nat.eqb_neq; destruct w1; [easy|discriminate]).
  assert (SK : forall X, skipn (S (length w1)) (map Some (w1 ++ 0 :: w2 ++ 0 :: q) ++ X)
               = map Some w2 ++ Some 0 :: map Some q ++ X).
  { intros X. rewrite map_app. cbn [map]. rewrite map_app. cbn [map]. rewrite <- app_assoc.
    clear. induction w1 as [|c w1 IH]; [cbn; now rewrite <- app_assoc|]. exact IH. }
  rewrite SK.
  assert (CS : forall X, c_string (map Some w2 ++ Some 0 :: X) = Some w2).
  { clear - Z2. intros X. induction w2 as [|c w2 IH]; [reflexivity|]. cbn in *. replace (c =? 0) with false by lia.
    rewrite IH; tauto. }
  rewrite CS, (basename_last _ _ LB). reflexivity.
Qed.
Print Assumptions C112_loader.
Example C112_loader_example :
  get_comm (str "/proc/7/cmdline") (Some (str "/lib64/ld-2.28.so"))
    (Some (str "/lib64/ld-linux-x86-64.so.2" ++ [0] ++ str "/opt/app/server" ++ [0] ++ str "-v" ++ [0]))
  = COk (str "server") true.
Proof. vm_compute. reflexivity. Qed.

(** An ordinary program whose name starts with ld is taken for the loader. *)
Theorem C112_ordinary_program_refuted : exists exe cmdline comm, program exe (str "ldapsearch") /\
  get_comm (str "/proc/7/cmdline") (Some exe) (Some cmdline) = COk comm true /\ comm = str "-x".
Proof.
  exists (str "/usr/bin/ldapsearch"), (str "ldapsearch" ++ [0] ++ str "-x" ++ [0]), (str "-x").
  split; [|split; vm_compute; reflexivity]. split; [vm_compute; intuition discriminate|]. split; [vm_compute; discriminate|].
  split; [|split; [discriminate|vm_compute; discriminate]].
  split; [vm_compute; intuition discriminate|right; now exists (str "/usr/bin")].
Qed.
Print Assumptions C112_ordinary_program_refuted.

(** The loader without an argument: the end of the name of the file just read. *)
Theorem C112_no_argument_refuted : exists exe cmdline,
  get_comm (str "/proc/7/cmdline") (Some exe) (Some cmdline) = COk (str "cmdline") true.
Proof. exists (str "/lib64/ld-2.28.so"), (str "ld.so" ++ [0]). vm_compute. reflexivity. Qed.
Print Assumptions C112_no_argument_refuted.
(** or bytes nothing was stored in. *)
Theorem C112_unset_bytes_refuted : exists exe cmdline,
  get_comm (str "/proc/7/cmdline") (Some exe) (Some cmdline) = CUndef.
Proof. exists (str "/lib64/ld-2.28.so"), (str "/lib64/ld-linux-x86-64.so.2" ++ [0]). vm_compute. reflexivity. Qed.
Print Assumptions C112_unset_bytes_refuted.

(** The mark of a deleted file is not removed. *)
Theorem C112_deleted_refuted : exists exe,
  get_comm [] (Some (exe ++ str " (deleted)")) None = COk (str "prog (deleted") false /\ basename exe = str "prog".
Proof. exists (str "/usr/bin/prog"). split; vm_compute; reflexivity. Qed.
Print Assumptions C112_deleted_refuted.

(** The program with coroutines that the tests have is not recognised. *)
Theorem C112_test_program_refuted : exists exe comm, program exe (str "fail_coro") /\
  get_comm [] (Some exe) None = COk comm false /\ is_test_target comm (str "fail_coro") = false.
Proof.
  exists (str "/root/tests/fail_coro"), (str "fail_cor").
  split; [|split; vm_compute; reflexivity]. split; [vm_compute; intuition discriminate|]. split; [vm_compute; discriminate|].
  split; [|split; [discriminate|vm_compute; discriminate]].
  split; [vm_compute; intuition discriminate|right; now exists (str "/root/tests")].
Qed.
Print Assumptions C112_test_program_refuted.

(** * C113: the entry point of a program run by the dynamic loader *)

(** On x86 and RISC-V the address is the result of the first mmap, whatever calls come
    before it, and on RISC-V whatever signals. *)
Theorem C113_first_mmap a l ret evs more : a = X86 \/ a = RISCV ->
  stops_of (l ++ [Call (nr_mmap a) ret]) evs -> Forall (not_call (nr_mmap a)) l ->
  (a = X86 -> Forall is_call l) ->
  fst (wait_for_mmap a (evs ++ more)) = WBase (u64 ret).
Proof. intros G S N C. now apply (first_mmap a l). Qed.
Print Assumptions C113_first_mmap.
Definition rg (nr ret : Z) : sregs := {| r_nr := nr; r_ret := ret; r_fp := 140737488350000; r_pc := 140000000 |}.
Example C113_first_mmap_example :
  stops_of ([Call 12 0; Call 0 64] ++ [Call (nr_mmap X86) 94000000])
    [MStop 5 (rg 12 (-38)); MStop 5 (rg 12 0); MStop 5 (rg 0 (-38)); MStop 5 (rg 0 64);
     MStop 5 (rg 9 (-38)); MStop 5 (rg 9 94000000)].
Proof. cbn [app]. unfold rg. repeat (apply so_call; [vm_compute; split; [discriminate|reflexivity]|]). constructor. Qed.

(** The entry point is the one of the ELF header at that address, moved by the address if
    the program is position independent. *)
Theorem C113_entry_point a l base evs more mem h : a = X86 \/ a = RISCV ->
  stops_of (l ++ [Call (nr_mmap a) base]) evs -> Forall (not_call (nr_mmap a)) l ->
  (a = X86 -> Forall is_call l) -> 0 <= base < 2 ^ 64 -> mem base = Some h ->
  forall ident type rest entry, h = ident ++ le_bytes 2 type ++ rest ++ le_bytes 8 entry ++ skipn 32 h ->
  length ident = 16%nat -> length rest = 6%nat -> 0 <= type < 2 ^ 16 -> 0 <= entry < 2 ^ 64 ->
  handle_ld_linux a (evs ++ more) mem = Some (if type =? 3 then (base + entry) mod 2 ^ 64 else entry).
Proof.
  intros G S N C LB M ident type rest entry E LI LR LT LE.
  unfold handle_ld_linux. rewrite (C113_first_mmap a l base evs more G S N C).
  assert (U : u64 base = base) by (unfold u64; apply Z.mod_small; lia). rewrite U, M.
  assert (T : firstn 2 (skipn 16 h) = le_bytes 2 type).
  { rewrite E, <- LI, skipn_app, skipn_all, Nat.sub_diag. reflexivity. }
  assert (T2 : firstn 8 (skipn 24 h) = le_bytes 8 entry).
  { rewrite E. rewrite !app_assoc. 
    assert (L24 : length ((ident ++ le_bytes 2 type) ++ rest) = 24%nat) by (rewrite !app_length, le_bytes_length; lia).
    rewrite <- (app_assoc _ (le_bytes 8 entry)). rewrite <- L24, skipn_app, skipn_all, Nat.sub_diag. reflexivity. }
  rewrite T, T2, !le_val_bytes. change (256 ^ Z.of_nat 2) with (2 ^ 16). change (256 ^ Z.of_nat 8) with (2 ^ 64).
  rewrite !Z.mod_small by lia. unfold u64. now rewrite Z.add_comm.
Qed.
Print Assumptions C113_entry_point.
Definition ehdr0 : list Z := [127; 69; 76; 70] ++ repeat 0 12 ++ le_bytes 2 3 ++ repeat 0 6 ++ le_bytes 8 4176 ++ repeat 0 32.
Example C113_entry_point_example :
  handle_ld_linux X86 [MStop 5 (rg 9 (-38)); MStop 5 (rg 9 94000000)] (fun a => if a =? 94000000 then Some ehdr0 else None)
  = Some 94004176.
Proof. vm_compute. reflexivity. Qed.

(** aarch64 takes the frame pointer for the number of the call and the number for the
    result; LoongArch takes the program counter for the result. *)
Theorem C113_aarch64_refuted : exists l ret evs, stops_of (l ++ [Call 222 ret]) evs /\
  Forall (not_call 222) l /\ Forall is_call l /\ fst (wait_for_mmap AARCH64 evs) <> WBase (u64 ret).
Proof.
  exists [], 94000000, [MStop 5 (rg 222 0); MStop 5 (rg 222 94000000)].
  split; [|split; [constructor|split; [constructor|vm_compute; discriminate]]].
  cbn [app]. unfold rg. apply so_call; [vm_compute; split; [discriminate|reflexivity]|constructor].
Qed.
Print Assumptions C113_aarch64_refuted.
Theorem C113_loongarch_refuted : exists l ret evs, stops_of (l ++ [Call 222 ret]) evs /\
  Forall (not_call 222) l /\ Forall is_call l /\ fst (wait_for_mmap LOONG evs) = WBase 140000000 /\ ret <> 140000000.
Proof.
  exists [], 94000000, [MStop 5 (rg 222 0); MStop 5 (rg 222 94000000)].
  split; [|split; [constructor|split; [constructor|split; [vm_compute; reflexivity|discriminate]]]].
  cbn [app]. unfold rg. apply so_call; [vm_compute; split; [discriminate|reflexivity]|constructor].
Qed.
Print Assumptions C113_loongarch_refuted.

(** On x86 a signal before the mmap makes it fail. *)
Theorem C113_signal_refuted : exists l ret evs, stops_of (l ++ [Call (nr_mmap X86) ret]) evs /\
  Forall (not_call (nr_mmap X86)) l /\ fst (wait_for_mmap X86 evs) = WErr.
Proof.
  exists [Sig 17], 94000000, [MStop 17 (rg (-1) 0); MStop 5 (rg 9 0); MStop 5 (rg 9 94000000)].
  split; [|split; [repeat constructor|vm_compute; reflexivity]].
  cbn [app]. apply so_sig; [discriminate|vm_compute; reflexivity|].
  unfold rg. apply so_call; [vm_compute; split; [discriminate|reflexivity]|constructor].
Qed.
Print Assumptions C113_signal_refuted.

(** No signal is handed to the program while the tool waits, on any of the four; on RISC-V
    and LoongArch one that comes is lost. *)
Theorem C113_nothing_handed_on a evs : Forall (fun s => s = 0) (snd (wait_for_mmap a evs)).
Proof. apply no_signal. Qed.
Print Assumptions C113_nothing_handed_on.
Theorem C113_signal_lost_refuted : exists l ret evs, stops_of (l ++ [Call (nr_mmap RISCV) ret]) evs /\
  In (Sig 15) l /\ fst (wait_for_mmap RISCV evs) = WBase (u64 ret) /\ ~ In 15 (snd (wait_for_mmap RISCV evs)).
Proof.
  exists [Sig 15], 94000000, [MStop 15 (rg (-1) 0); MStop 5 (rg 222 0); MStop 5 (rg 222 94000000)].
  split; [|split; [now left|split; [vm_compute; reflexivity|vm_compute; intuition discriminate]]].
  cbn [app]. apply so_sig; [discriminate|vm_compute; reflexivity|].
  unfold rg. apply so_call; [vm_compute; split; [discriminate|reflexivity]|constructor].
Qed.
Print Assumptions C113_signal_lost_refuted.

(** The first mmap need not be of the program: any 64 bytes give an entry point. *)
Theorem C113_not_an_elf_refuted : exists evs mem, mem 94000000 = Some (repeat 0 64) /\
  handle_ld_linux X86 evs mem = Some 0.
Proof.
  exists [MStop 5 (rg 9 (-38)); MStop 5 (rg 9 94000000)], (fun _ => Some (repeat 0 64)).
  split; [reflexivity|vm_compute; reflexivity].
Qed.
Print Assumptions C113_not_an_elf_refuted.

(** * C114: the execve wrapper is let go on and followed through its execve *)

Lemma break_loop_spec a junk t stops : fst (break_loop a junk t stops) = Some true ->
  exists pre s post, stops = pre ++ s :: post /\
    Forall (fun x => exists pc peek, x = Some (pc, peek) /\ at_break a junk pc peek = Some false) pre /\
    (exists pc peek, s = Some (pc, peek) /\ at_break a junk pc peek = Some true) /\
    snd (break_loop a junk t stops) = repeat (KWait t t) (S (length pre)).
Proof.
  induction stops as [|[[pc peek]|] stops IH]; cbn [break_loop]; [discriminate| |discriminate].
  destruct (at_break a junk pc peek) as [[]|] eqn:E; [| |discriminate].
  - intros _. exists [], (Some (pc, peek)), stops. cbn. repeat split; eauto.
  - destruct (break_loop a junk t stops) as [x l]. cbn [fst snd] in *. intros ->.
    destruct (IH eq_refl) as (pre & s & post & -> & F & S & ->).
    exists (Some (pc, peek) :: pre), s, post. repeat split; eauto.
Qed.

Lemma sends_app a b : sends (a ++ b) = sends a + sends b.
Proof. unfold sends. now rewrite filter_app, zlen_app. Qed.
Lemma detached_app a b : detached (a ++ b) = detached a ++ detached b.
Proof. unfold detached. apply flat_map_app. Qed.
Lemma waits_quiet t w n : sends (repeat (KWait t w) n) = 0 /\ detached (repeat (KWait t w) n) = [].
Proof. induction n as [|n [IH1 IH2]]; [easy|]. split; [exact IH1|exact IH2]. Qed.
Lemma detaches l : sends (map KDetach l) = 0 /\ detached (map KDetach l) = l.
Proof.
  induction l as [|x l [IH1 IH2]]; [easy|]. split; [exact IH1|]. cbn. f_equal. exact IH2.
Qed.

(** When it succeeds: the message was sent once, before anything else; the thread ran to its
    breakpoint and no further than needed; then the tool waited for the leader of the
    threads, is attached to it alone, has detached from every other thread once, and has its
    memory open. *)
Theorem C114_handshake a junk leader others pid send stops status last open pid' ths' evs :
  NoDup (leader :: others) -> 0 < leader < 2 ^ 31 ->
  (pid <> leader -> get_threadgroup_id (status pid) = leader) ->
  kickstart a junk (leader :: others) pid send stops status last open = (Some 0, pid', ths', evs) ->
  pid' = leader /\ ths' = [leader] /\ sends evs = 1 /\ detached evs = others /\
  exists pre s post, stops = pre ++ s :: post /\
    Forall (fun x => exists pc peek, x = Some (pc, peek) /\ at_break a junk pc peek = Some false) pre /\
    (exists pc peek, s = Some (pc, peek) /\ at_break a junk pc peek = Some true) /\
    evs = KSend :: repeat (KWait pid pid) (S (length pre)) ++ KWait pid leader :: map KDetach others ++ [KOpen leader].
Proof.
  intros ND LL TG. unfold kickstart.
  destruct (existsb (Z.eqb pid) (leader :: others)) eqn:EX; cbn [negb]; [|discriminate].
  destruct send; cbn [negb]; [|discriminate].
  pose proof (break_loop_spec a junk pid stops) as BL.
  destruct (break_loop a junk pid stops) as [x l]. cbn [fst snd] in BL.
  destruct x as [[]|]; [|discriminate|discriminate].
  destruct (BL eq_refl) as (pre & s & post & ES & F & HS & ->).
  assert (T : (if negb (leader =? pid) then get_threadgroup_id (status pid) else pid) = leader).
  { destruct (Z.eqb_spec leader pid) as [->|D]; cbn [negb]; [reflexivity|]. apply TG. congruence. }
  rewrite T. replace (leader <? 0) with false by lia. rewrite andb_false_r.
  replace (leader =? 0) with false by lia.
  destruct last; cbn [negb]; [|discriminate]. destruct open; [|discriminate].
  inversion_clear ND as [|? ? NI ND'].
  assert (FO : filter (fun t => negb (t =? leader)) (leader :: others) = others).
  { cbn [filter]. rewrite Z.eqb_refl. cbn [negb].
    clear - NI. induction others as [|o others IH]; [reflexivity|]. cbn in NI. cbn [filter].
    replace (o =? leader) with false by lia. cbn [negb]. f_equal. apply IH. tauto. }
  assert (FL : filter (Z.eqb leader) (leader :: others) = [leader]).
  { cbn [filter]. rewrite Z.eqb_refl. f_equal.
    clear - NI. induction others as [|o others IH]; [reflexivity|]. cbn in NI. cbn [filter].
    replace (leader =? o) with false by lia. apply IH. tauto. }
  rewrite FO, FL. intros E. set (W := repeat (KWait pid pid) (S (length pre))) in *.
  assert (EE : evs = KSend :: W ++ KWait pid leader :: map KDetach others ++ [KOpen leader]).
  { transitivity (((KSend :: W) ++ [KWait pid leader]) ++ map KDetach others ++ [KOpen leader]); [congruence|].
    cbn [app]. now rewrite <- app_assoc. }
  assert (EP : pid' = leader) by congruence. assert (ET : ths' = [leader]) by congruence.
  clear E. subst pid' ths' evs. split; [reflexivity|]. split; [reflexivity|].
  assert (Q1 : forall X, sends (KSend :: X) = 1 + sends X).
  { intros X. unfold sends. cbn [filter]. unfold zlen. cbn [length]. lia. }
  split.
  - rewrite Q1, sends_app. unfold W. rewrite (proj1 (waits_quiet _ _ _)).
    change (KWait pid leader :: ?z) with ([KWait pid leader] ++ z).
    rewrite sends_app, sends_app, (proj1 (detaches others)). reflexivity.
  - split.
    + change (KSend :: ?z) with ([KSend] ++ z). change (KWait pid leader :: ?z) with ([KWait pid leader] ++ z).
      rewrite !detached_app. unfold W. rewrite (proj2 (waits_quiet _ _ _)), (proj2 (detaches others)).
      cbn. apply app_nil_r.
    + exists pre, s, post. repeat split; auto.
Qed.
Print Assumptions C114_handshake.

(** A breakpoint is told from other stops: on x86 by the byte before the program counter, on
    RISC-V by the word at it. *)
Lemma at_break_x86 junk s : (stopped_after 0xcc s -> exists pc peek, s = Some (pc, peek) /\ at_break X86 junk pc peek = Some true) /\
  (forall b, stopped_after b s -> b <> 0xcc -> b <> 0xff ->
     exists pc peek, s = Some (pc, peek) /\ at_break X86 junk pc peek = Some false).
Proof.
  assert (G : forall b, stopped_after b s -> b <> 0xff -> exists pc peek, s = Some (pc, peek) /\
            at_break X86 junk pc peek = Some (b =? 0xcc)).
  { intros b (pc & peek & w & -> & L & P & LW & B) NB. exists pc, peek. split; [reflexivity|].
    unfold at_break, u64. rewrite (Z.mod_small pc) by lia. replace (pc =? 2 ^ 64 - 1) with false by lia.
    rewrite (Z.mod_small (pc - 1)) by lia. rewrite P, (Z.mod_small w) by lia.
    destruct (Z.eqb_spec w (2 ^ 64 - 1)) as [->|_]; [|now rewrite B].
    elim NB. rewrite <- B. reflexivity. }
  split.
  - intros H. apply (G 0xcc H). discriminate.
  - intros b H N1 N2. destruct (G b H N2) as (pc & peek & -> & E). exists pc, peek. split; [reflexivity|].
    now replace (b =? 0xcc) with false in E by lia.
Qed.
Lemma at_break_riscv junk w s : stopped_at w s ->
  exists pc peek, s = Some (pc, peek) /\ at_break RISCV junk pc peek = Some (w =? 0x100073).
Proof.
  intros (pc & peek & x & -> & P & W). exists pc, peek. split; [reflexivity|].
  unfold at_break. now rewrite P, W.
Qed.

Lemma break_loop_reaches a junk t pre s post :
  Forall (fun x => exists pc peek, x = Some (pc, peek) /\ at_break a junk pc peek = Some false) pre ->
  (exists pc peek, s = Some (pc, peek) /\ at_break a junk pc peek = Some true) ->
  break_loop a junk t (pre ++ s :: post) = (Some true, repeat (KWait t t) (S (length pre))).
Proof.
  intros F (pc & peek & -> & E). induction F as [|x pre (pc' & peek' & -> & E') F IH]; cbn [app break_loop].
  - now rewrite E.
  - rewrite E', IH. reflexivity.
Qed.

(** It does succeed when the wrapper gets to its breakpoint and the calls succeed. *)
Theorem C114_succeeds a junk leader others pid pre s post status :
  (a = X86 /\ Forall (fun x => exists b, stopped_after b x /\ b <> 0xcc /\ b <> 0xff) pre /\ stopped_after 0xcc s) \/
  (a = RISCV /\ Forall (fun x => exists w, stopped_at w x /\ w <> 0x100073) pre /\ stopped_at 0x100073 s) ->
  In pid (leader :: others) -> 0 < leader < 2 ^ 31 ->
  (pid <> leader -> get_threadgroup_id (status pid) = leader) ->
  exists ths' evs, kickstart a junk (leader :: others) pid true (pre ++ s :: post) status true true
                   = (Some 0, leader, ths', evs).
Proof.
  intros A IP LL TG.
  assert (B : break_loop a junk pid (pre ++ s :: post) = (Some true, repeat (KWait pid pid) (S (length pre)))).
  { apply break_loop_reaches; destruct A as [(-> & F & H)|(-> & F & H)].
    - eapply Forall_impl; [|exact F]. intros x (b & S & N1 & N2). now apply (proj2 (at_break_x86 junk x) b).
    - eapply Forall_impl; [|exact F]. intros x (w & S & N). destruct (at_break_riscv junk w x S) as (pc & peek & -> & E).
      exists pc, peek. split; [reflexivity|]. now replace (w =? 0x100073) with false in E by lia.
    - now apply (proj1 (at_break_x86 junk s)).
    - now apply (at_break_riscv junk 0x100073 s). }
  unfold kickstart. replace (existsb (Z.eqb pid) (leader :: others)) with true.
  2: { symmetry. apply existsb_exists. exists pid. split; [exact IP|apply Z.eqb_refl]. }
  cbn [negb]. rewrite B.
  assert (T : (if negb (leader =? pid) then get_threadgroup_id (status pid) else pid) = leader).
  { destruct (Z.eqb_spec leader pid) as [->|D]; cbn [negb]; [reflexivity|]. apply TG. congruence. }
  rewrite T. replace (leader <? 0) with false by lia. rewrite andb_false_r. eauto.
Qed.
Print Assumptions C114_succeeds.
Definition int3_at (pc : Z) : kstop := Some (pc, fun x => if x =? pc - 1 then Some 0x48c3cc else None).
Definition plain_at (pc : Z) : kstop := Some (pc, fun x => if x =? pc - 1 then Some 0x48c355 else None).
Example C114_example : stopped_after 0xcc (int3_at 4198401) /\ stopped_after 0x55 (plain_at 4198000) /\
  kickstart X86 0 [100; 101; 102] 102 true [plain_at 4198000; int3_at 4198401]
    (fun t => Some (str "Name:" ++ [9] ++ str "sh" ++ [10] ++ str "Tgid:" ++ [9] ++ str "100" ++ [10])) true true
  = (Some 0, 100, [100], [KSend; KWait 102 102; KWait 102 102; KWait 102 100; KDetach 101; KDetach 102; KOpen 100]).
Proof.
  split; [|split; [|vm_compute; reflexivity]].
  - eexists _, _, 0x48c3cc. split; [reflexivity|]. split; [lia|]. split; [reflexivity|]. split; [lia|reflexivity].
  - eexists _, _, 0x48c355. split; [reflexivity|]. split; [lia|]. split; [reflexivity|]. split; [lia|reflexivity].
Qed.

(** A thread that is not attached to is not let go on. *)
Theorem C114_not_attached a junk ths pid send stops status last open : ~ In pid ths ->
  kickstart a junk ths pid send stops status last open = (Some (-1), pid, ths, []).
Proof.
  intros N. unfold kickstart. destruct (existsb (Z.eqb pid) ths) eqn:E; [|reflexivity].
  apply existsb_exists in E as (x & I & E). apply Z.eqb_eq in E. subst. now elim N.
Qed.
Print Assumptions C114_not_attached.
(** After a failure before the memory is opened anew no thread has been detached from. *)
Theorem C114_failure a junk ths pid send stops status last open pid' ths' evs :
  kickstart a junk ths pid send stops status last open = (Some (-1), pid', ths', evs) ->
  (exists p, In (KOpen p) evs) \/ ths' = ths /\ detached evs = [].
Proof.
  unfold kickstart. destruct (existsb _ ths); cbn [negb]; [|intros E; injection E as <- <- <-; auto].
  destruct send; cbn [negb]; [|intros E; injection E as <- <- <-; auto].
  assert (DB : forall l, detached (snd (break_loop a junk pid l)) = []).
  { induction l as [|[[pc peek]|] l IH]; cbn [break_loop]; try reflexivity.
    destruct (at_break a junk pc peek) as [[]|]; try reflexivity.
    destruct (break_loop a junk pid l). exact IH. }
  specialize (DB stops). destruct (break_loop a junk pid stops) as [x l]. cbn [snd] in DB.
  destruct x as [[]|]; [|intros E; injection E as <- <- <-; auto|discriminate].
  set (other := negb _). set (tg := if other then _ else _).
  destruct (other && (tg <? 0)); [intros E; injection E as <- <- <-; auto|].
  destruct last; cbn [negb].
  - intros E. left. exists tg. assert (EE : exists q, evs = q ++ [KOpen tg]).
    { exists ((KSend :: l) ++ [KWait pid (if tg =? 0 then pid else tg)] ++ map KDetach (filter (fun t => negb (t =? tg)) ths)).
      rewrite <- !app_assoc. rewrite <- app_assoc in E. congruence. }
    destruct EE as [q ->]. apply in_app_iff. right. now left.
  - intros E. right. split; [congruence|].
    assert (EE : evs = (KSend :: l) ++ [KWait pid (if tg =? 0 then pid else tg)]) by congruence.
    rewrite EE, detached_app. cbn [app]. change (detached (KSend :: l)) with (detached l). now rewrite DB.
Qed.
Print Assumptions C114_failure.

(** The leader is found in the status of the thread. *)
Theorem C114_thread_group ls tab s n rest : Forall status_line ls -> Forall (fun c => is_space c = true) tab ->
  numeral s n -> 0 <= n < 2 ^ 31 ->
  get_threadgroup_id (Some (concat ls ++ str "Tgid:" ++ tab ++ s ++ 10 :: rest)) = n.
Proof.
  intros F TB NU L. unfold get_threadgroup_id. apply tgid_found; auto.
  pose proof (concat_len_lines ls F). rewrite app_length, app_length.
  change (length (str "Tgid:")) with 5%nat. lia.
Qed.
Print Assumptions C114_thread_group.
Example C114_thread_group_example :
  Forall status_line [str "Name:" ++ [9] ++ str "Tgid: 5" ++ [10]; str "Umask:" ++ [9] ++ str "0022" ++ [10]; str "TracerPid" ++ [10]].
Proof.
  repeat apply Forall_cons; try apply Forall_nil;
    (match goal with |- status_line ?l => exists (removelast l) end; split; [reflexivity|split; [vm_compute; intuition discriminate|
     split; [vm_compute; discriminate|intros [r E]; discriminate]]]).
Qed.

(** A status without it: the failure is told. *)
Theorem C114_thread_group_missing ls : Forall status_line ls ->
  get_threadgroup_id (Some (concat ls)) = -1 /\ get_threadgroup_id None = -1.
Proof.
  intros F. split; [|reflexivity]. unfold get_threadgroup_id.
  assert (G : forall fuel, tgid_loop fuel (concat ls) = -1).
  { induction F as [|l ls SL F IH]; intros [|fuel]; try reflexivity.
    cbn [concat]. rewrite line_skipped by exact SL. apply IH. }
  apply G.
Qed.
Print Assumptions C114_thread_group_missing.

(** The break instruction of aarch64 is not seen, nor that of LoongArch. *)
Theorem C114_aarch64_refuted : exists pc peek, peek pc = Some 0xd42000a0 /\ peek (pc - 1) = Some 0x2000a0d5 /\
  forall junk, at_break AARCH64 junk pc peek = Some false.
Proof.
  exists 4198400, (fun x => if x =? 4198400 then Some 0xd42000a0 else Some 0x2000a0d5).
  repeat split. 
Qed.
Print Assumptions C114_aarch64_refuted.
Theorem C114_loongarch_refuted : exists pc peek, peek pc = Some 0x2a0000 /\
  forall junk, at_break LOONG junk pc peek = Some false.
Proof.
  exists 4198400, (fun _ => Some 0x2a0000). split; [reflexivity|]. intros junk.
  unfold at_break, break_word. f_equal. change (0x2a0000 mod 2 ^ 32) with 0x2a0000. lia.
Qed.
Print Assumptions C114_loongarch_refuted.
(** A word of ones before the program counter is taken for an error. *)
Theorem C114_ones_refuted : exists pc peek, peek (pc - 1) = Some (2 ^ 64 - 1) /\ forall junk, at_break X86 junk pc peek = None.
Proof. exists 4198400, (fun _ => Some (2 ^ 64 - 1)). split; [reflexivity|]. intros junk. vm_compute. reflexivity. Qed.
Print Assumptions C114_ones_refuted.

(** * C115: the command line in the output *)

(** Every byte of it is printed, as itself or in hexadecimal, however it is read. *)
Theorem C115_shown bs rs more : bytes_read bs rs -> Forall (fun c => 0 <= c < 256) bs ->
  shown bs (print_cmdline (rs ++ more)).
Proof.
  induction 1 as [|bs rs B IH|b bs rs NE B IH]; intros F.
  - constructor.
  - cbn [app print_cmdline]. now apply IH.
  - apply Forall_app in F as [F1 F2]. cbn [app print_cmdline]. destruct b as [|c b]; [easy|].
    apply shown_app; [now apply show_bytes|now apply IH].
Qed.
Print Assumptions C115_shown.
Example C115_example : bytes_read (str "ls" ++ [0] ++ str "a" ++ [10; 255]) [RBytes (str "ls" ++ [0]); RIntr; RBytes (str "a" ++ [10; 255]); RBytes []] /\
  print_cmdline [RBytes (str "ls" ++ [0]); RIntr; RBytes (str "a" ++ [10; 255]); RBytes []] = str "ls\x00a\x0a\xff".
Proof.
  split; [|vm_compute; reflexivity].
  change (str "ls" ++ [0] ++ str "a" ++ [10; 255]) with ((str "ls" ++ [0]) ++ (str "a" ++ [10; 255]) ++ []).
  apply br_some; [discriminate|]. apply br_intr. apply br_some; [discriminate|]. constructor.
Qed.

(** Nothing else gets into the output: no control character, no newline. *)
Theorem C115_one_line bs t : shown bs t -> Forall printable t.
Proof.
  assert (HX : forall k x, nth_error (str "0123456789abcdef") k = Some x -> printable x).
  { intros k x E. apply nth_error_In in E. unfold printable. cbn in E. intuition lia. }
  induction 1 as [|c bs t P S IH|c h l bs t P H L S IH]; [constructor|constructor; auto|].
  cbn [app]. apply Forall_app. split; [|constructor; [eauto|constructor; [eauto|exact IH]]].
  repeat constructor; vm_compute; discriminate.
Qed.
Print Assumptions C115_one_line.

(** Two command lines can look the same. *)
Theorem C115_ambiguous_refuted : exists a b, a <> b /\ print_cmdline [RBytes a; RBytes []] = print_cmdline [RBytes b; RBytes []].
Proof. exists [9], (str "\x09"). split; [discriminate|vm_compute; reflexivity]. Qed.
Print Assumptions C115_ambiguous_refuted.
