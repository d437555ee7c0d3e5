(** C133: calling the resolver of an indirect function; C134: what the search for coroutines needs from the
    process; C135: which objects names stand for. *)
From Coq Require Import String.
From Verif Require Import Base BaseProofs StorageModel TextModel RemoteModel PtraceModel CoroModel CallModel CallSpec CallProofs.
Open Scope list_scope.

(** A thousand bytes, all 7 *)
Definition room : mem := fun x => if (0 <=? x) && (x <? 4096) then Some 7 else None.
Definition quiet (m : mem) : st := {| sm := m; sx := fun _ => false; so := [] |}.
Definition thread (a : carch) (sp : Z) : cpu := {| gr := fun x => if x =? sp_reg a then sp else 77; pc := 3000 |}.
Definition resolver (a : carch) (v : Z) : callee := fun _ g m => Some (m, set_gr g (res_reg a) v).

(** * C133 *)
(** The answer is what the function at the address returns, entered with its stack just below the thread's (the return address pushed where
    the machine pushes it) and with the memory of the process; the thread's registers are as they were. *)
Theorem C133_answer : forall a evs f junk libc addr r0 s r v s', resolve_ifunc a evs true f junk libc addr r0 s = (Ret (0, r, v), s') ->
  exists m1 g1 m2 g2, f addr g1 m1 = Some (m2, g2)
    /\ v = g2 (match a with CX86 | CAarch64 => 0 | CRiscv => 10 | CLoong => 4 end)
    /\ r = r0
    /\ entered a junk addr r0 g1
    /\ g1 (match a with CX86 => 4 | CAarch64 => 31 | CRiscv => 2 | CLoong => 3 end) = gr r0 (match a with CX86 => 4 | CAarch64 => 31 | CRiscv => 2 | CLoong => 3 end) - (match a with CX86 => 8 | _ => 0 end)
    /\ forall x, ~ (libc <= x < libc + 8) -> ~ (a = CX86 /\ gr r0 4 - 8 <= x < gr r0 4) -> m1 x = sm s x.
Proof.
  intros a evs f junk libc addr r0 s r v s' H. destruct (resolve_value _ _ _ _ _ _ _ _ _ _ _ H) as (m1 & g1 & m2 & g2 & A & B & C & D & E & F). exists m1, g1, m2, g2.
  split; [exact A|]. split; [destruct a; exact B|]. split; [exact C|]. split; [exact D|]. split; [destruct a; exact E|].
  intros x Hx Hy. apply F; unfold in_range; destruct a; cbn [clen pushed sp_reg] in *; try lia. intros X. apply Hy. split; [reflexivity|lia].
Qed.
Print Assumptions C133_answer.

(** Nothing fails, the resolver returns and keeps to its stack: the call succeeds, and nothing is different but the stack below the thread's stack pointer. *)
Theorem C133_done : forall a evs k f junk libc addr r0 s, so s = [] -> 0 <= k -> reaches_trap evs -> tame a k f -> (forall g m, f addr g m <> None) ->
  let n := match a with CX86 => 3 | _ => 8 end in
  let sp := gr r0 (match a with CX86 => 4 | CAarch64 => 31 | CRiscv => 2 | CLoong => 3 end) in
  let used := k + match a with CX86 => 8 | _ => 0 end in
  mapped (sm s) libc n -> apart libc n (sp - used) used ->
  exists v s', resolve_ifunc a evs true f junk libc addr r0 s = (Ret (0, r0, v), s') /\ forall x, ~ (sp - used <= x < sp) -> sm s' x = sm s x.
Proof.
  intros a evs k f junk libc addr r0 s O K T Tm R n sp used Mp Ap.
  destruct (resolve_quiet a evs k f junk libc addr r0 s O K T Tm R) as (v & s' & A & _ & B).
  - replace (clen a) with n by (destruct a; reflexivity). exact Mp.
  - replace (clen a) with n by (destruct a; reflexivity). replace (gr r0 (sp_reg a) - pushed a - k) with (sp - used) by (unfold sp, used; destruct a; cbn; lia). replace (k + pushed a) with used by (destruct a; reflexivity). exact Ap.
  - exists v, s'. split; [exact A|]. intros x Hx. apply B. unfold in_range. intros X. apply Hx. unfold sp, used. destruct a; cbn [sp_reg pushed] in *; lia.
Qed.
Print Assumptions C133_done.
Example C133_case : (forall a, tame a 0 (resolver a 1234)) /\ reaches_trap [(true, Stopped 14); (true, Stopped 5)]
  /\ forall a, exists s', resolve_ifunc a [(true, Stopped 14); (true, Stopped 5)] true (resolver a 1234) (fun _ => 55) 256 900 (thread a 2048) (quiet room) = (Ret (0, thread a 2048, 1234), s').
Proof.
  split; [|split].
  - intros a addr g m m2 g2 H. injection H as <- <-. split; [reflexivity|]. destruct a; reflexivity.
  - constructor; [discriminate|discriminate|constructor].
  - intros []; eexists; reflexivity.
Qed.

(** On x86 the word below the stack pointer is not kept, though a function may use the 128 bytes there *)
Theorem C133_red_zone_refuted : exists f r0 s s' v, tame CX86 0 f /\ so s = [] /\ resolve_ifunc CX86 [(true, Stopped 5)] true f (fun _ => 0) 256 900 r0 s = (Ret (0, r0, v), s')
  /\ exists x, gr r0 4 - 128 <= x < gr r0 4 /\ sm s' x <> sm s x.
Proof.
  exists (fun _ g m => Some (m, g)), (thread CX86 2048), (quiet room). do 2 eexists. split; [intros addr g m m2 g2 H; injection H as <- <-; split; reflexivity|]. split; [reflexivity|]. split; [reflexivity|].
  exists 2040. split; [vm_compute; split; congruence|]. vm_compute. congruence.
Qed.
Print Assumptions C133_red_zone_refuted.
(** A resolver that looks at the hardware capabilities it is given (as the loader of AArch64, RISC-V and LoongArch gives them) chooses otherwise than in the process: it is
    not given them. *)
Theorem C133_hwcap_refuted : exists hwcap fast slow f, fast <> slow
  /\ (forall addr g m, exists g2, f addr g m = Some (m, g2) /\ forall a, a <> CX86 -> g (match a with CRiscv => 10 | CLoong => 4 | _ => 0 end) = hwcap -> g2 (match a with CRiscv => 10 | CLoong => 4 | _ => 0 end) = fast)
  /\ forall a, a <> CX86 -> exists r s', resolve_ifunc a [(true, Stopped 5)] true f (fun _ => 0) 256 900 (thread a 2048) (quiet room) = (Ret (0, r, slow), s').
Proof.
  exists 31, 1111, 2222, (fun _ g m => Some (m, fun x => if (x =? 0) || (x =? 10) || (x =? 4) then if g x =? 31 then 1111 else 2222 else g x)).
  split; [discriminate|]. split.
  - intros addr g m. eexists. split; [reflexivity|]. intros [] N H; try congruence; cbn [Z.eqb Pos.eqb orb] in *; rewrite H; reflexivity.
  - intros [] N; try congruence; do 2 eexists; reflexivity.
Qed.
Print Assumptions C133_hwcap_refuted.
(** Stopped by SIGSTOP before it ran, the call succeeds with the resolver's own address *)
Theorem C133_early_stop_refuted : exists f addr r0 s s', (forall g m, exists g2, f addr g m = Some (m, g2) /\ g2 0 <> addr)
  /\ resolve_ifunc CX86 [(true, Stopped 19)] false f (fun _ => 0) 256 addr r0 s = (Ret (0, r0, addr), s').
Proof. exists (resolver CX86 1234), 900, (thread CX86 2048), (quiet room). eexists. split; [|reflexivity]. intros g m. eexists. split; [reflexivity|]. discriminate. Qed.
Print Assumptions C133_early_stop_refuted.

(** * C134 *)
(** The base read is the thread's *)
Theorem C134_base : forall evs libc rsp rax0 fs s v s', prctl_remote evs true libc rsp rax0 fs s = (Ret (0, Some v), s') -> apart libc 3 rsp 8 -> 0 <= fs < 2 ^ 64 -> v = fs.
Proof. exact prctl_value. Qed.
Print Assumptions C134_base.
(** Nothing fails: it is read, and all memory is as before *)
Theorem C134_base_done : forall evs libc rsp rax0 fs s, so s = [] -> reaches_trap evs -> apart libc 3 rsp 8 -> mapped (sm s) libc 3 -> mapped (sm s) rsp 8 -> 0 <= fs < 2 ^ 64 ->
  exists s', prctl_remote evs true libc rsp rax0 fs s = (Ret (0, Some fs), s') /\ forall x, sm s' x = sm s x.
Proof. intros evs libc rsp rax0 fs s A B C D E F. destruct (prctl_quiet evs libc rsp rax0 fs s A B C D E F) as (s' & X & _ & Y). eauto. Qed.
Print Assumptions C134_base_done.
Example C134_base_case : apart 256 3 2048 8 /\ mapped room 256 3 /\ mapped room 2048 8 /\ exists s', prctl_remote [(true, Stopped 5)] true 256 2048 0 0x7f1234567000 (quiet room) = (Ret (0, Some 0x7f1234567000), s').
Proof.
  split; [left; lia|]. split; [|split].
  - intros x Hx. unfold in_range, room in *. replace (_ && _) with true by lia. discriminate.
  - intros x Hx. unfold in_range, room in *. replace (_ && _) with true by lia. discriminate.
  - eexists. vm_compute. reflexivity.
Qed.
(** The word on the stack is not put back, and success reported all the same *)
Theorem C134_not_restored_refuted : exists s s', prctl_remote [(true, Stopped 5)] true 256 2048 0 99 s = (Ret (0, Some 99), s') /\ sm s' 2048 <> sm s 2048.
Proof. exists {| sm := room; sx := fun _ => false; so := repeat AOk 10 ++ [AShort 0] |}. eexists. split; [vm_compute; reflexivity|]. vm_compute. congruence. Qed.
Print Assumptions C134_not_restored_refuted.
(** Stopped by SIGSTOP before the call was made, what happened to be on the stack is the answer *)
Theorem C134_base_early_stop_refuted : exists s s' v, so s = [] /\ prctl_remote [(true, Stopped 19)] false 256 2048 0 99 s = (Ret (0, Some v), s') /\ v <> 99.
Proof. exists (quiet room). do 2 eexists. split; [reflexivity|]. split; [vm_compute; reflexivity|]. vm_compute. congruence. Qed.
Print Assumptions C134_base_early_stop_refuted.

(** x86: what is found is __start_context, if makecontext is glibc's *)
Theorem C134_start : forall evs f junk libc mk r0 s v s' start, locate_start_context evs true f junk libc (Some mk) r0 s = (Ret v, s') -> glibc_makecontext mk start f -> 0 <= start < 2 ^ 64 -> 1168 <= gr r0 4 < 2 ^ 64 ->
  apart libc 46 (gr r0 4 - gr r0 4 mod 16 - 1048) 8 -> v = start.
Proof. intros evs f junk libc mk r0 s v s' start H G S R A. eapply locate_value; try eassumption. unfold rbp_of. replace (gr r0 4 - gr r0 4 mod 16 - 1024 - 24) with (gr r0 4 - gr r0 4 mod 16 - 1048) by lia. exact A. Qed.
Print Assumptions C134_start.
Theorem C134_start_done : forall evs k f junk libc mk r0 s start, so s = [] -> 1170 <= k -> reaches_trap evs -> tame CX86 k f -> (forall g m, f mk g m <> None) -> glibc_makecontext mk start f -> 0 <= start < 2 ^ 64 -> 1168 <= gr r0 4 < 2 ^ 64 ->
  mapped (sm s) libc 46 -> apart libc 46 (gr r0 4 - 8 - k) (8 + k) ->
  exists s', locate_start_context evs true f junk libc (Some mk) r0 s = (Ret start, s') /\ forall x, ~ (gr r0 4 - 8 - k <= x < gr r0 4) -> sm s' x = sm s x.
Proof.
  intros evs k f junk libc mk r0 s start O K T Tm Rt G S R Mp Ap. assert (B : 0 <= gr r0 4 mod 16 < 16) by (apply Z.mod_pos_bound; lia).
  assert (M1 : Z.min (gr r0 4 - 8 - k) (rbp_of r0 - 24) = gr r0 4 - 8 - k) by (unfold rbp_of; lia). assert (M2 : Z.min (gr r0 4 - 8 - k) (rbp_of r0) = gr r0 4 - 8 - k) by (unfold rbp_of; lia).
  destruct (locate_quiet evs k f junk libc mk r0 s start O ltac:(lia) T Tm Rt G S R Mp) as (s' & X & Y).
  - rewrite M1. replace (gr r0 4 - (gr r0 4 - 8 - k)) with (8 + k) by lia. exact Ap.
  - rewrite M2 in Y. eauto.
Qed.
Print Assumptions C134_start_done.
(** A makecontext *)
Definition a_makecontext (start : Z) : callee := fun _ g m =>
  match mread m (g 7 + 16) 8, mread m (g 7 + 32) 8 with Some a, Some b => Some (mset m (le_val a + le_val b - 24) (le_bytes 8 start), g) | _, _ => None end.
Example C134_start_case : glibc_makecontext 900 5555 (a_makecontext 5555) /\ exists s', locate_start_context [(true, Stopped 5)] true (a_makecontext 5555) (fun _ => 0) 256 (Some 900) (thread CX86 2054) (quiet room) = (Ret 5555, s').
Proof.
  split.
  - intros g m m2 g2 sp size H W1 W2 B1 B2 G2 A. unfold a_makecontext in H. rewrite W1, W2 in H. rewrite !le_val_bytes in H. change (256 ^ Z.of_nat 8) with (2 ^ 64) in H. rewrite !Z.mod_small in H by assumption. apply some_inj in H. apply pair_equal_spec in H. destruct H as [<- <-]. split; [|reflexivity]. unfold word_at. exact (mread_mset_same m (sp + size - 24) (le_bytes 8 5555)).
  - eexists. vm_compute. reflexivity.
Qed.
(** The bytes injected on x86, decoded, do what the model says: they come to the call with the memory and registers it hands to makecontext. *)
Theorem C134_code : forall base m c, 1168 <= gr c 4 < 2 ^ 64 -> exists m1 g1 m1' g1', xcode makecontext_code base m (gr c) = Some (gr c 0, m1, g1) /\ (forall x, m1' x = m1 x) /\ (forall x, g1' x = g1 x)
  /\ forall f, context_call f base m c = match f (gr c 0) g1' m1' with Some (m2, g2) => Some (m2, {| gr := set_gr g2 4 (g2 4 + 8); pc := base + zlen makecontext_code |}) | None => None end.
Proof.
  intros base m c H. destruct (xcode_makecontext base m (gr c) H) as (m1 & g1 & E & A & B). exists m1, g1. do 2 eexists. split; [exact E|]. split; [|split].
  - intros x. symmetry. apply A.
  - intros x. symmetry. apply B.
  - intros f. reflexivity.
Qed.
Print Assumptions C134_code.
Example C134_code_case : exists m1 g1, xcode makecontext_code 256 room (gr (thread CX86 2054)) = Some (77, m1, g1) /\ g1 4 = 2046 /\ g1 7 = 1024 /\ g1 6 = 256 /\ g1 2 = 0 /\ mread m1 1040 8 = Some (le_bytes 8 896).
Proof. do 2 eexists. split; [vm_compute; reflexivity|]. repeat split; vm_compute; reflexivity. Qed.
(** AArch64: makecontext is not called; the answer is what was on the stack, and differs with it. *)
Theorem C134_arm_start_junk : forall kernel base m c m2 c2, context_call_arm kernel base m c = Some (m2, c2) -> mread m2 (gr c2 29 - 24) 8 = mread m (gr c 31 - gr c 31 mod 16 - 1048) 8.
Proof. exact arm_junk. Qed.
Print Assumptions C134_arm_start_junk.
Theorem C134_arm_start_refuted : exists m m' m2 m2' c2 c2', let entry := enter CAarch64 256 {| gr := set_gr (fun _ => 0) 8 900; pc := 0 |} (thread CAarch64 2048) in
  context_call_arm (fun _ => -38) 256 m entry = Some (m2, c2) /\ context_call_arm (fun _ => -38) 256 m' entry = Some (m2', c2') /\ mread m2 (gr c2 29 - 24) 8 <> mread m2' (gr c2' 29 - 24) 8.
Proof. exists room, (fun x => match room x with Some _ => Some 9 | None => None end). do 4 eexists. split; [vm_compute; reflexivity|]. split; [vm_compute; reflexivity|]. vm_compute. congruence. Qed.
Print Assumptions C134_arm_start_refuted.
(** RISC-V: makecontext is called, but does not put __start_context where it is looked for; the answer is what was on the stack. *)
Theorem C134_riscv_start_junk : forall f mk start len base p r0 m m2 c2, glibc_makecontext_riscv mk start f -> gr p 17 = mk -> context_call_riscv f len base m (enter CRiscv base p r0) = Some (m2, c2) ->
  mread m2 (gr c2 8 - 24) 8 = mread m (gr r0 2 - gr r0 2 mod 16 - 1048) 8.
Proof.
  intros f mk start len base p r0 m m2 c2 G A H. exact (riscv_junk f mk start len base m _ m2 c2 H G A).
Qed.
Print Assumptions C134_riscv_start_junk.
Definition a_riscv_makecontext (start : Z) : callee := fun _ g m => Some (mset m (g 10 + 176) (le_bytes 8 start), g).
Example C134_riscv_case : glibc_makecontext_riscv 900 5555 (a_riscv_makecontext 5555) /\ exists m2 c2, context_call_riscv (a_riscv_makecontext 5555) 44 256 room (enter CRiscv 256 {| gr := set_gr (fun _ => 0) 17 900; pc := 0 |} (thread CRiscv 2056)) = Some (m2, c2).
Proof.
  split; [|eexists; eexists; vm_compute; reflexivity]. intros g m m2 g2 H. unfold a_riscv_makecontext in H. apply some_inj in H. apply pair_equal_spec in H. destruct H as [<- <-].
  split; [reflexivity|]. split; [exact (mread_mset_same m (g 10 + 176) (le_bytes 8 5555))|]. exists 0. split; [lia|]. intros x H1 _. apply mset_out. unfold in_range. rewrite ?le_bytes_zlen. lia.
Qed.
Theorem C134_riscv_start_refuted : exists m m' m2 m2' c2 c2', let entry := enter CRiscv 256 {| gr := set_gr (fun _ => 0) 17 900; pc := 0 |} (thread CRiscv 2048) in let f := a_riscv_makecontext 5555 in
  glibc_makecontext_riscv 900 5555 f /\ context_call_riscv f 44 256 m entry = Some (m2, c2) /\ context_call_riscv f 44 256 m' entry = Some (m2', c2') /\ mread m2 (gr c2 8 - 24) 8 <> mread m2' (gr c2' 8 - 24) 8.
Proof. exists room, (fun x => match room x with Some _ => Some 9 | None => None end). do 4 eexists. split; [exact (proj1 C134_riscv_case)|]. split; [vm_compute; reflexivity|]. split; [vm_compute; reflexivity|]. vm_compute. congruence. Qed.
Print Assumptions C134_riscv_start_refuted.
(** LoongArch: the code writes at a sixteenth of the stack pointer; if there is memory, it goes on at whatever the thread had in t0. *)
Theorem C134_loong_start_refuted : exists m, (forall x, 0x7ffff000 <= x < 0x80000000 -> m x <> None) /\ context_call_loong m (enter CLoong 0x7ffff000 {| gr := set_gr (fun _ => 0) 11 900; pc := 0 |} (thread CLoong 0x7ffffff0)) = None.
Proof. exists (fun x => if (0x7ffff000 <=? x) && (x <? 0x80000000) then Some 0 else None). split; [|vm_compute; reflexivity]. intros x Hx. replace (_ && _) with true by lia. discriminate. Qed.
Print Assumptions C134_loong_start_refuted.
Theorem C134_loong_start_elsewhere : forall m base p r0 t m2 g, context_call_loong m (enter CLoong base p r0) = Some (t, m2, g) -> t = gr r0 12.
Proof. intros m base p r0 t m2 g. unfold context_call_loong. destruct (_ && _); [|discriminate]. intros H. injection H as <- _ _. reflexivity. Qed.
Print Assumptions C134_loong_start_elsewhere.

(** * C135 *)
(** The heap is the first object called [heap] *)
Theorem C135_heap : forall A (name : A -> text) objs, answers (obj_by_regex name heap_pat objs) (fun o => name o = str "[heap]") objs.
Proof. intros A name objs. destruct (regcomp heap_pat) as [r|] eqn:E; [|vm_compute in E; discriminate]. apply (regex_answers name heap_pat r (fun s => s = str "[heap]")); [exact E|]. apply heap_match. exact E. Qed.
Print Assumptions C135_heap.
Theorem C135_libc : forall a A (name : A -> text) objs, answers (obj_by_regex name (libc_pat a) objs)
  (fun o => match a with CX86 | CAarch64 => exists mid rest, name o = str "libc-" ++ mid ++ str ".so" ++ rest | _ => begins (str "libc.so") (name o) end) objs.
Proof.
  intros a A name objs. destruct (regcomp (libc_pat a)) as [r|] eqn:E; [|destruct a; vm_compute in E; discriminate].
  apply (regex_answers name (libc_pat a) r (fun s => match a with CX86 | CAarch64 => exists mid rest, s = str "libc-" ++ mid ++ str ".so" ++ rest | _ => begins (str "libc.so") s end)); [exact E|]. apply libc_match. exact E.
Qed.
Print Assumptions C135_libc.
Theorem C135_tcmalloc : forall A (name : A -> text) objs, answers (obj_by_regex name tcmalloc_pat objs) (fun o => exists mid rest, name o = str "libtcmalloc" ++ mid ++ str ".so.4" ++ rest) objs.
Proof.
  intros A name objs. destruct (regcomp tcmalloc_pat) as [r|] eqn:E; [|vm_compute in E; discriminate].
  apply (regex_answers name tcmalloc_pat r (fun s => exists mid rest, s = str "libtcmalloc" ++ mid ++ str ".so.4" ++ rest)); [exact E|]. apply tcmalloc_match. exact E.
Qed.
Print Assumptions C135_tcmalloc.
(** The program, by its name: the first object that has the name somewhere in its own *)
Theorem C135_program : forall A (name : A -> text) comm objs, plain_text comm -> answers (obj_by_regex name comm objs) (fun o => contains comm (name o)) objs.
Proof.
  intros A name comm objs P. destruct (regcomp comm) as [r|] eqn:E; [|exfalso; exact (plain_compiles comm P E)].
  apply (regex_answers name comm r (contains comm)); [exact E|]. apply plain_match; assumption.
Qed.
Print Assumptions C135_program.
Example C135_case : plain_text (str "qemu-kvm") /\ obj_by_regex (fun x => x) (str "qemu-kvm") (map str ["[heap]"; "qemu-kvm"; "libc-2.28.so"; "libc.so.6"]%string) = Some (str "qemu-kvm")
  /\ obj_by_regex (fun x => x) (libc_pat CX86) (map str ["[heap]"; "qemu-kvm"; "libc-2.28.so"; "libc.so.6"]%string) = Some (str "libc-2.28.so")
  /\ obj_by_regex (fun x => x) heap_pat (map str ["not[heap]"; "[heap]"]%string) = Some (str "[heap]")
  /\ obj_by_regex (fun x => x) tcmalloc_pat (map str ["libtcmalloc.so.8"; "libtcmalloc_minimal.so.4.4.5"]%string) = Some (str "libtcmalloc_minimal.so.4.4.5").
Proof. split; [|repeat split; vm_compute; reflexivity]. unfold plain_text. repeat constructor; vm_compute; intuition congruence. Qed.
(** The C library of newer systems is not found on x86 and AArch64; another library is taken for it *)
Theorem C135_libc_refuted : exists objs, In (str "libc.so.6") objs /\ obj_by_regex (fun x => x) (libc_pat CX86) objs = None.
Proof. exists (map str ["prog"; "[heap]"; "libc.so.6"; "ld-linux-x86-64.so.2"]%string). split; [cbn; tauto|]. vm_compute. reflexivity. Qed.
Print Assumptions C135_libc_refuted.
Theorem C135_other_libc_refuted : exists objs, In (str "libc-2.28.so") objs /\ obj_by_regex (fun x => x) (libc_pat CX86) objs = Some (str "libc-client.so.2007").
Proof. exists (map str ["prog"; "libc-client.so.2007"; "libc-2.28.so"]%string). split; [cbn; tauto|]. vm_compute. reflexivity. Qed.
Print Assumptions C135_other_libc_refuted.
(** An object whose name has the program's name in it is taken for the program; and a program whose name is no expression is not found *)
Theorem C135_program_refuted : exists comm objs, In comm objs /\ plain_text comm /\ exists o, obj_by_regex (fun x => x) comm objs = Some o /\ o <> comm.
Proof. exists (str "qemu"), (map str ["libqemu.so"; "qemu"]%string). split; [cbn; tauto|]. split; [unfold plain_text; repeat constructor; vm_compute; intuition congruence|]. eexists. split; [vm_compute; reflexivity|]. vm_compute. congruence. Qed.
Print Assumptions C135_program_refuted.
