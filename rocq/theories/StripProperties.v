(** Theorems about kpatch_strip: C47, C90, C91. *)
From Coq Require Import String.
From Coq Require Import ZArith List Bool Lia ZifyBool ZifyNat.
From Verif Require Import Base BaseProofs RelocModel EngineModel TextModel TextProofs StorageModel JumpModel StripModel StripSpec StripProofs.
Import ListNotations.
Open Scope list_scope.
Open Scope Z_scope.

(** ** C47 *)
(** Every relocation and every symbol, put back at the address its section had in the linked
    patch, is what it was there. *)
Theorem C47_relocations : forall bias orig patch out, undo_link bias orig patch = Some out ->
  forall i s rs a, (1 <= i)%nat -> nth_error (o_secs patch) i = Some s -> s_type s = SHT_RELA -> s_data s = CRelas rs ->
    Forall (fun r => 0 <= r_offset r < 2 ^ 64) rs -> sec_addr (o_secs patch) (s_info s) a ->
  exists s' rs', nth_error (o_secs out) i = Some s' /\ s_data s' = CRelas rs' /\ Forall2 (relinked a) rs rs'.
Proof.
  intros bias orig patch out H i s rs a Hi Hs T D F A. destruct (undo_inv _ _ _ _ H) as (ys & l & _ & _ & E & _).
  rewrite E, (out_secs _ _ _ _ _ Hs Hi). eexists.
  pose proof (rel_one_data (o_secs patch) s) as R. rewrite D in R. destruct (R T F) as (rs' & R1 & R2). exists rs'. split; [reflexivity|].
  destruct (copy_addr_same (o_secs orig) l i (rel_one (o_secs patch) s)) as [_ C]. rewrite C. split; [exact R1|].
  rewrite (addr_of_sec _ _ _ A) in R2. exact R2.
Qed.
Theorem C47_symbols : forall orig patch out, undo_link false orig patch = Some out ->
  Forall (fun y => 0 <= y_value y < 2 ^ 64) (o_syms patch) ->
  Forall2 (fun y y' => (free y -> y' = y) /\ (~ free y -> exists a, sec_addr (o_secs patch) (y_shndx y) a /\ resymbol a y y'))
    (o_syms patch) (o_syms out).
Proof.
  intros orig patch out H F. destruct (undo_inv _ _ _ _ H) as (ys & l & Y & _ & _ & B & _). rewrite (B eq_refl).
  apply syms_all_Forall2 in Y. eapply Forall2_impl_in; [exact Y|]. cbn beta. intros y y' I X. rewrite Forall_forall in F.
  apply sym_one_spec; auto.
Qed.
(** Nothing else of a section changes, but its address. *)
Theorem C47_sections : forall bias orig patch out, undo_link bias orig patch = Some out ->
  forall i s, (1 <= i)%nat -> nth_error (o_secs patch) i = Some s ->
  exists s', nth_error (o_secs out) i = Some s' /\ same_section s s' /\ (forall bs, s_data s = CBytes bs -> s_data s' = CBytes bs).
Proof.
  intros bias orig patch out H i s Hi Hs. destruct (undo_inv _ _ _ _ H) as (ys & l & _ & _ & E & _).
  rewrite E, (out_secs _ _ _ _ _ Hs Hi). eexists. split; [reflexivity|].
  destruct (copy_addr_same (o_secs orig) l i (rel_one (o_secs patch) s)) as [C1 C2].
  destruct (rel_one_same (o_secs patch) s) as [R1 _]. split; [exact (same_section_trans _ _ _ R1 C1)|].
  intros bs D. rewrite C2. pose proof (rel_one_data (o_secs patch) s) as R. rewrite D in R. exact R.
Qed.
(** RISC-V and LoongArch: a function that the original has too gets the original's place in
    its section. *)
Theorem C47_original_functions : forall orig patch out, undo_link true orig patch = Some out ->
  forall i y s, (1 <= i)%nat -> nth_error (o_syms patch) i = Some y -> y_type y = STT_FUNC -> y_shndx y <> 0 -> 0 <= y_shndx y < 0xff00 ->
    nth_error (o_secs patch) (Z.to_nat (y_shndx y)) = Some s -> (forall r, s_name s <> str ".kpatch." ++ r) ->
    (exists o, In o (tl (o_syms orig)) /\ y_name o = y_name y /\ y_type o = y_type y /\ y_bind o = y_bind y) ->
    Forall (fun o => 0 <= y_value o < 2 ^ 64) (o_syms orig) ->
  exists y' o a, nth_error (o_syms out) i = Some y' /\ In o (o_syms orig) /\ y_name o = y_name y /\ y_type o = STT_FUNC
    /\ sec_addr (o_secs orig) (y_shndx o) a /\ (y_value y' + a) mod 2 ^ 64 = y_value o.
Proof.
  intros orig patch out H i y s Hi Hy T U U2 Hs K (o & O1 & O2 & O3 & O4) FV.
  destruct (undo_inv _ _ _ _ H) as (ys & l & Y & _ & _ & _ & B & _).
  apply syms_all_Forall2 in Y.
  assert (N : forall A B (R : A -> B -> Prop) l l' i x, Forall2 R l l' -> nth_error l i = Some x -> exists x', nth_error l' i = Some x' /\ R x x').
  { clear. intros A B R l l' i x F. revert i. induction F; intros i Hx; destruct i as [|i]; try discriminate; cbn [nth_error] in *.
    - injection Hx as <-. eauto.
    - eauto. }
  destruct (N _ _ _ _ _ _ _ Y Hy) as (y1 & Y1 & Y2).
  assert (Same : y_name y1 = y_name y /\ y_type y1 = y_type y /\ y_bind y1 = y_bind y /\ y_shndx y1 = y_shndx y).
  { unfold sym_one in Y2. destruct (skip_sym y); [injection Y2 as <-; auto|]. rewrite Hs in Y2.
    destruct (s_addr s =? 0); injection Y2 as <-; cbn [sym_value y_name y_type y_bind y_shndx]; auto. }
  destruct Same as (Q1 & Q2 & Q3 & Q4).
  destruct (B eq_refl) as (y0 & r & r' & [(E & Sr & Out)|[E Out]]); [|subst ys; destruct i; discriminate].
  subst ys. destruct i as [|i]; [lia|]. cbn [nth_error] in Y1. apply syms_all_Forall2 in Sr.
  destruct (N _ _ _ _ _ _ _ Sr Y1) as (y2 & Z1 & Z2). rewrite Out. cbn [nth_error]. exists y2.
  unfold bias_one in Z2. rewrite Q4, Q2, T in Z2. unfold SHN_UNDEF in Z2. rewrite (proj2 (Z.eqb_neq _ _) U) in Z2. rewrite Z.eqb_refl in Z2. cbn [orb negb] in Z2.
  rewrite Hs in Z2. destruct (starts (s_name s) (str ".kpatch.")) eqn:St; [apply starts_spec in St as [x St]; destruct (K _ St)|].
  destruct (find_orig y1 (tl (o_syms orig))) as [yo|] eqn:Fo.
  2: { destruct (find_orig_none _ _ Fo o O1); congruence. }
  destruct (find_orig_spec _ _ _ Fo) as (I & P1 & P2 & P3).
  destruct (nth_error (o_secs orig) (Z.to_nat (y_shndx yo))) as [so|] eqn:So; [|discriminate]. injection Z2 as <-.
  assert (Io : In yo (o_syms orig)) by (destruct (o_syms orig); [destruct I|right; exact I]).
  exists yo, (s_addr so). split; [exact Z1|]. split; [exact Io|]. split; [congruence|]. split; [congruence|].
  split; [exists so; auto|]. cbn [sym_value y_value]. apply sub_add. rewrite Forall_forall in FV. auto.
Qed.
(** All the other symbols there, those of the patch's own functions above all, are like on
    the other machines. *)
Theorem C47_other_symbols : forall orig patch out, undo_link true orig patch = Some out ->
  forall i y, nth_error (o_syms patch) i = Some y -> 0 <= y_value y < 2 ^ 64 ->
    (i = 0%nat \/ y_type y <> STT_FUNC \/ (exists s r, nth_error (o_secs patch) (Z.to_nat (y_shndx y)) = Some s /\ s_name s = str ".kpatch." ++ r)
     \/ Forall (fun o => y_name o <> y_name y \/ y_type o <> y_type y \/ y_bind o <> y_bind y) (tl (o_syms orig))) ->
  exists y', nth_error (o_syms out) i = Some y' /\ (free y -> y' = y) /\ (~ free y -> exists a, sec_addr (o_secs patch) (y_shndx y) a /\ resymbol a y y').
Proof.
  intros orig patch out H i y Hy V C.
  destruct (undo_inv _ _ _ _ H) as (ys & l & Y & _ & _ & _ & B & _).
  apply syms_all_Forall2 in Y.
  assert (N : forall A B (R : A -> B -> Prop) l l' i x, Forall2 R l l' -> nth_error l i = Some x -> exists x', nth_error l' i = Some x' /\ R x x').
  { clear. intros A B R l l' i x F. revert i. induction F; intros i Hx; destruct i as [|i]; try discriminate; cbn [nth_error] in *.
    - injection Hx as <-. eauto.
    - eauto. }
  destruct (N _ _ _ _ _ _ _ Y Hy) as (y1 & Y1 & Y2).
  assert (Same : y_name y1 = y_name y /\ y_type y1 = y_type y /\ y_bind y1 = y_bind y /\ y_shndx y1 = y_shndx y).
  { unfold sym_one in Y2. destruct (skip_sym y); [injection Y2 as <-; auto|]. destruct (nth_error (o_secs patch) _) as [s|]; [|discriminate].
    destruct (s_addr s =? 0); injection Y2 as <-; cbn [sym_value y_name y_type y_bind y_shndx]; auto. }
  destruct Same as (Q1 & Q2 & Q3 & Q4). exists y1. split; [|now apply sym_one_spec].
  destruct (B eq_refl) as (y0 & r & r' & [(E & Sr & Out)|[E Out]]); [|subst ys; destruct i; discriminate].
  subst ys. rewrite Out. destruct i as [|i]; [exact Y1|]. cbn [nth_error] in *. apply syms_all_Forall2 in Sr.
  destruct (N _ _ _ _ _ _ _ Sr Y1) as (y2 & Z1 & Z2). rewrite Z1. f_equal.
  unfold bias_one in Z2. rewrite Q2, Q4 in Z2. destruct (y_shndx y =? SHN_UNDEF); cbn [orb] in Z2; [congruence|].
  destruct (y_type y =? STT_FUNC) eqn:T; cbn [negb] in Z2; [|congruence]. apply Z.eqb_eq in T.
  destruct (nth_error (o_secs patch) (Z.to_nat (y_shndx y))) as [s|] eqn:Es; [|discriminate].
  destruct (starts (s_name s) (str ".kpatch.")) eqn:St; [congruence|].
  destruct (find_orig y1 (tl (o_syms orig))) as [yo|] eqn:Fo; [|congruence]. exfalso.
  destruct (find_orig_spec _ _ _ Fo) as (I & P1 & P2 & P3). destruct C as [C|[C|[(s' & x & C & C')|C]]]; [discriminate|congruence| |].
  - injection C as ->. assert (X : starts (s_name s') (str ".kpatch.") = true) by (apply starts_spec; eauto). congruence.
  - rewrite Forall_forall in C. destruct (C yo I) as [X|[X|X]]; congruence.
Qed.
(** No more than 16 sections of a patch *)
Definition patch_sections (ss : list sec) (n : nat) : Prop :=
  exists l, length l = n /\ NoDup l /\ forall i, In i l <-> (1 <= i)%nat /\ exists s r, nth_error ss i = Some s /\ s_name s = str ".kpatch" ++ r.
Fixpoint where_ (i : nat) (ss : list sec) : list nat :=
  match ss with [] => [] | s :: r => if starts (s_name s) (str ".kpatch") then i :: where_ (S i) r else where_ (S i) r end.
Lemma where_length : forall ss i, length (where_ i ss) = length (filter (fun s => starts (s_name s) (str ".kpatch")) ss).
Proof. induction ss as [|s ss IH]; intros i; cbn [where_ filter]; [reflexivity|]. destruct (starts _ _); cbn [length]; now rewrite IH. Qed.
Lemma where_spec : forall ss i j, In j (where_ i ss) <-> (i <= j)%nat /\ exists s r, nth_error ss (j - i) = Some s /\ s_name s = str ".kpatch" ++ r.
Proof.
  induction ss as [|s ss IH]; intros i j; cbn [where_].
  - split; [intros []|intros (_ & s & r & H & _); destruct (j - i)%nat; discriminate].
  - destruct (Nat.eq_dec j i) as [->|Ne].
    + rewrite Nat.sub_diag. cbn [nth_error]. assert (X : ~ In i (where_ (S i) ss)) by (rewrite IH; lia). destruct (starts _ _) eqn:St.
      * apply starts_spec in St as (r & St). split; [intros _; split; [lia|eauto]|left; reflexivity].
      * split; [intros; contradiction|]. intros (_ & s' & r & [= <-] & E). assert (Y : starts (s_name s) (str ".kpatch") = true) by (apply starts_spec; eauto). congruence.
    + assert (X : In j (where_ (S i) ss) <-> (i <= j)%nat /\ exists s' r, nth_error (s :: ss) (j - i) = Some s' /\ s_name s' = str ".kpatch" ++ r).
      { rewrite IH. split; intros (L & H).
        - split; [lia|]. replace (j - i)%nat with (S (j - S i)) by lia. exact H.
        - split; [lia|]. replace (j - i)%nat with (S (j - S i)) in H by lia. exact H. }
      rewrite <- X. destruct (starts _ _); cbn [In]; [|reflexivity]. split; [intros [?|?]; [lia|auto]|auto].
Qed.
Lemma where_nodup : forall ss i, NoDup (where_ i ss).
Proof.
  induction ss as [|s ss IH]; intros i; cbn [where_]; [constructor|]. destruct (starts _ _); auto. constructor; auto. rewrite where_spec. lia.
Qed.
Theorem C47_limit : forall bias orig patch n, patch_sections (o_secs patch) n -> (16 < n)%nat -> undo_link bias orig patch = None.
Proof.
  intros bias orig patch n (l & L & D & S) B. unfold undo_link. replace (load_ok (o_secs patch)) with false; [now rewrite andb_false_r|].
  symmetry. apply Z.leb_gt. unfold zlen. rewrite <- (where_length (tl (o_secs patch)) 1).
  assert (X : (length l <= length (where_ 1 (tl (o_secs patch))))%nat); [|lia].
  apply NoDup_incl_length; auto. intros i I. apply S in I as (I1 & s & r & I2 & I3). apply where_spec. split; auto. exists s, r. split; auto.
  destruct (o_secs patch) as [|x t]; [destruct i; discriminate|]. cbn [tl]. destruct i as [|i]; [lia|]. now replace (Datatypes.S i - 1)%nat with i by lia.
Qed.
Print Assumptions C47_relocations.
Print Assumptions C47_symbols.
Print Assumptions C47_sections.
Print Assumptions C47_original_functions.
Print Assumptions C47_other_symbols.
Print Assumptions C47_limit.

Definition mksec n t fl ad off sz lk inf al d := {| s_name := str n; s_type := t; s_flags := fl; s_addr := ad; s_offset := off; s_size := sz;
  s_link := lk; s_info := inf; s_align := al; s_data := d |}.
Definition mksym n v sh t := {| y_name := str n; y_value := v; y_size := 8; y_shndx := sh; y_type := t; y_bind := 1 |}.
Definition nullsec := mksec "" 0 0 0 0 0 0 0 0 (CBytes []).
Definition text0 a := mksec ".text" 1 6 a 64 16 0 0 16 (CBytes (repeat 144 16)).
Definition ktext a := mksec ".kpatch.text" 1 6 a 80 16 0 0 16 (CBytes (repeat 144 16)).
Definition ktrela := mksec ".rela.kpatch.text" 4 0 0 96 24 0 2 8
  (CRelas [{| r_offset := 0x2003; r_type := R_X86_64_PC32; r_sym := 1; r_addend := -4 |}]).
Definition ex_orig := {| o_secs := [nullsec; text0 0x1000]; o_syms := [mksym "" 0 0 0; mksym "f" 0x1004 1 2]; o_type := 2; o_shoff := 200; o_phnum := 1 |}.
Definition ex_patch := {| o_secs := [nullsec; text0 0x1100; ktext 0x2000; ktrela]; o_syms := [mksym "" 0 0 0; mksym "f" 0x1108 1 2; mksym "f.kpatch" 0x2008 2 2];
  o_type := 2; o_shoff := 200; o_phnum := 1 |}.
Definition show (o : option obj) := match o with
  | None => ([], [], []) | Some o => (map y_value (o_syms o), map s_addr (o_secs o), flat_map (fun s => match s_data s with CRelas rs => map r_offset rs | _ => [] end) (o_secs o)) end.
Example C47_case : show (undo_link false ex_orig ex_patch) = ([0; 8; 8], [0; 0x1000; 0x2000; 0], [3])
  /\ show (undo_link true ex_orig ex_patch) = ([0; 4; 8], [0; 0x1000; 0x2000; 0], [3]).
Proof. vm_compute. split; reflexivity. Qed.

(** 16 of them are taken, 17 are not. *)
Definition ex_many n := {| o_secs := [nullsec; text0 0x1100] ++ repeat (ktext 0x2000) n; o_syms := [mksym "" 0 0 0; mksym "f.kpatch" 0x2008 2 2];
  o_type := 2; o_shoff := 200; o_phnum := 1 |}.
Example C47_limit_case : undo_link true ex_orig (ex_many 16) <> None /\ undo_link true ex_orig (ex_many 17) = None /\ patch_sections (o_secs (ex_many 17)) 17.
Proof.
  split; [vm_compute; discriminate|]. split; [vm_compute; reflexivity|]. exists (where_ 1 (tl (o_secs (ex_many 17)))). split; [vm_compute; reflexivity|].
  split; [apply where_nodup|]. intros i. rewrite where_spec. split; intros (L & s & r & H & E); split; auto; exists s, r; split; auto.
  - destruct i as [|i]; [lia|]. now replace (S i - 1)%nat with i in H by lia.
  - destruct i as [|i]; [lia|]. now replace (S i - 1)%nat with i by lia.
Qed.

(** ** C90 *)
(** The sections of the stripped file are those of the file, one for one: a patch's own
    sections whole, .kpatch.info with one empty entry's end, the others without contents. *)
Theorem C90_sections : forall o o', strip o = Some o' ->
  exists s0 ss ss', o_secs o = s0 :: ss /\ o_secs o' = s0 :: ss' /\ Forall2 stripped ss ss' /\ o_syms o' = o_syms o.
Proof.
  intros o o' H. unfold strip in H. destruct (o_secs o) as [|s0 ss]; [discriminate|].
  destruct (strip_secs None ss) as [[ss' [off|]]|] eqn:E; try discriminate. injection H as <-. exists s0, ss, ss'. cbn [o_secs o_syms].
  repeat split. exact (strip_secs_stripped _ _ _ _ E).
Qed.
(** The kept sections are apart, aligned, and before the section headers. *)
Theorem C90_layout_partial : forall o o' s0 s ss, strip o = Some o' -> o_secs o = s0 :: s :: ss ->
  Forall (fun s => (exists k, 0 <= k < 64 /\ s_align s = 2 ^ k) /\ 0 <= s_size s) (s :: ss) ->
  0 <= s_offset s -> s_offset s mod s_align s = 0 ->
  s_offset s + fold_right (fun s t => s_size s + s_align s + 24 + t) 0 (s :: ss) + 8 < 2 ^ 64 ->
  exists hi, laid (s_offset s) (tl (o_secs o')) hi /\ hi <= o_shoff o' < hi + 8 /\ o_shoff o' mod 8 = 0.
Proof.
  intros o o' s0 s ss H E F H0 M B. unfold strip in H. rewrite E in H.
  destruct (strip_secs None (s :: ss)) as [[ss' [off|]]|] eqn:X; try discriminate. injection H as <-. cbn [o_secs o_shoff tl].
  destruct (strip_secs_laid (s :: ss) None ss' (Some off) (s_offset s) X F (conj eq_refl M) H0 B) as (e & Y & L & Le).
  injection Y as ->. exists e. split; [exact L|]. unfold room in Le.
  pose proof (round_up_bounds e 3 ltac:(lia) ltac:(change (2^3) with 8; lia) ltac:(lia)) as R. change (2 ^ 3) with 8 in R. lia.
Qed.
(** A file that is made replaces no function shorter than five bytes. *)
Theorem C90_room : forall o o' s bs i, strip o = Some o' -> In s (tl (o_secs o)) -> s_name s = str ".kpatch.info" -> s_data s = CBytes bs ->
  In i (infos_of bs 0 (Z.to_nat (zlen bs / info_size))) -> is_new_func i = true \/ 5 <= dlen i.
Proof.
  intros o o' s bs i H I N D J. unfold strip in H. destruct (o_secs o) as [|s0 ss]; [discriminate|].
  destruct (strip_secs None ss) as [[ss' off]|] eqn:E; [|discriminate]. clear H. cbn [tl] in I. revert E. generalize (@None Z). revert ss' off I.
  induction ss as [|t ss IH]; intros ss' off I o1 E; [destruct I|]. cbn [strip_secs] in E.
  destruct (strip_one o1 t) as [[s1 o2]|] eqn:S1; [|discriminate]. destruct (strip_secs (Some o2) ss) as [[r o3]|] eqn:S2; [|discriminate].
  destruct I as [->|I]; [|exact (IH _ _ I _ S2)]. clear S2. unfold strip_one in S1.
  rewrite (proj2 (need_iff _)) in S1.
  2: { left. exists (str "."), (str ".info"). exact N. }
  rewrite (proj2 (same_spec _ _) N), D in S1. cbn [info_bytes] in S1. destruct (check_info_len bs) eqn:C; [discriminate|].
  unfold check_info_len in C. destruct (is_new_func i) eqn:Nf; [left; reflexivity|]. right.
  assert (X : small i = false).
  { destruct (small i) eqn:Sm; [|reflexivity]. assert (existsb small (infos_of bs 0 (Z.to_nat (zlen bs / info_size))) = true) by (apply existsb_exists; eauto). congruence. }
  unfold small in X. rewrite Nf in X. cbn [negb andb] in X. lia.
Qed.
(** But a jump takes eight bytes on RISC-V: a function of five bytes is let through. *)
Definition short_fn : info := {| daddr := 0x1000; saddr := 0x2000; dlen := 6; slen := 6; flags := 0 |}.
Theorem C90_riscv_refuted : exists i, small i = false /\ is_new_func i = false /\ dlen i < a_hunk riscv64.
Proof. exists short_fn. vm_compute. repeat split; reflexivity. Qed.
(** A section that asks for no alignment (0 in the header, the same as 1) is put at offset 0,
    over the ELF header, and those after it too. *)
Definition noalign := mksec ".kpatch.strtab" 3 0 0 100 4 0 0 0 (CBytes [0; 1; 2; 3]).
Theorem C90_unaligned_refuted : exists o o', strip o = Some o' /\ Forall (fun s => 64 <= s_offset s) (tl (o_secs o)) /\
  exists s, In s (tl (o_secs o')) /\ wanted (s_name s) /\ s_size s > 0 /\ s_offset s < 64.
Proof.
  exists {| o_secs := [nullsec; ktext 0; noalign]; o_syms := []; o_type := 1; o_shoff := 200; o_phnum := 0 |}.
  eexists. split; [vm_compute; reflexivity|]. split; [repeat constructor; vm_compute; discriminate|].
  eexists. split; [right; left; reflexivity|]. split; [|split; vm_compute; reflexivity].
  left. exists (str "."), (str ".strtab"). vm_compute. reflexivity.
Qed.
Print Assumptions C90_sections.
Print Assumptions C90_layout_partial.
Print Assumptions C90_room.
Print Assumptions C90_riscv_refuted.
Print Assumptions C90_unaligned_refuted.

Definition kinfo n := mksec ".kpatch.info" 1 6 0 96 48 0 0 8 (CBytes (le_bytes 8 0x1000 ++ le_bytes 8 0x2000 ++ le_bytes 4 n ++ le_bytes 4 9 ++ repeat 0 24)).
Definition ex_strip n := {| o_secs := [nullsec; text0 0; ktext 0; kinfo n; mksec ".strtab" 3 0 0 144 7 0 0 1 (CBytes (repeat 7 7))]; o_syms := []; o_type := 1; o_shoff := 200; o_phnum := 0 |}.
Example C90_case : option_map (fun o => (map (fun s => (s_offset s, s_size s)) (o_secs o), o_shoff o)) (strip (ex_strip 9))
   = Some ([(0, 0); (64, 16); (64, 16); (80, 72); (152, 7)], 160)
  /\ strip (ex_strip 4) = None.
Proof. vm_compute. split; reflexivity. Qed.

(** ** C91 *)
(** A section keeps its address or gets that of a section of the original with its name. *)
Theorem C91_only_same_name : forall bias orig patch out, undo_link bias orig patch = Some out ->
  forall i s s', (1 <= i)%nat -> nth_error (o_secs patch) i = Some s -> nth_error (o_secs out) i = Some s' ->
  s_addr s' = s_addr s \/ exists so, In so (o_secs orig) /\ alloc so /\ s_name so = s_name s /\ s_addr s' = s_addr so.
Proof.
  intros bias orig patch out H i s s' Hi Hs Hs'. destruct (undo_inv _ _ _ _ H) as (ys & l & _ & Mp & E & _).
  rewrite E, (out_secs _ _ _ _ _ Hs Hi) in Hs'. injection Hs' as <-.
  destruct (rel_one_same (o_secs patch) s) as [R1 R2]. unfold copy_addr. destruct (orig_of l i) as [k|] eqn:O; [|left; exact R2].
  destruct (nth_error (o_secs orig) k) as [so|] eqn:N; [|left; exact R2]. right. exists so. cbn [with_addr s_addr].
  apply orig_of_in in O. pose proof (map_loop_pairs _ _ _ _ _ _ Mp) as F. rewrite Forall_forall in F.
  destruct (F _ O) as (t & to & T1 & T2 & T3 & T4 & _). cbn [fst snd] in *. rewrite Hs in T1. injection T1 as <-. rewrite N in T2. injection T2 as <-.
  split; [exact (nth_error_In _ _ N)|]. split; [exact T4|]. split; [congruence|reflexivity].
Qed.
(** When the patch has all the sections of the original that take memory, in their order, each
    of them gets its address back. *)
Theorem C91_all_partial : forall bias orig patch out, undo_link bias orig patch = Some out ->
  within (map s_name (filter (fun s => Z.odd (s_flags s / 2)) (tl (o_secs orig)))) (map s_name (tl (o_secs patch))) ->
  forall io so, (1 <= io)%nat -> nth_error (o_secs orig) io = Some so -> alloc so ->
  exists i s', (1 <= i)%nat /\ nth_error (o_secs out) i = Some s' /\ s_name s' = s_name so /\ s_addr s' = s_addr so.
Proof.
  intros bias orig patch out H W io so Hio Ho Al. destruct (undo_inv _ _ _ _ H) as (ys & l & _ & Mp & E & _).
  assert (W' : within (map s_name (filter allocb (skipn 1 (o_secs orig)))) (map s_name (skipn 1 (o_secs patch)))).
  { replace (filter allocb (skipn 1 (o_secs orig))) with (filter (fun s => Z.odd (s_flags s / 2)) (tl (o_secs orig))); [destruct (o_secs orig), (o_secs patch); exact W|].
    destruct (o_secs orig) as [|s0 ss]; [reflexivity|]. cbn [tl skipn]. apply filter_ext. intros s. pose proof (allocb_iff s) as X. unfold alloc in X.
    destruct (allocb s), (Z.odd (s_flags s / 2)); intuition congruence. }
  assert (P1 : (1 <= length (o_secs patch))%nat).
  { destruct (o_secs patch) as [|]; [|cbn [length]; lia]. exfalso. cbn [skipn map] in W'.
    destruct (o_secs orig) as [|o0 os]; [destruct io; discriminate|]. destruct io as [|io]; [lia|]. cbn [nth_error skipn] in *.
    inversion W' as [Q|Q|Q]. assert (In so (filter allocb os)) by (apply filter_In; split; [exact (nth_error_In _ _ Ho)|apply allocb_iff; exact Al]).
    destruct (filter allocb os); [contradiction|discriminate]. }
  destruct (map_loop_within (length (o_secs orig)) (o_secs orig) (o_secs patch) 1 1 ltac:(lia) P1 W') as (l' & Mp' & N1 & N2 & N3).
  unfold map_sections in Mp. rewrite Mp in Mp'. injection Mp' as <-.
  destruct (N3 io so Hio Ho Al) as [i I]. pose proof (map_loop_pairs _ _ _ _ _ _ Mp) as F. rewrite Forall_forall in F.
  destruct (F _ I) as (t & to & T1 & T2 & T3 & _ & T5). cbn [fst snd] in *. rewrite Ho in T2. injection T2 as <-. specialize (T5 ltac:(lia)).
  exists i. rewrite E, (out_secs _ _ _ _ _ T1 T5). eexists. split; [exact T5|]. split; [reflexivity|].
  destruct (rel_one_same (o_secs patch) t) as [R1 R2].
  unfold copy_addr. rewrite (orig_of_nodup _ _ _ N1 I), Ho. cbn [with_addr s_name s_addr]. split; [|reflexivity].
  destruct R1 as [R1 _]. congruence.
Qed.
(** After a section that the patch has not, the next one is left out although the patch has it. *)
Definition dsec n a := mksec n 1 3 a 64 16 0 0 16 (CBytes []).
Theorem C91_skipped_refuted : exists orig patch out so, undo_link false orig patch = Some out /\ In so (tl (o_secs orig)) /\ alloc so /\
  In (s_name so) (map s_name (o_secs patch)) /\ Forall (fun s => s_name s = s_name so -> s_addr s <> s_addr so) (o_secs out).
Proof.
  exists {| o_secs := [nullsec; dsec ".interp" 0x500; dsec ".init" 0x600; dsec ".text" 0x1000]; o_syms := []; o_type := 2; o_shoff := 0; o_phnum := 0 |}.
  exists {| o_secs := [nullsec; dsec ".init" 0x700; dsec ".text" 0x1100]; o_syms := []; o_type := 2; o_shoff := 0; o_phnum := 0 |}.
  eexists. exists (dsec ".init" 0x600). split; [vm_compute; reflexivity|]. split; [right; left; reflexivity|]. split; [vm_compute; reflexivity|].
  split; [right; left; reflexivity|]. repeat constructor; vm_compute; congruence.
Qed.
(** When the last section of the patch is found and the original has more, the whole fails. *)
Theorem C91_last_refuted : exists orig patch, undo_link false orig patch = None /\
  within (map s_name (tl (o_secs patch))) (map s_name (tl (o_secs orig))) /\ Forall alloc (tl (o_secs orig)).
Proof.
  exists {| o_secs := [nullsec; dsec ".text" 0x1000; dsec ".data" 0x2000]; o_syms := []; o_type := 2; o_shoff := 0; o_phnum := 0 |}.
  exists {| o_secs := [nullsec; dsec ".text" 0x1100]; o_syms := []; o_type := 2; o_shoff := 0; o_phnum := 0 |}.
  split; [vm_compute; reflexivity|]. split; [apply wi_take, wi_nil|]. repeat constructor; vm_compute; reflexivity.
Qed.
Print Assumptions C91_only_same_name.
Print Assumptions C91_all_partial.
Print Assumptions C91_skipped_refuted.
Print Assumptions C91_last_refuted.
Example C91_case : option_map (fun o => map s_addr (o_secs o)) (undo_link false
    {| o_secs := [nullsec; dsec ".init" 0x600; dsec ".text" 0x1000]; o_syms := []; o_type := 2; o_shoff := 0; o_phnum := 0 |}
    {| o_secs := [nullsec; dsec ".x" 0x500; dsec ".init" 0x700; dsec ".text" 0x1100; dsec ".kpatch.text" 0x3000]; o_syms := []; o_type := 2; o_shoff := 0; o_phnum := 0 |})
  = Some [0; 0x500; 0x600; 0x1000; 0x3000].
Proof. vm_compute. reflexivity. Qed.
