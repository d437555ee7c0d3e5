(** Concrete patches and patients used to show that the hypotheses of the engine
    theorems are met and to refute what does not hold. *)
From Coq Require Import ZArith List Bool Lia.
From Verif Require Import Base BaseProofs RemoteModel JumpModel JumpProofs EngineModel EngineSpec LayoutProofs.
Import ListNotations.
Open Scope Z_scope.

(** A header for patch "0001" of the object with build id "ab12". *)
Definition ex_id : list Z := [48; 48; 48; 49].
Definition ex_bid : list Z := [97; 98; 49; 50].
Definition ex_hdr (image_len : Z) : list Z :=
  set32 (put (put (put (repeat 0 504) 0 magic) h_id ex_id) h_buildid ex_bid)
    h_total_size (504 + image_len).

(** One entry of the information table. *)
Definition ex_entry (d s dl sl : Z) : list Z :=
  le_bytes 8 d ++ le_bytes 8 s ++ le_bytes 4 dl ++ le_bytes 4 sl ++ repeat 0 24.

(** An image that is only a table with its end mark. *)
Definition ex_img (entries : list (list Z)) : list Z := concat entries ++ repeat 0 32.

Definition ex_patch (entries : list (list Z)) : patch :=
  {| p_hdr := ex_hdr (zlen (ex_img entries));
     p_info := Some (0, length entries);
     p_infos0 := map info_of entries;
     p_data_off := 0; p_undef := 0;
     p_link := fun _ _ => Some (ex_img entries, repeat 0 16) |}.

Definition ex_obj (p : patch) : obj :=
  {| o_patch := Some p; o_is_patch := false; o_applied := []; o_hdr := None; o_info := None;
     o_kpta := 0; o_find := fun _ => 0x500000 |}.

(** Two replaced functions with a new one between them. *)
Definition ex_entries : list (list Z) :=
  [ex_entry 0x400000 0x501000 16 20; ex_entry 0 0x501020 0 8; ex_entry 0x400100 0x501040 32 8].
Definition ex_p : patch := ex_patch ex_entries.
Definition ex_o : obj := ex_obj ex_p.

(** A patient with 64 KiB of code at 0x400000. *)
Definition ex_mem : mem := fun x =>
  if (0x400000 <=? x) && (x <? 0x410000) then Some (x mod 251) else None.
Definition ex_st (l : list answer) : st := {| sm := ex_mem; sx := fun _ => false; so := l |}.

Lemma x86_machine : machine_ok x86 16 4096.
Proof.
  split; cbn [x86 a_hunk a_code]; try lia.
  - intros d s c E. apply some_inj in E. subst c. apply code_length_x86.
  - exists 12. split; [lia|reflexivity].
Qed.

Lemma ex_replaces j d : replaces (infos_of (ex_img ex_entries) 0 3) j d ->
  (j = 0%nat /\ d = 0x400000) \/ (j = 2%nat /\ d = 0x400100).
Proof.
  intros (i & Hn & Hw & <-).
  destruct j as [|[|[|j]]]; vm_compute in Hn; try (destruct j; discriminate); apply some_inj in Hn; subst i.
  - left. split; reflexivity.
  - vm_compute in Hw. discriminate.
  - right. split; reflexivity.
Qed.

Ltac byte_check := apply Forall_forall; intros x Hx;
  assert (HB : forallb (fun b => (0 <=? b) && (b <? 256)) ltac:(match type of Hx with In _ ?l => exact l end) = true)
    by (vm_compute; reflexivity);
  rewrite forallb_forall in HB; specialize (HB x Hx); unfold byte_ok; lia.

Lemma ex_patch_ok : patch_ok x86 16 4096 ex_p 0 3.
Proof.
  split.
  - vm_compute. reflexivity.
  - byte_check.
  - reflexivity.
  - lia.
  - vm_compute. congruence.
  - vm_compute. congruence.
  - vm_compute. congruence.
  - vm_compute. reflexivity.
  - reflexivity.
  - repeat constructor.
  - intros kpta h img jt E. change (Some (ex_img ex_entries, repeat 0 16) = Some (img, jt)) in E.
    apply some_inj in E. injection E as <- <-. split; [vm_compute; reflexivity|]. split; [byte_check|].
    split; [vm_compute; reflexivity|]. repeat constructor.
Qed.

Lemma ex_fresh : fresh ex_o ex_p.
Proof. split; reflexivity. Qed.

Lemma ex_scene : scene x86 16 4096 ex_p 0 3 ex_o 0x500000.
Proof.
  split; try reflexivity.
  - apply x86_machine.
  - apply ex_patch_ok.
  - apply ex_fresh.
  - intros img jt E. change (Some (ex_img ex_entries, repeat 0 16) = Some (img, jt)) in E.
    apply some_inj in E. injection E as <- <-.
    change (region_size x86 16 4096 ex_p 0 3) with 8192. cbn [x86 a_hunk]. split.
    + intros j d Hr. destruct (ex_replaces j d Hr) as [[_ ->]|[_ ->]]; lia.
    + intros j1 j2 d1 d2 H1 H2 Hne.
      destruct (ex_replaces _ _ H1) as [[-> ->]|[-> ->]]; destruct (ex_replaces _ _ H2) as [[-> ->]|[-> ->]];
        try congruence; lia.
Qed.

Lemma ex_size : region_size x86 16 4096 ex_p 0 3 = 8192.
Proof. vm_compute. reflexivity. Qed.

Lemma ex_clean : file_clean (p_hdr ex_p).
Proof. split; vm_compute; reflexivity. Qed.

Lemma ex_labelled : labelled (p_hdr ex_p) ex_id ex_bid.
Proof. split; try (vm_compute; reflexivity); cbn; lia. Qed.

Lemma ex_table_ok : forall img jt,
  p_link ex_p 0x500000 (region_hdr x86 16 4096 ex_p 0 3) = Some (img, jt) -> table_ok img 0 3.
Proof.
  intros img jt E. change (Some (ex_img ex_entries, repeat 0 16) = Some (img, jt)) in E.
  apply some_inj in E. injection E as <- <-. split.
  - lia.
  - vm_compute. congruence.
  - intros i Hi. repeat (destruct Hi as [<-|Hi]; [reflexivity|]). destruct Hi.
  - intros k Hk. unfold info_size.
    assert (HB : forallb (fun b => b =? 0) (skipn 144 (ex_img ex_entries)) = true) by reflexivity.
    replace (Z.to_nat (0 + 48 * Z.of_nat 3 + k)) with (144 + Z.to_nat k)%nat by lia.
    rewrite <- nth_skipn. rewrite forallb_forall in HB.
    destruct (Nat.lt_ge_cases (Z.to_nat k) (length (skipn 144 (ex_img ex_entries)))) as [Hl|Hl].
    + specialize (HB _ (nth_In _ 0 Hl)). lia.
    + apply nth_overflow. exact Hl.
Qed.

Lemma ex_low : nothing_at ex_mem 0 8192.
Proof. intros x Hx. unfold in_range in Hx. unfold ex_mem. destruct (0x400000 <=? x) eqn:E; [lia|reflexivity]. Qed.

Lemma ex_free : nothing_at ex_mem 0x500000 8192.
Proof.
  intros x Hx. unfold in_range in Hx. unfold ex_mem.
  destruct (x <? 0x410000) eqn:E; [lia|]. rewrite andb_false_r. reflexivity.
Qed.

(** The result of a run, without the memory. *)
Definition ex_result {A B} (r : outcome A * B * st) : outcome A := fst (fst r).

(** Split a conjunction of computed facts. *)
Ltac computed := vm_compute; repeat match goal with |- _ /\ _ => split end;
  match goal with |- _ = _ => reflexivity | _ => congruence end.
