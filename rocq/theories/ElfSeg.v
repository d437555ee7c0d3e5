(** Proofs about program headers, mappings and address translation. *)
From Coq Require Import Permutation Sorted.
From Verif Require Import Base BaseProofs RelocModel ElfModel ElfSpec ElfDyn.

Lemma phdr_preorder l : preorder_on phdr_compare l.
Proof.
  split; intros; unfold phdr_compare in *;
    repeat match goal with
    | H : context [if ?x <? ?y then _ else _] |- _ => destruct (Z.ltb_spec x y)
    | |- context [if ?x <? ?y then _ else _] => destruct (Z.ltb_spec x y)
    end; try lia.
Qed.

(** ** Lowest segment *)

Lemma lowest_aux phs : forall acc,
  let r := fold_left (fun low p => if is_load p && (p_vaddr p <? low) then p_vaddr p else low)
             phs acc in
  r <= acc /\ (forall p, In p phs -> p_type p = 1 -> r <= p_vaddr p) /\
  (r = acc \/ exists p, In p phs /\ p_type p = 1 /\ r = p_vaddr p).
Proof.
  induction phs as [|p phs IH]; intros acc; cbn [fold_left].
  - split; [lia|]. split; [intros ? []|left; reflexivity].
  - destruct (is_load p && (p_vaddr p <? acc)) eqn:C.
    + destruct (IH (p_vaddr p)) as (L1 & L2 & L3). apply andb_prop in C as [C1 C2].
      unfold is_load, PT_LOAD in C1. apply Z.eqb_eq in C1.
      split; [lia|]. split.
      * intros q [<-|Hq] Tq; [exact L1|apply L2; auto].
      * right. destruct L3 as [E|(q & Hq & Tq & E)].
        -- exists p. split; [left; reflexivity|auto].
        -- exists q. split; [right; exact Hq|auto].
    + destruct (IH acc) as (L1 & L2 & L3). split; [exact L1|]. split.
      * intros q [<-|Hq] Tq; [|apply L2; auto].
        unfold is_load, PT_LOAD in C. rewrite Tq in C. cbn [Z.eqb Pos.eqb andb] in C. lia.
      * destruct L3 as [E|(q & Hq & Tq & E)]; [left; exact E|right].
        exists q. split; [right; exact Hq|auto].
Qed.

(** ** Splitting off the RELRO part *)

Lemma split_loads prev l : Forall (fun p => is_relro p = false) l ->
  split_relro prev l = Some (match prev with Some q => q :: l | None => l end).
Proof.
  revert prev; induction l as [|p l IH]; intros prev F; cbn [split_relro].
  - destruct prev; reflexivity.
  - inversion F as [|? ? Fp F']; subst. rewrite Fp, (IH (Some p) F'). destruct prev; reflexivity.
Qed.

Definition relro_part (r : phdr) : phdr :=
  {| p_type := p_type r; p_flags := Z.land (p_flags r) (Z.lnot PF_W);
     p_offset := p_offset r; p_vaddr := p_vaddr r;
     p_filesz := p_filesz r; p_memsz := p_memsz r |}.
Definition rest_part (q r : phdr) : phdr :=
  {| p_type := p_type q; p_flags := p_flags q;
     p_offset := u64 (p_offset q + p_filesz r); p_vaddr := u64 (p_vaddr r + p_memsz r);
     p_filesz := u64 (p_filesz q - p_filesz r);
     p_memsz := u64 (p_memsz q - p_memsz r) |}.

Lemma split_one l1 q r l2 : forall prev,
  Forall (fun p => is_relro p = false) l1 -> is_relro q = false -> is_relro r = true ->
  Forall (fun p => is_relro p = false) l2 -> p_vaddr q = p_vaddr r ->
  split_relro prev (l1 ++ q :: r :: l2)
  = Some (match prev with Some x => [x] | None => [] end
          ++ l1 ++ rest_part q r :: relro_part r :: l2).
Proof.
  induction l1 as [|p l1 IH]; intros prev F1 Fq Fr F2 E.
  - cbn [app split_relro]. rewrite Fq, Fr.
    assert (E' : (p_vaddr q =? p_vaddr r) = true) by lia. rewrite E'.
    fold (relro_part r). rewrite (split_loads (Some (relro_part r)) l2 F2).
    destruct prev; reflexivity.
  - inversion F1 as [|? ? Fp F1']; subst. cbn [app split_relro]. rewrite Fp.
    rewrite (IH (Some p) F1' Fq Fr F2 E). destruct prev; reflexivity.
Qed.

Definition seg_model (p : phdr) : seg :=
  {| g_vaddr := p_vaddr p; g_memsz := p_memsz p; g_filesz := p_filesz p;
     g_flags := Z.land (p_flags p) 7 |}.

Lemma land7 x : Z.land x 7 = x mod 8.
Proof. change 7 with (Z.ones 3). rewrite Z.land_ones by lia. reflexivity. Qed.

Lemma no_write_land x : Z.land (Z.land x (Z.lnot PF_W)) 7 = no_write x.
Proof.
  rewrite <- Z.land_assoc, (Z.land_comm _ 7), Z.land_assoc, land7.
  unfold no_write. replace (x mod 2) with ((x mod 8) mod 2).
  2:{ Z.div_mod_to_equations; lia. }
  replace ((x / 4) mod 2) with ((x mod 8) / 4 mod 2).
  2:{ Z.div_mod_to_equations; lia. }
  assert (B : 0 <= x mod 8 < 8) by (apply Z.mod_pos_bound; lia).
  generalize dependent (x mod 8). intros y B.
  assert (C : y = 0 \/ y = 1 \/ y = 2 \/ y = 3 \/ y = 4 \/ y = 5 \/ y = 6 \/ y = 7) by lia.
  repeat (destruct C as [C|C]; [subst y; reflexivity|]). subst y. reflexivity.
Qed.

Lemma fop_eq {A} (R : A -> A -> Prop) (l : list A) x y :
  ForallOrdPairs R l -> In x l -> In y l -> ~ R x y -> ~ R y x -> x = y.
Proof.
  intros F Hx Hy N1 N2. destruct (ForallOrdPairs_In F x y Hx Hy) as [E|[E|E]]; tauto.
Qed.

Lemma regular_nodup phs : regular phs ->
  NoDup (filter (fun p => is_load p || is_relro p) phs).
Proof.
  intros (_ & F1 & F2 & _).
  induction phs as [|p phs IH]; [constructor|].
  inversion F1 as [|? ? G1 F1']; subst. inversion F2 as [|? ? G2 F2']; subst.
  cbn [filter]. destruct (is_load p || is_relro p) eqn:C; [|auto].
  constructor; [|auto]. intros Hin. apply filter_In in Hin as [Hin _].
  rewrite Forall_forall in G1, G2. specialize (G1 p Hin). specialize (G2 p Hin).
  unfold is_load, is_relro, PT_LOAD, PT_GNU_RELRO in C. apply Bool.orb_prop in C.
  destruct C as [C|C]; apply Z.eqb_eq in C.
  - exact (G1 C C eq_refl).
  - exact (G2 (conj C C)).
Qed.

(** The headers the mappings are compared with are the pieces. *)
Lemma pieces_spec phs ms :
  regular phs ->
  Permutation (filter (fun p => is_load p || is_relro p) phs) ms ->
  StronglySorted (fun a b => phdr_compare a b <= 0) ms ->
  exists mh, split_relro None ms = Some mh /\
    (forall p, In p mh -> piece phs (seg_model p) /\
       0 <= p_vaddr p /\ 0 <= p_memsz p /\ p_vaddr p + p_memsz p < 2 ^ 64) /\
    (forall g, piece phs g -> exists p, In p mh /\ g = seg_model p).
Proof.
  intros Rg P S. pose proof (regular_nodup phs Rg) as ND.
  pose proof (Permutation_NoDup P ND) as NDm.
  destruct Rg as (Rb & R1 & R2 & R3).
  assert (In_ms : forall p, In p ms <-> In p phs /\ (p_type p = 1 \/ p_type p = 0x6474e552)).
  { intros p. split.
    - intros H. apply (Permutation_in _ (Permutation_sym P)) in H.
      apply filter_In in H as [H C]. split; [exact H|].
      unfold is_load, is_relro, PT_LOAD, PT_GNU_RELRO in C. lia.
    - intros [H C]. apply (Permutation_in _ P). apply filter_In. split; [exact H|].
      unfold is_load, is_relro, PT_LOAD, PT_GNU_RELRO. lia. }
  rewrite Forall_forall in Rb.
  assert (Uload : forall x y, In x phs -> In y phs -> p_type x = 1 -> p_type y = 1 ->
                    p_vaddr x = p_vaddr y -> x = y).
  { intros x y Hx Hy Tx Ty E. apply (fop_eq _ _ x y R1 Hx Hy); intros Q; [|symmetry in E];
      exact (Q ltac:(assumption) ltac:(assumption) E). }
  assert (Urelro : forall x y, In x phs -> In y phs -> p_type x = 0x6474e552 ->
                     p_type y = 0x6474e552 -> x = y).
  { intros x y Hx Hy Tx Ty. apply (fop_eq _ _ x y R2 Hx Hy); intros Q; apply Q; auto. }
  destruct (existsb is_relro ms) eqn:Er.
  - apply existsb_exists in Er as (r & Hr & Tr). unfold is_relro, PT_GNU_RELRO in Tr.
    apply Z.eqb_eq in Tr. pose proof (proj1 (In_ms r) Hr) as [Hrp _].
    destruct (R3 r Hrp Tr) as (q & Hq & Tq & Eq & Sz & Fz).
    apply in_split in Hr as (l1 & l2 & Ems). subst ms.
    assert (Hqm : In q (l1 ++ r :: l2)) by (apply In_ms; auto).
    (* q comes before r *)
    assert (Hq1 : In q l1).
    { apply in_app_or in Hqm. destruct Hqm as [H|[H|H]]; [exact H| |].
      - subst q. rewrite Tr in Tq. discriminate.
      - exfalso. assert (C : phdr_compare r q <= 0).
        { apply in_split in H as (l3 & l4 & ->).
          apply (ss_nth _ _ S (length l1) (length l1 + Datatypes.S (length l3)))%nat; [lia| |].
          - rewrite nth_error_app2, Nat.sub_diag by lia. reflexivity.
          - rewrite nth_error_app2 by lia.
            replace (length l1 + Datatypes.S (length l3) - length l1)%nat
              with (Datatypes.S (length l3)) by lia. cbn [nth_error].
            rewrite nth_error_app2, Nat.sub_diag by lia. reflexivity. }
        unfold phdr_compare in C.
        destruct (Z.ltb_spec (p_vaddr r) (p_vaddr q)); [lia|].
        destruct (Z.ltb_spec (p_vaddr q) (p_vaddr r)); [lia|].
        destruct (Z.ltb_spec (p_memsz r) (p_memsz q)); lia. }
    (* q is the last before r *)
    destruct (exists_last (l := l1)) as (l1' & z & E1).
    { intros ->. destruct Hq1. }
    subst l1.
    assert (Ez : z = q).
    { apply in_app_or in Hq1. destruct Hq1 as [H|[H|[]]]; [|exact H].
      apply in_split in H as (l3 & l4 & ->).
      assert (Hz : In z (((l3 ++ q :: l4) ++ [z]) ++ r :: l2)).
      { apply in_or_app. left. apply in_or_app. right. left. reflexivity. }
      assert (C1 : phdr_compare q z <= 0).
      { apply (ss_nth _ _ S (length l3) (length (l3 ++ q :: l4)))%nat.
        - rewrite app_length. cbn. lia.
        - rewrite <- !app_assoc. rewrite nth_error_app2, Nat.sub_diag by lia. reflexivity.
        - rewrite <- app_assoc. rewrite nth_error_app2, Nat.sub_diag by lia. reflexivity. }
      assert (C2 : phdr_compare z r <= 0).
      { apply (ss_nth _ _ S (length (l3 ++ q :: l4)) (length ((l3 ++ q :: l4) ++ [z])))%nat.
        - rewrite (app_length _ [z]). cbn. lia.
        - rewrite <- app_assoc. rewrite nth_error_app2, Nat.sub_diag by lia. reflexivity.
        - rewrite nth_error_app2, Nat.sub_diag by lia. reflexivity. }
      assert (Ev : p_vaddr z = p_vaddr q).
      { unfold phdr_compare in C1, C2.
        destruct (Z.ltb_spec (p_vaddr z) (p_vaddr q));
          destruct (Z.ltb_spec (p_vaddr q) (p_vaddr z)); try lia;
          destruct (Z.ltb_spec (p_vaddr r) (p_vaddr z));
          destruct (Z.ltb_spec (p_vaddr z) (p_vaddr r)); try lia. }
      apply In_ms in Hz as [Hzp [Tz|Tz]]; [apply Uload; auto|].
      exfalso. assert (z = r) by (apply Urelro; auto). subst z.
      apply NoDup_remove_2 in NDm. apply NDm. apply in_or_app. left. apply in_or_app. right.
      left. reflexivity. }
    subst z.
    rewrite <- app_assoc in *. cbn [app] in *.
    assert (ND1 : NoDup (l1' ++ q :: r :: l2)) by exact NDm.
    assert (Nq : ~ In q (l1' ++ r :: l2)) by (apply NoDup_remove_2 in ND1; exact ND1).
    assert (Nr : ~ In r (l1' ++ q :: l2)).
    { change (l1' ++ q :: r :: l2) with (l1' ++ [q] ++ r :: l2) in ND1.
      rewrite app_assoc in ND1. apply NoDup_remove_2 in ND1. rewrite <- app_assoc in ND1.
      exact ND1. }
    assert (Others : forall x, In x (l1' ++ l2) -> In x phs /\ p_type x = 1 /\
                       p_vaddr x <> p_vaddr r).
    { intros x Hx. assert (Hm : In x (l1' ++ q :: r :: l2)).
      { apply in_app_or in Hx. apply in_or_app. cbn. tauto. }
      apply In_ms in Hm as [Hp T]. assert (Nx : x <> r).
      { intros ->. apply Nr. apply in_app_or in Hx. apply in_or_app. cbn. tauto. }
      assert (Nx' : x <> q).
      { intros ->. apply Nq. apply in_app_or in Hx. apply in_or_app. cbn. tauto. }
      split; [exact Hp|]. destruct T as [T|T].
      - split; [exact T|]. intros E. apply Nx'. apply Uload; auto. congruence.
      - exfalso. apply Nx. apply Urelro; auto. }
    assert (NRel : forall x, p_type x = 1 -> is_relro x = false).
    { intros x T. unfold is_relro. rewrite T. reflexivity. }
    exists (l1' ++ rest_part q r :: relro_part r :: l2). split; [|split].
    + rewrite (split_one l1' q r l2 None); [reflexivity|..].
      * apply Forall_forall. intros x Hx. apply NRel. apply Others. apply in_or_app. auto.
      * apply NRel, Tq.
      * unfold is_relro, PT_GNU_RELRO. rewrite Tr. reflexivity.
      * apply Forall_forall. intros x Hx. apply NRel. apply Others. apply in_or_app. auto.
      * exact Eq.
    + destruct (Rb q Hq) as (Q1 & Q2 & Q3 & Q4 & Q5).
      destruct (Rb r Hrp) as (B1 & B2 & B3 & B4 & B5).
      assert (Oth : forall x, In x (l1' ++ l2) -> piece phs (seg_model x) /\
                 0 <= p_vaddr x /\ 0 <= p_memsz x /\ p_vaddr x + p_memsz x < 2 ^ 64).
      { intros x Hx. destruct (Others x Hx) as (Hp & T & N). split.
        - left. exists x. split; [exact Hp|]. split; [exact T|]. split.
          + unfold seg_model, seg_of. rewrite land7. reflexivity.
          + intros r0 Hr0 Tr0. assert (r0 = r) by (apply Urelro; auto). subst r0. auto.
        - destruct (Rb x Hp) as (? & ? & ? & _). auto. }
      intros p Hp. apply in_app_or in Hp. destruct Hp as [Hp|[Hp|[Hp|Hp]]].
      * apply Oth. apply in_or_app; auto.
      * subst p. cbn [rest_part p_vaddr p_memsz].
        rewrite !u64_small by lia. split; [|lia].
        right; right. exists q, r. split; [exact Hq|]. split; [exact Tq|].
        split; [exact Hrp|]. split; [exact Tr|]. split; [exact Eq|].
        unfold seg_model. cbn [rest_part p_vaddr p_memsz p_filesz p_flags].
        rewrite !u64_small, land7 by lia. reflexivity.
      * subst p. cbn [relro_part p_vaddr p_memsz]. split; [|lia].
        right; left. exists r. split; [exact Hrp|]. split; [exact Tr|].
        unfold seg_model. cbn [relro_part p_vaddr p_memsz p_filesz p_flags].
        rewrite no_write_land. reflexivity.
      * apply Oth. apply in_or_app; auto.
    + destruct (Rb q Hq) as (Q1 & Q2 & Q3 & Q4 & Q5).
      destruct (Rb r Hrp) as (B1 & B2 & B3 & B4 & B5).
      intros g [(l & Hl & Tl & -> & Nl)|[(r0 & Hr0 & Tr0 & ->)|(l & r0 & Hl & Tl & Hr0 & Tr0 & El & ->)]].
      * exists l. split.
        -- assert (Hm : In l (l1' ++ q :: r :: l2)) by (apply In_ms; auto).
           apply in_app_or in Hm. apply in_or_app. destruct Hm as [Hm|[Hm|[Hm|Hm]]]; [auto| | |].
           ++ subst l. exfalso. apply (Nl r Hrp Tr). auto.
           ++ subst l. rewrite Tr in Tl. discriminate.
           ++ right. right. right. exact Hm.
        -- unfold seg_model, seg_of. rewrite land7. reflexivity.
      * assert (r0 = r) by (apply Urelro; auto). subst r0. exists (relro_part r). split.
        -- apply in_or_app. right. right. left. reflexivity.
        -- unfold seg_model. cbn [relro_part p_vaddr p_memsz p_filesz p_flags].
           rewrite no_write_land. reflexivity.
      * assert (r0 = r) by (apply Urelro; auto). subst r0.
        assert (l = q) by (apply Uload; auto; congruence). subst l.
        exists (rest_part q r). split.
        -- apply in_or_app. right. left. reflexivity.
        -- unfold seg_model. cbn [rest_part p_vaddr p_memsz p_filesz p_flags].
           rewrite !u64_small, land7 by lia. reflexivity.
  - assert (Loads : forall x, In x ms -> is_relro x = false).
    { intros x Hx. destruct (is_relro x) eqn:E; [|reflexivity].
      assert (existsb is_relro ms = true) by (apply existsb_exists; eauto). congruence. }
    exists ms. split; [|split].
    + apply split_loads. apply Forall_forall. exact Loads.
    + intros p Hp. pose proof (proj1 (In_ms p) Hp) as [Hpp T].
      pose proof (Loads p Hp) as Np. unfold is_relro, PT_GNU_RELRO in Np.
      apply Z.eqb_neq in Np. split.
      * left. exists p. split; [exact Hpp|]. split; [tauto|]. split.
        -- unfold seg_model, seg_of. rewrite land7. reflexivity.
        -- intros r Hr Tr _. assert (Hrm : In r ms) by (apply In_ms; auto).
           apply Loads in Hrm. unfold is_relro, PT_GNU_RELRO in Hrm. rewrite Tr in Hrm.
           discriminate.
      * destruct (Rb p Hpp) as (? & ? & ? & _). auto.
    + assert (NoR : forall r, In r phs -> p_type r = 0x6474e552 -> False).
      { intros r Hr Tr. assert (Hrm : In r ms) by (apply In_ms; auto).
        apply Loads in Hrm. unfold is_relro, PT_GNU_RELRO in Hrm. rewrite Tr in Hrm.
        discriminate. }
      intros g [(l & Hl & Tl & -> & Nl)|[(r0 & Hr0 & Tr0 & ->)|(l & r0 & Hl & Tl & Hr0 & Tr0 & El & ->)]].
      * exists l. split; [apply In_ms; auto|]. unfold seg_model, seg_of. rewrite land7. reflexivity.
      * destruct (NoR r0 Hr0 Tr0).
      * destruct (NoR r0 Hr0 Tr0).
Qed.

(** ** Matching *)

Lemma match_vmas_spec pg load mh vs : forall vs',
  match_vmas pg load mh vs = (0, vs') ->
  Forall2 (fun v v' => (a_prot (v_mem v) = 0 /\ v' = v) \/
             (a_prot (v_mem v) <> 0 /\ exists p, In p mh /\ match_ph pg load p v = true /\
                v' = assign load p v)) vs vs'.
Proof.
  induction vs as [|v vs IH]; intros vs' H; cbn [match_vmas] in H.
  - injection H as <-. constructor.
  - destruct (Z.eqb_spec (a_prot (v_mem v)) 0) as [E|N].
    + destruct (match_vmas pg load mh vs) as [rv r]. injection H as -> <-.
      constructor; [left; auto|apply IH; reflexivity].
    + destruct (find (fun p => match_ph pg load p v) mh) as [p|] eqn:F; [|discriminate].
      destruct (match_vmas pg load mh vs) as [rv r]. injection H as -> <-.
      apply find_some in F as [F1 F2].
      constructor; [right; split; [exact N|exists p; auto]|apply IH; reflexivity].
Qed.

Lemma same_access_prot fl prot : 0 <= prot < 8 -> prot2flags prot = fl -> same_access fl prot.
Proof.
  intros B E. unfold same_access. subst fl.
  assert (C : prot = 0 \/ prot = 1 \/ prot = 2 \/ prot = 3 \/ prot = 4 \/ prot = 5
              \/ prot = 6 \/ prot = 7) by lia.
  repeat (destruct C as [C|C]; [subst prot; reflexivity|]). subst prot. reflexivity.
Qed.

Lemma match_mapping pg load p v : page_ok pg -> 0 <= a_prot (v_mem v) < 8 ->
  match_ph pg load p v = true -> is_mapping_of pg load (seg_model p) (v_mem v).
Proof.
  intros (k & Hk & ->) B H. unfold match_ph in H. apply andb_prop in H as [H H3].
  apply andb_prop in H as [H1 H2]. apply Z.eqb_eq in H1. apply Z.eqb_eq in H2.
  apply Z.eqb_eq in H3. unfold is_mapping_of, seg_model. cbn [g_vaddr g_filesz g_flags].
  assert (P : 0 < 2 ^ k) by (apply Z.pow_pos_nonneg; lia).
  split; [|split].
  - rewrite <- H1. rewrite round_down_spec by (try apply u64_range; lia). reflexivity.
  - rewrite <- H2. unfold round_up. rewrite lnot_mask by lia.
    rewrite land_mask by (try apply u64_range; lia). f_equal. f_equal.
    unfold u64. rewrite !Z.add_mod_idemp_l by lia.
    replace (p_vaddr p + load + p_filesz p + 2 ^ k - 1)
      with (p_vaddr p + load + p_filesz p + (2 ^ k - 1)) by lia.
    replace ((p_vaddr p + load + p_filesz p) mod 2 ^ 64 + 2 ^ k - 1)
      with ((p_vaddr p + load + p_filesz p) mod 2 ^ 64 + (2 ^ k - 1)) by lia.
    rewrite Z.add_mod_idemp_l by lia. reflexivity.
  - apply same_access_prot; [exact B|]. symmetry. exact H3.
Qed.

(** A mapping as recorded when /proc/pid/maps was read: nothing known about the
    file yet. *)
Definition fresh_vma (v : ovma) : Prop :=
  a_start (v_elf v) = 0 /\ a_end (v_elf v) = 0 /\ 0 <= a_prot (v_mem v) < 8.

(** What a successful matching leaves in a mapping. *)
Definition placed (pg load : Z) (phs : list phdr) (v v' : ovma) : Prop :=
  (a_prot (v_mem v) = 0 /\ v' = v) \/
  (a_prot (v_mem v) <> 0 /\ exists g, piece phs g /\ is_mapping_of pg load g (v_mem v) /\
     a_start (v_elf v') = g_vaddr g /\ a_end (v_elf v') = g_vaddr g + g_memsz g /\
     0 <= g_vaddr g /\ 0 <= g_memsz g /\
     a_start (v_mem v') = (g_vaddr g + load) mod 2 ^ 64).

Lemma parse_spec qs pg start phs vs load vs' :
  qsort_ok qs -> page_ok pg -> regular phs -> Forall fresh_vma vs ->
  (exists l, In l phs /\ p_type l = 1) ->
  parse_program_header qs pg start phs vs = (0, Some load, vs') ->
  (exists l, In l phs /\ p_type l = 1 /\
     (forall q, In q phs -> p_type q = 1 -> p_vaddr l <= p_vaddr q) /\
     load = (start - p_vaddr l / pg * pg) mod 2 ^ 64) /\
  Forall2 (placed pg load phs) vs vs'.
Proof.
  intros Q Pg Rg Fr (l0 & Hl0 & Tl0) H. unfold parse_program_header in H.
  destruct (lowest_aux phs (2 ^ 64 - 1)) as (L1 & L2 & L3). fold (lowest_vaddr phs) in *.
  pose proof Rg as (Rb & _). rewrite Forall_forall in Rb.
  destruct (Q phdr phdr_compare (filter (fun p => is_load p || is_relro p) phs)
              (phdr_preorder _)) as [P S].
  destruct (pieces_spec phs _ Rg P S) as (mh & E & Hin & Hall).
  destruct (Z.eqb_spec (lowest_vaddr phs) (2 ^ 64 - 1)) as [El|Nl]; [discriminate|].
  rewrite E in H.
  destruct (match_vmas pg (u64 (start - round_down (lowest_vaddr phs) pg)) mh vs) as [rv r] eqn:M.
  injection H as -> <- <-. split.
  - destruct L3 as [L3|(l & Hl & Tl & El)]; [congruence|].
    exists l. split; [exact Hl|]. split; [exact Tl|]. split.
    + intros q Hq Tq. rewrite <- El. apply L2; auto.
    + destruct Pg as (k & Hk & ->). rewrite El. destruct (Rb l Hl) as (B1 & B2 & B3 & _).
      rewrite round_down_spec by lia. reflexivity.
  - apply match_vmas_spec in M. revert Fr. clear - M Hin Pg.
    induction M as [|v v' vs vs' Hv M IH]; intros Fr; [constructor|].
    inversion Fr as [|? ? F1 F2]; subst. constructor; [|apply IH, F2].
    destruct Hv as [Hv|(N & p & Hp & Mp & ->)]; [left; exact Hv|right].
    split; [exact N|]. exists (seg_model p). destruct (Hin p Hp) as (Pc & B1 & B2 & B3).
    split; [exact Pc|]. split; [apply match_mapping; auto; apply F1|].
    cbn [assign v_elf v_mem a_start a_end seg_model g_vaddr g_memsz].
    rewrite u64_small by lia. repeat split; auto. unfold u64. f_equal. lia.
Qed.

(** Translation after a successful matching. *)
Lemma vaddr2addr_spec pg load phs vs vs' v :
  Forall fresh_vma vs -> Forall2 (placed pg load phs) vs vs' -> v <> 0 ->
  ((exists o, In o vs' /\ a_start (v_elf o) <= v < a_end (v_elf o)) ->
     vaddr2addr vs' v = (v + load) mod 2 ^ 64 /\
     exists g, piece phs g /\ g_vaddr g <= v < g_vaddr g + g_memsz g) /\
  ((forall o, In o vs' -> ~ (a_start (v_elf o) <= v < a_end (v_elf o))) ->
     vaddr2addr vs' v = 0).
Proof.
  intros Fr F N. unfold vaddr2addr. apply Z.eqb_neq in N. rewrite N.
  induction F as [|x x' vs vs' Hx F IH].
  - split; [intros (o & [] & _)|reflexivity].
  - inversion Fr as [|? ? F1 F2]; subst. specialize (IH F2). cbn [find].
    destruct Hx as [[E ->]|(Np & g & Pc & Mp & E1 & E2 & B1 & B2 & E3)].
    + destruct F1 as (G1 & G2 & _). rewrite G1, G2.
      assert (C : (0 <=? v) && (v <? 0) = false) by lia. rewrite C.
      split.
      * intros (o & [<-|Ho] & B); [lia|]. apply IH. exists o. auto.
      * intros Nn. apply IH. intros o Ho. apply Nn. right. exact Ho.
    + rewrite E1, E2. destruct ((g_vaddr g <=? v) && (v <? g_vaddr g + g_memsz g)) eqn:C.
      * split.
        -- intros _. split.
           ++ rewrite E1, E3. unfold u64. rewrite Z.add_mod_idemp_r by lia. f_equal. lia.
           ++ exists g. split; [exact Pc|lia].
        -- intros Nn. exfalso. apply (Nn x'); [left; reflexivity|]. rewrite E1, E2. lia.
      * split.
        -- intros (o & [<-|Ho] & B); [lia|]. apply IH. exists o. auto.
        -- intros Nn. apply IH. intros o Ho. apply Nn. right. exact Ho.
Qed.

Lemma same_access_inv fl prot : 0 <= prot < 8 -> same_access fl prot -> fl = prot2flags prot.
Proof.
  intros B E. unfold same_access in E. subst fl.
  assert (C : prot = 0 \/ prot = 1 \/ prot = 2 \/ prot = 3 \/ prot = 4 \/ prot = 5
              \/ prot = 6 \/ prot = 7) by lia.
  repeat (destruct C as [C|C]; [subst prot; reflexivity|]). subst prot. reflexivity.
Qed.

Lemma mapping_match pg load p v : page_ok pg -> 0 <= a_prot (v_mem v) < 8 ->
  is_mapping_of pg load (seg_model p) (v_mem v) -> match_ph pg load p v = true.
Proof.
  intros (k & Hk & ->) B (H1 & H2 & H3). unfold match_ph.
  unfold seg_model in *. cbn [g_vaddr g_filesz g_flags] in *.
  assert (P : 0 < 2 ^ k) by (apply Z.pow_pos_nonneg; lia).
  apply andb_true_intro; split; [apply andb_true_intro; split|]; apply Z.eqb_eq.
  - rewrite H1. rewrite round_down_spec by (try apply u64_range; lia). reflexivity.
  - rewrite H2. unfold round_up. rewrite lnot_mask by lia.
    rewrite land_mask by (try apply u64_range; lia). f_equal. f_equal.
    unfold u64. rewrite !Z.add_mod_idemp_l by lia.
    replace (p_vaddr p + load + p_filesz p + 2 ^ k - 1)
      with (p_vaddr p + load + p_filesz p + (2 ^ k - 1)) by lia.
    replace ((p_vaddr p + load + p_filesz p) mod 2 ^ 64 + 2 ^ k - 1)
      with ((p_vaddr p + load + p_filesz p) mod 2 ^ 64 + (2 ^ k - 1)) by lia.
    rewrite Z.add_mod_idemp_l by lia. reflexivity.
  - apply same_access_inv; assumption.
Qed.

Lemma parse_total qs pg start phs vs l :
  qsort_ok qs -> page_ok pg -> regular phs -> Forall fresh_vma vs ->
  In l phs -> p_type l = 1 -> (forall q, In q phs -> p_type q = 1 -> p_vaddr l <= p_vaddr q) ->
  p_vaddr l < 2 ^ 64 - 1 ->
  Forall (fun v => a_prot (v_mem v) = 0 \/ exists g, piece phs g /\
            is_mapping_of pg ((start - p_vaddr l / pg * pg) mod 2 ^ 64) g (v_mem v)) vs ->
  exists vs', parse_program_header qs pg start phs vs
              = (0, Some ((start - p_vaddr l / pg * pg) mod 2 ^ 64), vs').
Proof.
  intros Q Pg Rg Fr Hl Tl Lo Sm F. unfold parse_program_header.
  destruct (lowest_aux phs (2 ^ 64 - 1)) as (L1 & L2 & L3). fold (lowest_vaddr phs) in *.
  pose proof Rg as (Rb & _). rewrite Forall_forall in Rb.
  destruct (Q phdr phdr_compare (filter (fun p => is_load p || is_relro p) phs)
              (phdr_preorder _)) as [P S].
  destruct (pieces_spec phs _ Rg P S) as (mh & E & Hin & Hall).
  assert (El : lowest_vaddr phs = p_vaddr l).
  { pose proof (L2 l Hl Tl). destruct L3 as [L3|(q & Hq & Tq & Eq)]; [lia|].
    pose proof (Lo q Hq Tq). lia. }
  rewrite El. destruct (Z.eqb_spec (p_vaddr l) (2 ^ 64 - 1)) as [C|_]; [lia|].
  rewrite E. destruct (Rb l Hl) as (B1 & B2 & B3 & _).
  assert (Ro : round_down (p_vaddr l) pg = p_vaddr l / pg * pg).
  { destruct Pg as (k & Hk & ->). apply round_down_spec; lia. }
  rewrite Ro. change (u64 (start - p_vaddr l / pg * pg))
    with ((start - p_vaddr l / pg * pg) mod 2 ^ 64).
  generalize dependent ((start - p_vaddr l / pg * pg) mod 2 ^ 64). intros load F.
  assert (M : exists vs', match_vmas pg load mh vs = (0, vs')).
  { clear - F Fr Hall Pg. induction F as [|v vs Hv F IH]; cbn [match_vmas].
    - eexists; reflexivity.
    - inversion Fr as [|? ? F1 F2]; subst. destruct (IH F2) as [r Er]. rewrite Er.
      destruct (Z.eqb_spec (a_prot (v_mem v)) 0) as [C|C]; [eexists; reflexivity|].
      destruct Hv as [Hv|(g & Pc & Mp)]; [lia|].
      destruct (Hall g Pc) as (p & Hp & ->).
      apply mapping_match in Mp; [|exact Pg|apply F1].
      destruct (find (fun p0 => match_ph pg load p0 v) mh) as [p0|] eqn:Fd.
      + eexists; reflexivity.
      + exfalso. pose proof (find_none _ _ Fd p Hp) as Fn. cbn in Fn. congruence. }
  destruct M as [vs' M]. rewrite M. eexists. reflexivity.
Qed.
