(** C42 of one function: a function that does not differ is left alone, whatever else in
    the two files does. *)
From Coq Require Import String.
From Verif Require Import Base BaseProofs StorageModel StorageProofs CliModel TextModel TextSpec TextProofs ParseModel ParseSpec RenameModel RenameSpec RenameProofs
  CmpModel CmpSpec CmpProofs GenModel GenSpec GenTwinSpec GenFrame GenLoad GenOut GenWhole GenNames GenTwin GenProperties.
Open Scope list_scope.

(** ** C42: the function is written as it was, without a replacement, and is not put in the
    patch any other way.  [unchanged]: the words of its lines with code mean the same:
    names that the compiler numbered anew stand for one another when what they name was
    joined.  The functions it calls may have changed themselves. *)
Theorem C42_unchanged_function : forall a o buf i0 i1 out, gensrc a o buf i0 i1 = Ok out ->
  exists f0 f1 st, run_of a o buf i0 i1 f0 f1 st /\ output_of o st out
    /\ (labels_apart f0 -> labels_apart f1 -> labels_once f0 -> labels_once f1 ->
        forall b0 b1, joined st b0 b1 -> b_type b0 = BFunc -> b_type b1 = BFunc ->
          (* the user did not ask for it to be unlinked *)
          in_syms_list None (g_base (s_1 st)) (txt (b_hname b1)) (go_unlink o) = false ->
          unchanged o f0 f1 st b0 b1 ->
          (forall n n' p, original_part o st b0 n n' p -> as_it_was o st b0 n n' p)
          /\ (forall n n' p, new_part o st b1 n n' p -> n' = n /\ p = [])
          /\ (forall m n n' p, unlinked_part o st m b1 n n' p -> n' = n /\ p = [])).
Proof. exact unchanged_left. Qed.
Print Assumptions C42_unchanged_function.

(** *** Computing whether a function differs *)
Definition toks_of (s : text) : list text := match tokens s with Ok ts => map txt ts | _ => [] end.
Definition known_b (f : gfile) (n : text) : bool :=
  existsb (fun b => same (txt (b_name b)) n || (btype_beq (b_type b) BFunc && existsb (fun x => same (label_name x) n) (labels (blines f b)))) (g_blocks f).
Lemma known_b_ok f n : known_b f n = false -> ~ known f n.
Proof.
  intros H (b & Ib & K). apply not_true_iff_false in H. apply H. unfold known_b. apply existsb_exists. exists b. split; auto. apply orb_true_iff.
  destruct K as [K|(T & i & L)]; [left; now apply same_spec|right]. apply nth_label_in in L as (x & Ix & ->). rewrite T. cbn [btype_beq andb].
  apply existsb_exists. exists x. split; auto. apply same_refl.
Qed.
Definition once_b (f : gfile) : bool :=
  let ls := flat_map (fun b => if btype_beq (b_type b) BFunc then map label_name (labels (blines f b)) else []) (g_blocks f) in
  (fix go l := match l with [] => true | x :: r => negb (existsb (same x) r) && go r end) ls.
Lemma once_nodup_b (l : list text) : (fix go l := match l with [] => true | x :: r => negb (existsb (same x) r) && go r end) l = true -> NoDup l.
Proof.
  induction l as [|x r IH]; intros H; [constructor|]. apply andb_true_iff in H as (A & B). constructor; auto. intros I. apply negb_true_iff, not_true_iff_false in A.
  apply A. apply existsb_exists. exists x. split; auto. apply same_refl.
Qed.
Lemma once_b_ok f : NoDup (starts_of f) -> once_b f = true -> labels_once f.
Proof.
  intros Nd H b c i j n Ib Ic Tb Tc Hb Hc. apply once_nodup_b in H. apply nth_label_nth in Hb as (x & Hx & ->), Hc as (y & Hy & Ey).
  revert Nd H Ib Ic. unfold starts_of. generalize (g_blocks f) as bs. induction bs as [|d bs IH]; intros Nd H Ib Ic; [contradiction|]. inversion Nd; subst.
  cbn [flat_map] in H. set (g := fun b => if btype_beq (b_type b) BFunc then map label_name (labels (blines f b)) else []) in *.
  change (NoDup (g d ++ flat_map g bs)) in H.
  assert (Hm : forall e k z, b_type e = BFunc -> nth_error (labels (blines f e)) k = Some z -> In (label_name z) (g e)).
  { intros e k z Te Q. unfold g. rewrite Te. cbn [btype_beq]. apply in_map. eapply nth_error_In; eauto. }
  assert (Ap : forall (l1 l2 : list text) t, NoDup (l1 ++ l2) -> In t l1 -> In t l2 -> False).
  { induction l1 as [|z l1 I1]; intros l2 t N A B; [contradiction|]. cbn in N. inversion N; subst. destruct A as [->|A]; [|eauto]. match goal with H : ~ In _ _ |- _ => apply H end. apply in_or_app. now right. }
  destruct Ib as [->|Ib], Ic as [->|Ic].
  - split; auto. assert (N : NoDup (g c)) by (clear -H; induction (g c) as [|z l I1]; [constructor|]; cbn in H; inversion H; subst; constructor; auto; intros Z; apply H2, in_or_app; now left).
    unfold g in N. rewrite Tc in N. cbn [btype_beq] in N. rewrite NoDup_nth_error in N. apply N.
    + rewrite map_length. apply nth_error_Some. congruence.
    + rewrite (map_nth_error _ _ _ Hx), (map_nth_error _ _ _ Hy). congruence.
  - exfalso. apply (Ap _ _ (label_name x) H); [eapply Hm; eauto|]. apply in_flat_map. exists c. split; auto. rewrite Ey. eapply Hm; eauto.
  - exfalso. apply (Ap _ _ (label_name y) H); [eapply Hm; eauto|]. apply in_flat_map. exists b. split; auto. rewrite <- Ey. eapply Hm; eauto.
  - apply IH; auto. clear -H. induction (g d) as [|z l I1]; auto. cbn in H. inversion H; subst. auto.
Qed.
Definition nonempty (t : text) : bool := match t with [] => false | _ => true end.
Definition nth_b (f : gfile) (b : cblock) (i : nat) (n : text) : bool :=
  match nth_error (labels (blines f b)) i with Some x => same (label_name x) n | None => false end.
Lemma nth_b_ok f b i n : nth_b f b i n = true -> nth_label f b i n.
Proof. unfold nth_b. intros H. destruct (nth_error _ _) as [x|] eqn:E; [|discriminate]. apply same_spec in H. subst. now apply nth_label_of. Qed.
Definition joined_b (c0 c1 : cblock) : bool := match b_pair c0 with Some s => Nat.eqb s (b_start c1) | None => false end.
Definition meaning_b (f0 f1 : gfile) (st : gst) (b0 b1 : cblock) (t0 t1 : text) : bool :=
  (same t0 t1 && negb (known_b f0 t0) && negb (known_b f1 t1))
  || (existsb (fun i => nth_b (s_0 st) b0 i t0 && nth_b (s_1 st) b1 i t1) (seq 0 (length (labels (blines (s_0 st) b0))))
      && negb (same t0 (txt (b_name b0))) && negb (same t1 (txt (b_name b1))) && nonempty t0)
  || existsb (fun c0 => existsb (fun c1 => joined_b c0 c1
         && forallb (fun d0 => negb (joined_b d0 c1) || Nat.eqb (b_start d0) (b_start c0)) (g_blocks (s_0 st))
         && same t0 (txt (b_name c0)) && same t1 (txt (b_name c1)) && nonempty t0 && nonempty t1 && negb (existsb (Z.eqb 0) t0)
         && ((btype_beq (b_type c0) BVar && btype_beq (b_type c1) BVar) || (btype_beq (b_type c0) BFunc && btype_beq (b_type c1) BFunc)))
       (g_blocks (s_1 st))) (g_blocks (s_0 st)).
Lemma nonempty_ok t : nonempty t = true -> t <> [].
Proof. now destruct t. Qed.
Lemma not_same a b : negb (same a b) = true -> a <> b.
Proof. intros H ->. now rewrite same_refl in H. Qed.
Lemma meaning_b_ok o f0 f1 st b0 b1 t0 t1 : go_ignore o = [] -> go_conf o = None -> meaning_b f0 f1 st b0 b1 t0 t1 = true -> same_meaning o f0 f1 st b0 b1 t0 t1.
Proof.
  intros Og Oc H. unfold meaning_b in H. apply orb_true_iff in H as [H|H]; [apply orb_true_iff in H as [H|H]|].
  - left. apply andb_true_iff in H as (H & H2). apply andb_true_iff in H as (H & H1). apply negb_true_iff in H1, H2. apply same_spec in H. split; auto.
    split; now apply known_b_ok.
  - right. left. apply andb_true_iff in H as (H & H3). apply andb_true_iff in H as (H & H2). apply andb_true_iff in H as (H & H1).
    apply existsb_exists in H as (i & _ & H). apply andb_true_iff in H as (L0 & L1). exists i. split; [now apply nth_b_ok|]. split; [now apply nth_b_ok|].
    split; [now apply not_same|]. split; [now apply not_same|]. now apply nonempty_ok.
  - right. right. apply existsb_exists in H as (c0 & I0 & H). apply existsb_exists in H as (c1 & I1 & H).
    repeat (apply andb_true_iff in H as (H & ?)). exists c0, c1.
    assert (Jb : forall d0, joined_b d0 c1 = true <-> b_pair d0 = Some (b_start c1)).
    { intros d0. unfold joined_b. destruct (b_pair d0); split; intros Q; try discriminate; [apply Nat.eqb_eq in Q; congruence|injection Q as ->; apply Nat.eqb_refl]. }
    split; [split; auto; split; auto; now apply Jb|]. rewrite forallb_forall in H6.
    split; [intros d0 (D0 & _ & Dp); specialize (H6 d0 D0); apply Jb in Dp; rewrite Dp in H6; cbn in H6; now apply Nat.eqb_eq|].
    split; [now apply same_spec|]. split; [now apply same_spec|]. split; [now apply nonempty_ok|]. split; [now apply nonempty_ok|].
    split.
    { intros Z. apply negb_true_iff, not_true_iff_false in H1. apply H1. apply existsb_exists. exists 0. auto. }
    assert (Tl : ~ to_leave o st c1) by (intros Q; unfold to_leave in Q; rewrite Og, Oc in Q; discriminate Q).
    apply orb_true_iff in H0 as [Q|Q]; apply andb_true_iff in Q as (Q0 & Q1); [left|right].
    + split; [destruct (b_type c0)|destruct (b_type c1)]; try discriminate; reflexivity.
    + split; [destruct (b_type c0)|split; [destruct (b_type c1)|]]; try discriminate; try reflexivity. intros Q. contradiction.
Qed.
Definition line_b (f0 f1 : gfile) (st : gst) (b0 b1 : cblock) (x0 x1 : line) : bool :=
  same (sc_name (l_sect x0)) (sc_name (l_sect x1))
  && match tokens (l_text x0), tokens (l_text x1) with
     | Ok ts0, Ok ts1 => Nat.eqb (length ts0) (length ts1) && forallb (fun z => meaning_b f0 f1 st b0 b1 (fst z) (snd z)) (combine (map txt ts0) (map txt ts1))
     | _, _ => false
     end.
Definition unchanged_b (f0 f1 : gfile) (st : gst) (b0 b1 : cblock) : bool :=
  let k0 := filter code_line (blines (s_0 st) b0) in let k1 := filter code_line (blines (s_1 st) b1) in
  Nat.eqb (length k0) (length k1) && forallb (fun z => line_b f0 f1 st b0 b1 (fst z) (snd z)) (combine k0 k1).
Lemma forall2_b {A} (R : A -> A -> Prop) (r : A -> A -> bool) : (forall a b, r a b = true -> R a b) -> forall l m, length l = length m ->
  forallb (fun z => r (fst z) (snd z)) (combine l m) = true -> Forall2 R l m.
Proof. intros K. induction l as [|a l IH]; intros [|b m] L H; try discriminate; constructor; cbn in H; apply andb_true_iff in H as (A0 & B); auto. Qed.
Lemma filter_code ls : code_of ls (filter code_line ls).
Proof.
  induction ls as [|x ls IH]; cbn [filter]; [constructor|]. destruct (code_line x) eqn:E; [apply co_keep|apply co_skip]; auto; unfold code_line in E.
  - apply negb_true_iff in E. apply (cmp_skip_head [x] x []). cbn. now rewrite E.
  - apply negb_false_iff in E. destruct (cmp_skip_split [x]) as (p & Fp & Ep). cbn in Ep. rewrite E in Ep. destruct p; [discriminate|]. injection Ep as <- _. now inversion Fp.
Qed.
Lemma unchanged_b_ok o f0 f1 st b0 b1 : go_ignore o = [] -> go_conf o = None -> unchanged_b f0 f1 st b0 b1 = true -> unchanged o f0 f1 st b0 b1.
Proof.
  intros Og Oc H. unfold unchanged_b in H. apply andb_true_iff in H as (L & H). apply Nat.eqb_eq in L.
  exists (filter code_line (blines (s_0 st) b0)), (filter code_line (blines (s_1 st) b1)). split; [apply filter_code|]. split; [apply filter_code|].
  apply (forall2_b _ (line_b f0 f1 st b0 b1)); auto. intros x0 x1 Q. unfold line_b in Q. apply andb_true_iff in Q as (S & Q). apply same_spec in S.
  split; [now left|]. right. destruct (tokens (l_text x0)) as [ts0| | |] eqn:E0; try discriminate. destruct (tokens (l_text x1)) as [ts1| | |] eqn:E1; try discriminate.
  apply andb_true_iff in Q as (Ll & Q). apply Nat.eqb_eq in Ll. exists (map txt ts0), (map txt ts1).
  split; [apply has_tokens_toks; eapply toks_fuel; exact E0|]. split; [apply has_tokens_toks; eapply toks_fuel; exact E1|].
  apply (forall2_b _ (meaning_b f0 f1 st b0 b1)); [|now rewrite !map_length|exact Q]. intros t0 t1. now apply meaning_b_ok.
Qed.

(** Between the two files [baz] changed; the part the compiler split from [foo], the
    variable and the labels were numbered anew, and [bar] uses all of them and calls
    [baz]. *)
Definition tw_old : string := ex_head ++ ex_var "x.1" "1" ++ ex_fun "foo.part.0" "	incl	%eax
" ++ ex_fun "bar" ".L2:
	movl	x.1(%rip), %eax
	call	foo.part.0
	call	baz
	jmp	.L2
" ++ ex_fun "baz" "	decl	%eax
" ++ ex_tail.
Definition tw_new : string := ex_head ++ ex_var "x.2" "1" ++ ex_fun "baz" ".L2:
	decl	%eax
	jne	.L2
" ++ ex_fun "foo.part.1" "	incl	%eax
" ++ ex_fun "bar" ".L3:
	movl	x.2(%rip), %eax
	call	foo.part.1
	call	baz
	jmp	.L3
" ++ ex_tail.
Definition no_dup (l : list nat) : bool := (fix go l := match l with [] => true | x :: r => negb (existsb (Nat.eqb x) r) && go r end) l.
Lemma no_dup_ok l : no_dup l = true -> NoDup l.
Proof.
  unfold no_dup. induction l as [|x r IH]; intros H; [constructor|]. apply andb_true_iff in H as (A & B). constructor; auto. intros I. apply negb_true_iff, not_true_iff_false in A.
  apply A. apply existsb_exists. exists x. split; auto. apply Nat.eqb_refl.
Qed.
Example C42_unchanged_case : exists f0 f1 st out b0 b1,
  gensrc px86 opt 4095 (inp tw_old) (inp tw_new) = Ok out /\ run_of px86 opt 4095 (inp tw_old) (inp tw_new) f0 f1 st
  /\ labels_apart f0 /\ labels_apart f1 /\ labels_once f0 /\ labels_once f1
  /\ joined st b0 b1 /\ named b0 "bar" /\ named b1 "bar" /\ b_type b0 = BFunc /\ b_type b1 = BFunc
  /\ in_syms_list None (g_base (s_1 st)) (txt (b_hname b1)) (go_unlink opt) = false
  /\ unchanged opt f0 f1 st b0 b1 /\ blines f0 b0 <> blines f1 b1
  /\ contains out (str "bar.kpatch") = false /\ contains out (str "baz.kpatch:") = true.
Proof.
  pose (l0 := load px86 4095 predefined (inp tw_old)).
  pose (tb := match l0 with Ok (_, _, t) => t | _ => [] end). pose (ms0 := match l0 with Ok (m, _, _) => m | _ => [] end).
  pose (ls0 := match l0 with Ok (_, l, _) => l | _ => [] end).
  pose (l1 := load px86 4095 tb (inp tw_new)).
  pose (tb1 := match l1 with Ok (_, _, t) => t | _ => [] end). pose (ms1 := match l1 with Ok (m, _, _) => m | _ => [] end).
  pose (ls1 := match l1 with Ok (_, l, _) => l | _ => [] end).
  pose (no := {| g_lines := []; g_blocks := []; g_ren := []; g_dir := []; g_base := [] |}).
  pose (f0 := match file_of px86 (inp tw_old) ls0 with Ok f => f | _ => no end).
  pose (f1 := match file_of px86 (inp tw_new) ls1 with Ok f => f | _ => no end).
  pose (st := match analyze opt (start f0 f1) with Ok s => s | _ => start no no end).
  pose (out := match gensrc px86 opt 4095 (inp tw_old) (inp tw_new) with Ok s => s | _ => [] end).
  pose (b := fun (n : string) (f : gfile) => match find_by_name (g_blocks f) (str n) with Some b => b | None => nth 0 (g_blocks f) (Build_cblock 0 0 kempty kempty false BOther false false false false None None) end).
  exists f0, f1, st, out, (b "bar"%string (s_0 st)), (b "bar"%string (s_1 st)).
  split; [vm_compute; reflexivity|].
  split; [split; [exists ms0, ls0, tb; split; [vm_compute; reflexivity|]; split; [vm_compute; reflexivity|];
                  exists ms1, ls1, tb1; split; vm_compute; reflexivity|vm_compute; reflexivity]|].
  split; [apply apart_b_ok; vm_compute; reflexivity|]. split; [apply apart_b_ok; vm_compute; reflexivity|].
  split; [apply once_b_ok; [apply no_dup_ok|]; vm_compute; reflexivity|]. split; [apply once_b_ok; [apply no_dup_ok|]; vm_compute; reflexivity|].
  split; [split; [vm_compute; auto 20|split; [vm_compute; auto 20|vm_compute; reflexivity]]|].
  split; [vm_compute; reflexivity|]. split; [vm_compute; reflexivity|]. split; [vm_compute; reflexivity|]. split; [vm_compute; reflexivity|].
  split; [vm_compute; reflexivity|]. split; [apply unchanged_b_ok; [reflexivity|reflexivity|vm_compute; reflexivity]|].
  split; [vm_compute; discriminate|]. split; vm_compute; reflexivity.
Qed.
