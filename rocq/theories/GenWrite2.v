(** Writing the generated file: functions, variables, the whole. *)
From Coq Require Import String DecimalString Sorted.
From Verif Require Import Base BaseProofs StorageModel CliModel TextModel TextSpec TextProofs ParseModel ParseSpec ParseProofs RenameModel RenameSpec
  RenameProofs CmpModel DbgModel DbgProofs GenModel GenSpec GenFrame GenOther GenOut GenWrite.
Open Scope list_scope.

(** States as they are when blocks are written *)
Record writable (st : gst) : Prop := {
  wr_wf : wf st;
  wr_lines0 : lines_ok (s_0 st); wr_lines1 : lines_ok (s_1 st);
  wr_size0 : forall b, In b (g_blocks (s_0 st)) -> (b_start b <= b_end b)%nat;
  wr_size1 : forall b, In b (g_blocks (s_1 st)) -> (b_start b <= b_end b)%nat }.
Lemma writable_same st st' : wsame st st' -> writable st -> writable st'.
Proof.
  intros W [A B C D E]. pose proof (wsame_wf _ _ A W) as A'. destruct W as (W0 & W1). split; auto.
  - unfold lines_ok. now rewrite (fs_lines _ _ W0).
  - unfold lines_ok. now rewrite (fs_lines _ _ W1).
  - intros b I. destruct (fsame_in _ _ _ W0 I) as (c & J & U). apply D in J. apply unh_fields in U as ((S & T & _)%alike_fields & _). lia.
  - intros b I. destruct (fsame_in _ _ _ W1 I) as (c & J & U). apply E in J. apply unh_fields in U as ((S & T & _)%alike_fields & _). lia.
Qed.
Record writes (st st' : gst) (n' : Z) (t : text) : Prop := {
  wt_same : wsame st st'; wt_n : s_nsyms st' = n'; wt_out : s_out st' = s_out st ++ t }.
Lemma writes_emits st st' t : emits st st' t -> writes st st' (s_nsyms st) t.
Proof. intros E. split; [eapply wsame_emits; eauto|apply E|apply E]. Qed.
Lemma writes_trans a b c n n' t u : writes a b n t -> writes b c n' u -> writes a c n' (t ++ u).
Proof. intros [] []. split; [eapply wsame_trans; eauto|auto|]. rewrite app_assoc. congruence. Qed.
Lemma btype_beq_eq a b : btype_beq a b = true <-> a = b.
Proof. destruct a, b; split; intros H; try reflexivity; discriminate H. Qed.

Lemma cblock_gen_spec o got b1 st st' : writable st -> In b1 (g_blocks (s_1 st)) -> cblock_gen o got b1 st = Ok st' ->
  exists p, writes st st' (s_nsyms st) p /\ replaced o (s_1 st) (rename_find (g_ren (s_1 st))) got b1 p.
Proof.
  intros W I H. unfold cblock_gen in H. destruct (nth_error _ _) as [x|] eqn:N; [|discriminate].
  bind H as st3 E3. injection H as <-.
  destruct (change_section_spec o true (l_sect x) st) as (h & Eh & Gh). set (st1 := change_section o true (l_sect x) st) in *.
  set (gl := if go_global o then match b_type b1 with BFunc => line_of ".globl" (9 :: txt (b_name b1) ++ str ".kpatch") | _ => [] end else []).
  match type of E3 with gen_lines _ _ _ _ _ _ ?s = _ => assert (Eg : emits st1 s gl) end.
  { unfold gl. destruct (go_global o); cbn [andb]; [|apply emits_refl].
    destruct (b_type b1) eqn:T; cbn [btype_beq]; try apply emits_refl. 
    unfold line_of. replace (9 :: str ".globl" ++ (9 :: txt (b_name b1) ++ str ".kpatch") ++ [10]) with (tab ++ str ".globl" ++ tab ++ name b1 ++ str ".kpatch" ++ lf);
      [apply emits_emit|]. unfold tab, lf, name. cbn [app]. now rewrite <- !app_assoc. }
  eapply gen_lines_spec in E3; [|apply W|apply blines_skipn; now apply (wr_size1 _ W)]. destruct E3 as (t & Et & Rt).
  rewrite <- follower_number in Rt.
  exists (h ++ gl ++ t ++ match b_type b1 with BFunc => label_of (txt (b_name b1) ++ str ".kpatch_end") | _ => [] end ++ line_of ".popsection" []).
  split; [|exists x, h, t; auto].
  eapply writes_trans; [apply writes_emits; exact Eh|].
  replace (s_nsyms st) with (s_nsyms st1) by apply Eh.
  eapply writes_trans; [apply writes_emits; exact Eg|]. eapply writes_trans; [apply writes_emits; exact Et|].
  split; [|cbn [upd1 with_1 s_nsyms emit]|].
  - eapply wsame_trans; [|apply wsame_upd1]. destruct (btype_beq (b_type b1) BFunc); (split; [apply fsame_refl|apply fsame_refl]).
  - transitivity (s_nsyms st3); [|rewrite (em_n _ _ _ Et); apply Eg]. destruct (btype_beq (b_type b1) BFunc); reflexivity.
  - cbn [upd1 with_1 s_out emit]. destruct (b_type b1); cbn [btype_beq s_out emit]; unfold label_of, line_of, tab, lf, name; cbn [app];
      rewrite <- ?app_assoc; reflexivity.
Qed.
Ltac plain := repeat match goal with |- context [str ?s] => is_ground s; let v := eval vm_compute in (str s) in change (str s) with v end;
  cbn [app]; repeat (progress (rewrite <- ?app_assoc; cbn [app])); rewrite ?app_nil_r; cbn [app].
Lemma info_text o n bnm nm orig : info_of o n bnm nm orig (new_function_info o bnm nm orig n).
Proof.
  unfold info_of, new_function_info, print_int, entry_of, address, label_of, field, line_of, tab, lf.
  generalize (str (NilZero.string_of_int (Z.to_int n))). intros k.
  destruct orig as [d|], (go_32 o); cbn [app map snd concat]; plain; reflexivity.
Qed.
Lemma write_new_function_spec o b1 st st' : writable st -> In b1 (g_blocks (s_1 st)) -> write_new_function o b1 st = Ok st' ->
  exists p orig, writes st st' (s_nsyms st + 1) p /\ function_of o (s_1 st) (rename_find (g_ren (s_1 st))) b1 orig (s_nsyms st) p
    /\ match b_pair b1 with
       | Some s0 => if b_unlink b1 then orig = None else exists b0, getb (s_0 st) s0 = Some b0 /\ orig = Some (name b0)
       | None => orig = None
       end.
Proof.
  intros W I H. unfold write_new_function in H. bind H as st1 E1. bind H as orig Eo. injection H as <-.
  destruct (cblock_gen_spec _ _ _ _ _ W I E1) as (p & Wp & Rp).
  exists (p ++ 10 :: new_function_info o (renamed (g_ren (s_1 st)) (name b1)) (name b1) orig (s_nsyms st + 1)), orig. split; [|split].
  - eapply writes_trans; [exact Wp|]. split; [split; apply fsame_refl|cbn; f_equal; apply Wp|].
    cbn [emit next_sym s_out s_nsyms]. rewrite (wt_n _ _ _ _ Wp). rewrite <- app_assoc. reflexivity.
  - exists p, (new_function_info o (renamed (g_ren (s_1 st)) (name b1)) (name b1) orig (s_nsyms st + 1)), (renamed (g_ren (s_1 st)) (name b1)).
    split; [apply called_renamed|]. split; auto. split; [apply info_text|reflexivity].
  - revert Eo. destruct (b_pair b1) as [s0|]; [|intros Q; injection Q as <-; reflexivity].
    destruct (b_unlink b1); [intros Q; injection Q as <-; reflexivity|].
    destruct (getb (s_0 st) s0) as [b0|]; [|discriminate]. intros Q. injection Q as <-. exists b0. now split.
Qed.
Lemma pair_globl_spec st b0 : wf st -> In b0 (g_blocks (s_0 st)) ->
  pair_globl b0 st = true <-> exists b1, joined st b0 b1 /\ b_globl b1 = true.
Proof.
  intros W I. unfold pair_globl, pair1. split.
  - destruct (b_pair b0) as [s|] eqn:P; [|discriminate]. destruct (getb (s_1 st) s) as [b1|] eqn:G; [|discriminate].
    intros H. apply getb_in in G as (J & <-). exists b1. split; auto. now split.
  - intros (b1 & (_ & J & P) & H). rewrite P, (getb_of _ _ (wf_1 _ W) J). exact H.
Qed.
Lemma write_var_spec o b0 st st' : writable st -> In b0 (g_blocks (s_0 st)) -> b_type b0 = BVar -> write_var b0 st = Ok st' ->
  exists p n', writes st st' n' p /\ original_part o st b0 (s_nsyms st) n' p.
Proof.
  intros W I T H. unfold write_var in H. bind H as t Et. injection H as <-.
  apply cblock_text_printed in Et; [|apply W|now apply (wr_size0 _ W)].
  set (g := if pair_globl b0 st && negb (b_globl b0) then tab ++ str ".globl " ++ name b0 ++ lf else []).
  exists (remark "var ---------" ++ g ++ t), (s_nsyms st). split.
  - split.
    + eapply wsame_trans; [|destruct (b_pair b0); [apply wsame_upd1|apply wsame_refl]].
      eapply wsame_trans; [|apply wsame_upd0]. split; apply fsame_refl.
    + destruct (b_pair b0); reflexivity.
    + destruct (b_pair b0); cbn [upd0 upd1 with_0 with_1 emit s_out]; unfold g, remark; plain; reflexivity.
  - unfold original_part. rewrite T. exists g, t, []. split; [now rewrite app_nil_r|]. split; [|split; [exact Et|]].
    + unfold has_globl. rewrite <- (pair_globl_spec st b0 (wr_wf _ W) I). unfold g. destruct (pair_globl b0 st), (b_globl b0); cbn [andb negb].
      * right. split; auto. intros [(_ & Q)|(Q & _)]; congruence.
      * left. split; [right; auto|]. exists 32. split; [right; now left|]. unfold line_of, tab, lf, name. plain. reflexivity.
      * right. split; auto. intros [(_ & Q)|(Q & _)]; congruence.
      * right. split; auto. intros [(_ & Q)|(_ & Q)]; congruence.
    + right. split; [|auto]. intros (Q & _). congruence.
Qed.
Lemma write_func_spec o b0 st st' : writable st -> (forall b1, joined st b0 b1 -> b_pair b1 = Some (b_start b0)) ->
  In b0 (g_blocks (s_0 st)) -> b_type b0 = BFunc -> write_func o b0 st = Ok st' ->
  exists p n', writes st st' n' p /\ original_part o st b0 (s_nsyms st) n' p.
Proof.
  intros W Bk I T H. unfold write_func in H. bind H as t Et.
  apply cblock_text_printed in Et; [|apply W|now apply (wr_size0 _ W)].
  set (g := if go_global o || (pair_globl b0 st && negb (b_globl b0)) then tab ++ str ".globl" ++ tab ++ name b0 ++ lf else []) in *.
  set (st1 := upd0 (b_start b0) set_handled (emit (str "#---------- func ---------" ++ lf ++ g ++ t) st)) in *.
  assert (W1 : writes st st1 (s_nsyms st) (remark "func ---------" ++ g ++ t)).
  { split; [eapply wsame_trans; [|apply wsame_upd0]; split; apply fsame_refl|reflexivity|].
    unfold st1. cbn [upd0 with_0 emit s_out]. unfold remark. plain. reflexivity. }
  assert (G : (has_globl o st b0 /\ exists w, In w [9; 32] /\ g = line_of ".globl" (w :: txt (b_name b0))) \/ (~ has_globl o st b0 /\ g = [])).
  { assert (X : g = line_of ".globl" (9 :: txt (b_name b0)) \/ g = []).
    { unfold g. destruct (_ || _); [left|now right]. unfold line_of, tab, lf, name. plain. reflexivity. }
    unfold has_globl. rewrite <- (pair_globl_spec st b0 (wr_wf _ W) I). unfold g.
    destruct (go_global o), (pair_globl b0 st), (b_globl b0); cbn [orb andb negb];
      (solve [left; split; [auto|]; exists 9; split; [now left|]; unfold line_of, tab, lf, name; plain; reflexivity
             |right; split; [intros [(Q & _)|(Q & Q')]; congruence|reflexivity]]). }
  unfold original_part. rewrite T.
  destruct (b_pair b0) as [s1|] eqn:P.
  - set (st2 := upd1 s1 set_handled st1) in *.
    assert (W2 : writes st st2 (s_nsyms st) (remark "func ---------" ++ g ++ t)).
    { split; [eapply wsame_trans; [apply W1|apply wsame_upd1]|reflexivity|apply W1]. }
    pose proof (writable_same _ _ (wt_same _ _ _ _ W2) W) as Ww2.
    destruct (getb (s_1 st2) s1) as [c1|] eqn:Gc; [|discriminate]. apply getb_in in Gc as (Ic & Sc).
    destruct (fsame_in _ _ _ (proj2 (wt_same _ _ _ _ W2)) Ic) as (b1 & I1 & U1).
    assert (J : joined st b0 b1).
    { split; auto. split; auto. rewrite P, <- Sc. f_equal. now apply unh_fields in U1 as ((Q & _)%alike_fields & _). }
    destruct (unh_fields _ _ U1) as (A1 & Ig & Un & Pa).
    assert (Uniq : forall b, joined st b0 b -> b = b1).
    { intros b (_ & Ib & Pb). apply (nodup_start (g_blocks (s_1 st))); auto; [apply W|].
      destruct J as (_ & _ & Pj). congruence. }
    destruct (b_ignore c1 || b_unlink c1) eqn:D.
    + injection H as <-. exists (remark "func ---------" ++ g ++ t), (s_nsyms st). split; auto.
      exists g, t, []. split; [now rewrite app_nil_r|]. split; auto. split; auto. right. split; auto.
      intros (_ & b & Jb & Q1 & Q2). apply Uniq in Jb. subst b. rewrite <- Ig, <- Un, Q1, Q2 in D. discriminate.
    + apply orb_false_iff in D as (D1 & D2). bind H as st3 E3. injection H as <-.
      match type of E3 with write_new_function _ _ ?s = _ => set (st2' := s) in * end.
      assert (Wt : writes st2 st2' (s_nsyms st2) (line_of ".text" [] ++ label_of (txt (b_name b0) ++ str ".Lfe") ++ remark "kpatch begin ---------")).
      { split; [split; apply fsame_refl|reflexivity|]. unfold st2'. cbn [emit s_out]. f_equal. unfold line_of, label_of, remark, tab, lf, name.
        plain. reflexivity. }
      pose proof (writable_same _ _ (wt_same _ _ _ _ Wt) Ww2) as Ww2'.
      destruct (write_new_function_spec o c1 st2' st3 Ww2' Ic E3) as (c & orig & Wc & Fc & Oc).
      rewrite <- Pa, (Bk b1 J) in Oc. rewrite D2 in Oc. destruct Oc as (d0 & Gd & ->).
      assert (name d0 = txt (b_name b0)).
      { apply getb_in in Gd as (Id & Sd).
        destruct (fsame_in _ _ _ (proj1 (wsame_trans _ _ _ (wt_same _ _ _ _ W2) (wt_same _ _ _ _ Wt))) Id) as (e0 & Ie & Ue).
        apply unh_fields in Ue as ((Qs & _ & Qn & _)%alike_fields & _). unfold name. rewrite <- Qn. do 2 f_equal.
        apply (nodup_start (g_blocks (s_0 st))); auto; [apply W|congruence]. }
      exists ((remark "func ---------" ++ g ++ t) ++ (line_of ".text" [] ++ label_of (txt (b_name b0) ++ str ".Lfe") ++ remark "kpatch begin ---------")
              ++ c ++ remark "kpatch end -----------"), (s_nsyms st + 1).
      split.
      * eapply writes_trans; [exact W2|]. eapply writes_trans; [exact Wt|]. eapply writes_trans; [exact Wc|].
        split; [split; apply fsame_refl|cbn [emit s_nsyms]; now rewrite (wt_n _ _ _ _ Wc)|]. cbn [emit s_out]. f_equal.
      * exists g, t, ((line_of ".text" [] ++ label_of (txt (b_name b0) ++ str ".Lfe") ++ remark "kpatch begin ---------")
              ++ c ++ remark "kpatch end -----------").
        split; [now rewrite <- !app_assoc|]. split; auto. split; auto. left. exists b1, c.
        split; auto. split; auto. split; [congruence|]. split; [congruence|]. split; [|split; [reflexivity|now rewrite <- !app_assoc]].
        rewrite <- H. assert (Ws : fsame (s_1 st2') (s_1 st)) by (apply fsame_sym; exact (proj2 (wsame_trans _ _ _ (wt_same _ _ _ _ W2) (wt_same _ _ _ _ Wt)))).
        rewrite (fs_ren _ _ Ws). eapply function_of_same; [apply Ws|symmetry; exact U1|]. exact Fc.
  - injection H as <-. exists (remark "func ---------" ++ g ++ t), (s_nsyms st). split; auto.
    exists g, t, []. split; [now rewrite app_nil_r|]. split; auto. split; auto. right. split; auto.
    intros (_ & b & (_ & _ & Pb) & _). congruence.
Qed.
