(** Proofs about kpatch_gensrc as a program. *)
From Coq Require Import String.
From Verif Require Import Base BaseProofs StorageModel CcModel CcSpec TextModel DbgModel GenModel GenMainModel GenMainSpec.
Open Scope list_scope.

(** ** The command line *)
Lemma cut_plain s v : ~ In 61 s -> cut (s ++ 61 :: v) = (s, Some v).
Proof. induction s as [|c r IH]; intros H; cbn; [reflexivity|]. destruct (Z.eqb_spec c 61) as [->|N]; [exfalso; apply H; left; reflexivity|]. rewrite IH; [reflexivity|]. intros I. apply H. right. exact I. Qed.
Lemma cut_none s : ~ In 61 s -> cut s = (s, None).
Proof. induction s as [|c r IH]; intros H; cbn; [reflexivity|]. destruct (Z.eqb_spec c 61) as [->|N]; [exfalso; apply H; left; reflexivity|]. rewrite IH; [reflexivity|]. intros I. apply H. right. exact I. Qed.

Ltac lf := eexists; split; [match goal with |- str ?s = _ => let v := eval vm_compute in (skipn 2 (str s)) in instantiate (1 := v); vm_compute; reflexivity end|]; split; [vm_compute; reflexivity|]; split; [|discriminate].
Definition cons_opt (o : opt) (r : list opt * list text) : list opt * list text := let '(os, ops) := r in (o :: os, ops).
Lemma scan_long_flag n o r : long n = Some (KFlag o) -> ~ In 61 n -> n <> [] -> scan ((str "--" ++ n) :: r) = cons_opt o (scan r).
Proof.
  intros L E N. destruct n as [|c n]; [contradiction N; reflexivity|]. cbn [app]. change (str "--") with [45; 45]. cbn [app scan].
  change (45 =? 45) with true. cbn [negb]. cbn [list_eqb str]. change (list_eqb (45 :: 45 :: c :: n) (str "--")) with false.
  change (begins (str "--") (45 :: 45 :: c :: n)) with true. cbv iota. cbn [skipn]. rewrite cut_none by exact E. rewrite L. reflexivity.
Qed.
Lemma scan_long_next n f v r : long n = Some (KArg f) -> ~ In 61 n -> n <> [] -> scan ((str "--" ++ n) :: v :: r) = cons_opt (f v) (scan r).
Proof.
  intros L E N. destruct n as [|c n]; [contradiction N; reflexivity|]. cbn [app]. change (str "--") with [45; 45]. cbn [app scan].
  change (45 =? 45) with true. cbn [negb]. change (list_eqb (45 :: 45 :: c :: n) (str "--")) with false.
  change (begins (str "--") (45 :: 45 :: c :: n)) with true. cbv iota. cbn [skipn]. rewrite cut_none by exact E. rewrite L. reflexivity.
Qed.
Lemma scan_long_joined n f v r : long n = Some (KArg f) -> ~ In 61 n -> n <> [] -> scan ((str "--" ++ n ++ str "=" ++ v) :: r) = cons_opt (f v) (scan r).
Proof.
  intros L E N. destruct n as [|c n]; [contradiction N; reflexivity|]. change (str "--") with [45; 45]. change (str "=") with [61]. cbn [app scan].
  change (45 =? 45) with true. cbn [negb]. change (list_eqb (45 :: 45 :: c :: n ++ 61 :: v) (str "--")) with false.
  change (begins (str "--") (45 :: 45 :: c :: n ++ 61 :: v)) with true. cbv iota. cbn [skipn].
  change (c :: n ++ 61 :: v) with ((c :: n) ++ 61 :: v). rewrite cut_plain by exact E. rewrite L. reflexivity.
Qed.
Lemma scan_short_next c f v r : short c = Some (KArg f) -> c <> 45 -> scan ([45; c] :: v :: r) = cons_opt (f v) (scan r).
Proof.
  intros S N. cbn [scan]. change (45 =? 45) with true. cbn [negb]. change (str "--") with [45; 45]. cbn [list_eqb begins tl]. change (45 =? 45) with true.
  destruct (Z.eqb_spec c 45); [contradiction|]. destruct (Z.eqb_spec 45 c); [congruence|]. cbn [andb cluster]. rewrite S. unfold cons_opt. destruct (scan r). reflexivity.
Qed.
Lemma scan_short_joined c f v r : short c = Some (KArg f) -> c <> 45 -> v <> [] -> scan ((45 :: c :: v) :: r) = cons_opt (f v) (scan r).
Proof.
  intros S N V. cbn [scan]. change (45 =? 45) with true. cbn [negb]. change (str "--") with [45; 45]. cbn [list_eqb begins tl]. change (45 =? 45) with true.
  destruct (Z.eqb_spec c 45); [contradiction|]. destruct (Z.eqb_spec 45 c); [congruence|]. cbn [andb cluster]. rewrite S. destruct v; [contradiction V; reflexivity|]. unfold cons_opt. destruct (scan r). reflexivity.
Qed.
Lemma scan_short_flag c o r : short c = Some (KFlag o) -> c <> 45 -> scan ([45; c] :: r) = cons_opt o (scan r).
Proof.
  intros S N. cbn [scan]. change (45 =? 45) with true. cbn [negb]. change (str "--") with [45; 45]. cbn [list_eqb begins tl]. change (45 =? 45) with true.
  destruct (Z.eqb_spec c 45); [contradiction|]. destruct (Z.eqb_spec 45 c); [congruence|]. cbn [andb cluster]. rewrite S. unfold cons_opt. destruct (scan r). reflexivity.
Qed.
Lemma scan_says o ws r : says o ws -> scan (ws ++ r) = cons_opt o (scan r).
Proof.
  assert (A : forall l n f v ws, (forall s, l = Some s -> exists c, str s = [45; c] /\ c <> 45 /\ short c = Some (KArg f)) ->
     (exists n', str n = str "--" ++ n' /\ long n' = Some (KArg f) /\ ~ In 61 n' /\ n' <> []) -> written_arg l n v ws -> scan (ws ++ r) = cons_opt (f v) (scan r)).
  { intros l n f v ws' Sh (n' & En & L & E & N) [(s & -> & W)|[W|W]].
    - destruct (Sh s eq_refl) as (c & Ec & Nc & S). destruct W as [W|(V & W)]; rewrite W, Ec; [apply scan_short_next|apply scan_short_joined]; assumption.
    - rewrite W, En. apply scan_long_next; assumption.
    - rewrite W, En. cbn [app]. rewrite <- app_assoc. apply scan_long_joined; assumption. }
  assert (F : forall n f, (exists n', str n = str "--" ++ n' /\ long n' = Some (KFlag f) /\ ~ In 61 n' /\ n' <> []) -> scan ([str n] ++ r) = cons_opt f (scan r)).
  { intros n f (n' & En & L & E & N). rewrite En. apply scan_long_flag; assumption. }
  assert (NI : forall n', forallb (fun c => negb (c =? 61)) n' = true -> ~ In 61 n') by (intros n' Q I; rewrite forallb_forall in Q; specialize (Q 61 I); discriminate).
  destruct o; cbn [says]; intros W;
    first [ contradiction
          | refine (A _ _ _ _ _ _ _ W); [intros s Hs; first [discriminate | injection Hs as <-; eexists; split; [vm_compute; reflexivity|]; split; [discriminate|vm_compute; reflexivity]] | lf; apply NI; vm_compute; reflexivity]
          | subst ws; apply F; lf; apply NI; vm_compute; reflexivity
          | idtac ].
  destruct W as [->| ->]; [exact (scan_short_flag 102 OFilter r eq_refl ltac:(discriminate))|apply F; lf; apply NI; vm_compute; reflexivity].
Qed.
Lemma begins_spec n m : begins n m = true <-> shortens n m.
Proof.
  revert m. induction n as [|x n IH]; intros m; cbn [begins].
  - split; [intros _; exists m; reflexivity|reflexivity].
  - destruct m as [|y m]; [split; [discriminate|intros (r & E); discriminate]|]. rewrite andb_true_iff, Z.eqb_eq, IH. split.
    + intros (-> & r & ->). exists r. reflexivity.
    + intros (r & E). cbn in E. assert (y = x) by congruence. split; [congruence|]. exists r. congruence.
Qed.
Lemma list_eqb_same a : list_eqb a a = true.
Proof. apply list_eqb_eq. reflexivity. Qed.
Lemma find_none_name n : ~ In n names -> find (fun o : list Z * kind => list_eqb n (fst o)) longs = None.
Proof.
  intros N. destruct (find (fun o : list Z * kind => list_eqb n (fst o)) longs) as [o|] eqn:E; [|reflexivity]. exfalso. apply find_some in E. destruct E as (I & Q). apply list_eqb_eq in Q. apply N. rewrite Q.
  change names with (map fst longs). apply in_map. exact I.
Qed.
Lemma find_some_name m : In m names -> exists o, In o longs /\ fst o = m /\ long m = Some (snd o).
Proof.
  intros I. unfold long. destruct (find (fun o : list Z * kind => list_eqb m (fst o)) longs) as [o|] eqn:E.
  - exists o. apply find_some in E. destruct E as (I' & Q). apply list_eqb_eq in Q. split; [exact I'|split; [symmetry; exact Q|reflexivity]].
  - exfalso. change names with (map fst longs) in I. apply in_map_iff in I. destruct I as (o & F & I). assert (Q := find_none _ _ E o I). cbv beta in Q. change (list_eqb m (fst o) = false) in Q. subst m. rewrite list_eqb_same in Q. discriminate.
Qed.
Lemma nodup_longs : NoDup (map fst longs).
Proof. vm_compute. repeat (constructor; [cbn [In]; intuition discriminate|]). constructor. Qed.
Lemma filter_one {A B} (p : A -> bool) (g : A -> B) l o : NoDup (map g l) -> In o l -> p o = true -> (forall x, In x l -> p x = true -> g x = g o) -> filter p l = [o].
Proof.
  induction l as [|x l IH]; intros N I P U; [contradiction|]. cbn [map] in N. inversion N as [|? ? Nx N']; subst. cbn [filter]. destruct I as [->|I].
  - rewrite P. f_equal. destruct (filter p l) as [|y r] eqn:E; [reflexivity|]. exfalso. assert (J : In y (filter p l)) by (rewrite E; left; reflexivity). apply filter_In in J. destruct J as (J & Py).
    apply Nx. rewrite <- (U y (or_intror J) Py). apply in_map. exact J.
  - destruct (p x) eqn:Px; [exfalso; apply Nx; rewrite (U x (or_introl eq_refl) Px); apply in_map; exact I|]. apply IH; [exact N'|exact I|exact P|]. intros z Iz. apply U. right. exact Iz.
Qed.
Lemma long_short n m : In m names -> shortens n m -> (forall m', In m' names -> shortens n m' -> m' = m) -> long n = long m.
Proof.
  intros I S U. destruct (find_some_name m I) as (o & Io & <- & L). rewrite L. destruct (in_dec (list_eq_dec Z.eq_dec) n names) as [J|J].
  - rewrite (U n J); [exact L|]. exists []. symmetry. apply app_nil_r.
  - unfold long. rewrite (find_none_name n J). rewrite (filter_one (fun o : text * kind => begins n (fst o)) fst longs o nodup_longs Io); [reflexivity|apply begins_spec; exact S|].
    intros x Ix B. apply U; [change names with (map fst longs); apply in_map; exact Ix|apply begins_spec; exact B].
Qed.
Lemma long_wrong n : ~ In n names -> (forall m, In m names -> ~ shortens n m) \/ (exists m m', In m names /\ In m' names /\ m <> m' /\ shortens n m /\ shortens n m') -> long n = None.
Proof.
  intros N H. unfold long. rewrite (find_none_name n N). destruct H as [H|(m & m' & I & I' & D & S & S')].
  - destruct (filter (fun o : text * kind => begins n (fst o)) longs) as [|o [|? ?]] eqn:E; try reflexivity. exfalso. assert (J : In o [o]) by (left; reflexivity). rewrite <- E in J. apply filter_In in J. destruct J as (J & B).
    apply begins_spec in B. apply (H (fst o)); [change names with (map fst longs); apply in_map; exact J|exact B].
  - destruct (filter (fun o : text * kind => begins n (fst o)) longs) as [|o [|? ?]] eqn:E; try reflexivity. exfalso. apply D.
    assert (F : forall m, In m names -> shortens n m -> m = fst o).
    { intros k Ik Sk. change names with (map fst longs) in Ik. apply in_map_iff in Ik. destruct Ik as (q & <- & Iq). assert (J : In q (filter (fun o : text * kind => begins n (fst o)) longs)) by (apply filter_In; split; [exact Iq|apply begins_spec; exact Sk]).
      rewrite E in J. destruct J as [->|[]]. reflexivity. }
    rewrite (F m I S), (F m' I' S'). reflexivity.
Qed.
Lemma scan_all os wss : Forall2 says os wss -> scan (concat wss) = (os, []).
Proof. induction 1 as [|o ws os wss S _ IH]; [reflexivity|]. cbn [concat]. rewrite (scan_says _ _ _ S), IH. reflexivity. Qed.

(** ** The options one after another *)
Lemma fput_same fs n v : fput fs n v n = v.
Proof. unfold fput. rewrite list_eqb_same. reflexivity. Qed.
Lemma fput_other fs n v m : m <> n -> fput fs n v m = fs m.
Proof. intros H. unfold fput. destruct (list_eqb m n) eqn:E; [|reflexivity]. apply list_eqb_eq in E. contradiction. Qed.

Record reach (e : genv) (os : list opt) (s s' : mst) (is : list input) : Prop := {
  r_fs : forall n, m_fs s' n = if existsb (list_eqb n) (outs_of os) then Some [] else m_fs s n;
  r_ins : m_ins s' = m_ins s ++ is;
  r_out : m_out s' = match rev (outs_of os) with o :: _ => Some o | [] => m_out s end;
  r_filter : m_filter s' = m_filter s || filtering os;
  r_test : m_test s' = m_test s || asks (fun o => match o with OTest => true | _ => false end) os;
  r_eh : do_eh (m_d s') = do_eh (m_d s) || do_eh (dopts_of os);
  r_except : do_except (m_d s') = do_except (m_d s) || do_except (dopts_of os);
  r_cfi : do_cfi (m_d s') = do_cfi (m_d s) || do_cfi (dopts_of os);
  r_newlines : do_newlines (m_d s') = do_newlines (m_d s) || do_newlines (dopts_of os);
  r_rhel5 : m_rhel5 s' = last (flat_map (fun o => match o with OOs v => if list_eqb v (str "rhel5") then [true] else if list_eqb v (str "rhel6") then [false] else [] | _ => [] end) os) (m_rhel5 s);
  r_32 : m_32 s' = last (flat_map (fun o => match o with OArch v => if list_eqb v (str "i686") then [true] else if list_eqb v (str "x86_64") then [false] else [] | _ => [] end) os) (m_32 s);
  r_ignore : m_ignore s' = m_ignore s ++ ignore_of os;
  r_unlink : m_unlink s' = m_unlink s ++ unlink_of os;
  r_adapt : m_adapt s' = m_adapt s ++ adapt_of os;
  r_got : m_got s' = m_got s || asks (fun o => match o with OGot => true | _ => false end) os;
  r_global : m_global s' = m_global s || asks (fun o => match o with OGlobal => true | _ => false end) os }.

Lemma last_app_one {A} (l : list A) x d : last (x :: l) d = last l x.
Proof. revert x d. induction l as [|y l IH]; intros x d; [reflexivity|]. change (last (x :: y :: l) d) with (last (y :: l) d). rewrite !IH. reflexivity. Qed.
Lemma rev_cons_head {A} (l : list A) x : match rev (x :: l) with o :: _ => Some o | [] => None end = match rev l with o :: _ => Some o | [] => Some x end.
Proof. cbn [rev]. destruct (rev l); reflexivity. Qed.
Lemma parse_fits l v : (length (l ++ map sym_desc (strtok 44 v)) <= 32)%nat -> parse_sym_list l v = Ok (l ++ map sym_desc (strtok 44 v)).
Proof. intros H. unfold parse_sym_list. cbv zeta. destruct (Nat.ltb_spec 32 (length (l ++ map sym_desc (strtok 44 v)))); [lia|reflexivity]. Qed.

Ltac fin R := match type of R with reach _ ?os ?s1 _ ?is =>
  constructor; intros;
  first [ rewrite (r_fs _ _ _ _ _ R) | rewrite (r_ins _ _ _ _ _ R) | rewrite (r_out _ _ _ _ _ R) | rewrite (r_filter _ _ _ _ _ R) | rewrite (r_test _ _ _ _ _ R)
        | rewrite (r_eh _ _ _ _ _ R) | rewrite (r_except _ _ _ _ _ R) | rewrite (r_cfi _ _ _ _ _ R) | rewrite (r_newlines _ _ _ _ _ R) | rewrite (r_rhel5 _ _ _ _ _ R) | rewrite (r_32 _ _ _ _ _ R)
        | rewrite (r_ignore _ _ _ _ _ R) | rewrite (r_unlink _ _ _ _ _ R) | rewrite (r_adapt _ _ _ _ _ R) | rewrite (r_got _ _ _ _ _ R) | rewrite (r_global _ _ _ _ _ R) ] end.

Lemma steps_reach e : forall os s is, ~ In OBad os -> Forall2 (fun f i => exists c, readable e (m_fs s) f c /\ i = input_of e f c) (ins_of os) is -> Forall (makeable e) (outs_of os) ->
  (forall f, In f (ins_of os) -> ~ In f (outs_of os)) -> (length (m_ins s) + length (ins_of os) <= 2)%nat ->
  (length (m_ignore s ++ ignore_of os) <= 32)%nat -> (length (m_unlink s ++ unlink_of os) <= 32)%nat -> (length (m_adapt s ++ adapt_of os) <= 32)%nat ->
  exists s', steps e os s = Go s' /\ reach e os s s' is.
Proof.
  induction os as [|o os IH]; intros s is NB Rd Mk Ap Ln L1 L2 L3.
  - inversion Rd; subst. exists s. split; [reflexivity|]. constructor; intros; cbn; rewrite ?app_nil_r, ?orb_false_r; reflexivity.
  - assert (NB' : ~ In OBad os) by (intros I; apply NB; right; exact I).
    assert (K : forall s1, step e o s = Go s1 -> (forall f, In f (ins_of os) -> m_fs s1 f = m_fs s f) -> forall is1, Forall2 (fun f i => exists c, readable e (m_fs s) f c /\ i = input_of e f c) (ins_of os) is1 ->
       Forall (makeable e) (outs_of os) -> (forall f, In f (ins_of os) -> ~ In f (outs_of os)) -> (length (m_ins s1) + length (ins_of os) <= 2)%nat ->
       (length (m_ignore s1 ++ ignore_of os) <= 32)%nat -> (length (m_unlink s1 ++ unlink_of os) <= 32)%nat -> (length (m_adapt s1 ++ adapt_of os) <= 32)%nat ->
       exists s', steps e (o :: os) s = Go s' /\ reach e os s1 s' is1).
    { intros s1 E Fs is1 Rd1 Mk1 Ap1 Ln1 L11 L21 L31. cbn [steps]. rewrite E. apply IH; try assumption.
      clear - Rd1 Fs. revert Fs. induction Rd1 as [|f i fl il (c & (A & B & C) & D) _ IHl]; intros Fs; constructor.
      - exists c. split; [|exact D]. split; [exact A|]. split; [exact B|]. rewrite Fs by (left; reflexivity). exact C.
      - apply IHl. intros g Hg. apply Fs. right. exact Hg. }
    destruct o.
    17: { exfalso. apply NB. left. reflexivity. }
    all: try (edestruct K as (s' & E & R); [reflexivity|intros; reflexivity|exact Rd|exact Mk|exact Ap|exact Ln|exact L1|exact L2|exact L3|]; exists s'; split; [exact E|]; fin R;
       try reflexivity; try (cbn [m_filter m_test m_d do_eh do_except do_cfi do_newlines with_mode with_os m_got m_global asks filtering existsb dopts_of orb]; rewrite ?orb_true_r; reflexivity);
       try (cbn [with_os m_rhel5 m_32 flat_map]; destruct (list_eqb v (str "rhel5")), (list_eqb v (str "rhel6")), (list_eqb v (str "i686")), (list_eqb v (str "x86_64")); cbn [app]; rewrite ?last_app_one; reflexivity); fail).
    + (* an input *)
      inversion Rd as [|? i ? il (c & (A & B & C) & D) Rd']; subst. cbn [ins_of flat_map app length] in Ln. fold (ins_of os) in Ln. edestruct K as (s' & E & R).
      * cbn [step]. destruct (Nat.leb_spec 2 (length (m_ins s))); [lia|]. destruct (list_eqb f (str "-")) eqn:Q; [apply list_eqb_eq in Q; contradiction|]. rewrite B, C. reflexivity.
      * intros. reflexivity.
      * exact Rd'.
      * exact Mk.
      * intros g Hg. apply Ap. right. exact Hg.
      * cbn [with_fs m_ins]. rewrite app_length. cbn [length]. lia.
      * exact L1.
      * exact L2.
      * exact L3.
      * exists s'. split; [exact E|]. fin R; try reflexivity. cbn [with_fs m_ins]. rewrite <- app_assoc. reflexivity.
    + (* the output *)
      inversion Mk as [|? ? (A & B) Mk']; subst. edestruct K as (s' & E & R).
      * cbn [step]. destruct (list_eqb f (str "-")) eqn:Q; [apply list_eqb_eq in Q; contradiction|]. rewrite B. reflexivity.
      * intros g Hg. cbn [with_fs m_fs]. apply fput_other. intros ->. exact (Ap _ Hg (or_introl eq_refl)).
      * exact Rd.
      * exact Mk'.
      * intros g Hg Hg'. exact (Ap _ Hg (or_intror Hg')).
      * exact Ln.
      * exact L1.
      * exact L2.
      * exact L3.
      * exists s'. split; [exact E|]. fin R; try reflexivity.
        -- cbn [with_fs m_fs outs_of flat_map app existsb]. fold (outs_of os). unfold fput. destruct (list_eqb n f), (existsb (list_eqb n) (outs_of os)); reflexivity.
        -- cbn [with_fs m_out outs_of flat_map app rev]. fold (outs_of os). destruct (rev (outs_of os)); reflexivity.
    + unfold ignore_of, list_of in L1. cbn [flat_map app] in L1. rewrite app_assoc in L1. edestruct K as (s' & E & R).
      * cbn [step]. rewrite parse_fits; [reflexivity|]. rewrite app_length in L1. lia.
      * intros. reflexivity.
      * exact Rd.
      * exact Mk.
      * exact Ap.
      * exact Ln.
      * exact L1.
      * exact L2.
      * exact L3.
      * exists s'. split; [exact E|]. fin R; try reflexivity. cbn [with_syms m_ignore]. rewrite <- app_assoc. reflexivity.
    + unfold unlink_of, list_of in L2. cbn [flat_map app] in L2. rewrite app_assoc in L2. edestruct K as (s' & E & R).
      * cbn [step]. rewrite parse_fits; [reflexivity|]. rewrite app_length in L2. lia.
      * intros. reflexivity.
      * exact Rd.
      * exact Mk.
      * exact Ap.
      * exact Ln.
      * exact L1.
      * exact L2.
      * exact L3.
      * exists s'. split; [exact E|]. fin R; try reflexivity. cbn [with_syms m_unlink]. rewrite <- app_assoc. reflexivity.
    + unfold adapt_of, list_of in L3. cbn [flat_map app] in L3. rewrite app_assoc in L3. edestruct K as (s' & E & R).
      * cbn [step]. rewrite parse_fits; [reflexivity|]. rewrite app_length in L3. lia.
      * intros. reflexivity.
      * exact Rd.
      * exact Mk.
      * exact Ap.
      * exact Ln.
      * exact L1.
      * exact L2.
      * exact L3.
      * exists s'. split; [exact E|]. fin R; try reflexivity. cbn [with_syms m_adapt]. rewrite <- app_assoc. reflexivity.
Qed.

(** ** The converse: what a run that went through had *)
Definition had (e : genv) (fs : files) (outs : list text) (f : text) (i : input) : Prop :=
  exists c, f <> str "-" /\ e_read e f = true /\ i = input_of e f c /\ (fs f = Some c \/ (In f outs /\ c = [])).
Lemma had_put e fs outs o f i : had e (fput fs o (Some [])) outs f i -> had e fs (o :: outs) f i.
Proof.
  intros (c & A & B & C & [D|(D & D')]); exists c; (split; [exact A|]; split; [exact B|]; split; [exact C|]).
  - unfold fput in D. destruct (list_eqb f o) eqn:Q; [apply list_eqb_eq in Q; right; split; [left; congruence|congruence]|left; exact D].
  - right. split; [right; exact D|exact D'].
Qed.
Lemma parse_some l v l' : parse_sym_list l v = Ok l' -> l' = l ++ map sym_desc (strtok 44 v) /\ (length l' <= 32)%nat.
Proof. unfold parse_sym_list. cbv zeta. destruct (Nat.ltb_spec 32 (length (l ++ map sym_desc (strtok 44 v)))); intros H0; [discriminate|]. assert (l ++ map sym_desc (strtok 44 v) = l') by congruence. subst. split; [reflexivity|lia]. Qed.
Lemma steps_back e : forall os s s', steps e os s = Go s' -> exists is, reach e os s s' is /\ Forall2 (had e (m_fs s) (outs_of os)) (ins_of os) is /\ ~ In OBad os /\ Forall (makeable e) (outs_of os) /\ ((length (m_ins s) <= 2)%nat -> (length (m_ins s) + length (ins_of os) <= 2)%nat).
Proof.
  induction os as [|o os IH]; intros s s' H.
  - assert (s = s') by (cbn in H; congruence). subst. exists []. split; [|split; [constructor|split; [intros []|split; [constructor|cbn; lia]]]]. constructor; intros; cbn; rewrite ?app_nil_r, ?orb_false_r; reflexivity.
  - cbn [steps] in H. destruct (step e o s) as [s1|] eqn:St; [|discriminate]. destruct (IH _ _ H) as (is & R & Rd & NB & Mk & Ln). clear IH H.
    assert (NBo : forall o', o' <> OBad -> ~ In OBad (o' :: os)) by (intros o' N [->|I]; [apply N; reflexivity|contradiction]).
    destruct o; cbn [step] in St.
    17: discriminate.
    all: try (assert (W := f_equal (fun r => match r with Go x => x | Stop _ _ => s end) St); cbv beta iota in W; subst s1; exists is; (split; [|split; [exact Rd|split; [apply NBo; discriminate|split; [exact Mk|exact Ln]]]]); fin R;
       try reflexivity; try (cbn [m_filter m_test m_d do_eh do_except do_cfi do_newlines with_mode with_os m_got m_global asks filtering existsb dopts_of orb]; rewrite ?orb_true_r; reflexivity);
       try (cbn [with_os m_rhel5 m_32 flat_map]; destruct (list_eqb v (str "rhel5")), (list_eqb v (str "rhel6")), (list_eqb v (str "i686")), (list_eqb v (str "x86_64")); cbn [app]; rewrite ?last_app_one; reflexivity); fail).
    + destruct (Nat.leb_spec 2 (length (m_ins s))) as [L|L]; [discriminate|]. destruct (list_eqb f (str "-")) eqn:Q; [discriminate|]. destruct (e_read e f) eqn:B; [|discriminate].
      destruct (m_fs s f) as [c|] eqn:C; [|discriminate]. assert (W := f_equal (fun r => match r with Go x => x | Stop _ _ => s end) St). cbv beta iota in W. subst s1.
      exists (input_of e f c :: is). split; [|split; [|split; [apply NBo; discriminate|split; [exact Mk|]]]].
      * fin R; try reflexivity. cbn [with_fs m_ins]. rewrite <- app_assoc. reflexivity.
      * constructor; [|exact Rd]. exists c. split; [intros ->; rewrite list_eqb_same in Q; discriminate|]. split; [exact B|]. split; [reflexivity|]. left. exact C.
      * cbn [with_fs m_ins] in Ln. rewrite app_length in Ln. cbn [length] in Ln. cbn [ins_of flat_map app length]. fold (ins_of os). intros _. lia.
    + destruct (list_eqb f (str "-")) eqn:Q; [discriminate|]. destruct (e_write e f) eqn:B; [|discriminate].
      assert (W := f_equal (fun r => match r with Go x => x | Stop _ _ => s end) St). cbv beta iota in W. subst s1.
      exists is. split; [|split; [|split; [apply NBo; discriminate|split; [constructor; [split; [intros ->; rewrite list_eqb_same in Q; discriminate|exact B]|exact Mk]|exact Ln]]]].
      * fin R; try reflexivity.
        -- cbn [with_fs m_fs outs_of flat_map app existsb]. fold (outs_of os). unfold fput. destruct (list_eqb n f), (existsb (list_eqb n) (outs_of os)); reflexivity.
        -- cbn [with_fs m_out outs_of flat_map app rev]. fold (outs_of os). destruct (rev (outs_of os)); reflexivity.
      * cbn [with_fs m_fs] in Rd. change (ins_of (OOut f :: os)) with (ins_of os). change (outs_of (OOut f :: os)) with (f :: outs_of os).
        clear - Rd. induction Rd; constructor; [apply had_put; assumption|assumption].
    + unfold syms in St. destruct (parse_sym_list (m_ignore s) v) as [l| | |] eqn:P; try discriminate. apply parse_some in P. destruct P as (-> & P).
      assert (W := f_equal (fun r => match r with Go x => x | Stop _ _ => s end) St). cbv beta iota in W. subst s1.
      exists is. split; [|split; [exact Rd|split; [apply NBo; discriminate|split; [exact Mk|exact Ln]]]]. fin R; try reflexivity. cbn [with_syms m_ignore]. rewrite <- app_assoc. reflexivity.
    + unfold syms in St. destruct (parse_sym_list (m_unlink s) v) as [l| | |] eqn:P; try discriminate. apply parse_some in P. destruct P as (-> & P).
      assert (W := f_equal (fun r => match r with Go x => x | Stop _ _ => s end) St). cbv beta iota in W. subst s1.
      exists is. split; [|split; [exact Rd|split; [apply NBo; discriminate|split; [exact Mk|exact Ln]]]]. fin R; try reflexivity. cbn [with_syms m_unlink]. rewrite <- app_assoc. reflexivity.
    + unfold syms in St. destruct (parse_sym_list (m_adapt s) v) as [l| | |] eqn:P; try discriminate. apply parse_some in P. destruct P as (-> & P).
      assert (W := f_equal (fun r => match r with Go x => x | Stop _ _ => s end) St). cbv beta iota in W. subst s1.
      exists is. split; [|split; [exact Rd|split; [apply NBo; discriminate|split; [exact Mk|exact Ln]]]]. fin R; try reflexivity. cbn [with_syms m_adapt]. rewrite <- app_assoc. reflexivity.
Qed.
Lemma dopts_eta d : d = {| do_eh := do_eh d; do_except := do_except d; do_cfi := do_cfi d; do_newlines := do_newlines d |}.
Proof. destruct d. reflexivity. Qed.
Lemma reach_dopts e os fs s' is : reach e os (gstart fs) s' is -> m_d s' = dopts_of os.
Proof. intros R. rewrite (dopts_eta (m_d s')), (r_eh _ _ _ _ _ R), (r_except _ _ _ _ _ R), (r_cfi _ _ _ _ _ R), (r_newlines _ _ _ _ _ R). reflexivity. Qed.
Lemma reach_opts e os fs s' is : reach e os (gstart fs) s' is -> opts e s' = gopts_of e os.
Proof.
  intros R. unfold opts. rewrite (r_rhel5 _ _ _ _ _ R), (r_32 _ _ _ _ _ R), (r_ignore _ _ _ _ _ R), (r_unlink _ _ _ _ _ R), (r_adapt _ _ _ _ _ R), (r_got _ _ _ _ _ R), (r_global _ _ _ _ _ R), (r_test _ _ _ _ _ R). reflexivity.
Qed.
Lemma existsb_in n l : existsb (list_eqb n) l = true <-> In n l.
Proof. rewrite existsb_exists. split; [intros (x & I & Q); apply list_eqb_eq in Q; subst; exact I|intros I; exists n; split; [exact I|apply list_eqb_same]]. Qed.
Lemma reach_only e os s s' is : reach e os s s' is -> only (outs_of os) (m_fs s) (m_fs s').
Proof. intros R n N. rewrite (r_fs _ _ _ _ _ R). destruct (existsb (list_eqb n) (outs_of os)) eqn:Q; [apply existsb_in in Q; contradiction|reflexivity]. Qed.
(** One step at a time changes only outputs. *)
Lemma steps_stop_only e : forall os s x fs, steps e os s = Stop x fs -> only (outs_of os) (m_fs s) fs.
Proof.
  induction os as [|o os IH]; intros s x fs H n N; [discriminate|]. cbn [steps] in H. destruct (step e o s) as [s1|x1 fs1] eqn:St.
  - assert (N' : ~ In n (outs_of os)) by (intros I; apply N; destruct o; cbn [outs_of flat_map app]; try exact I; right; exact I). rewrite (IH _ _ _ H n N'). clear IH H.
    destruct o; cbn [step] in St; unfold syms in St; try discriminate.
    all: try (repeat match type of St with context [if ?b then _ else _] => destruct b eqn:? | context [match ?b with _ => _ end] => destruct b eqn:? end; try discriminate;
      assert (W := f_equal (fun r => match r with Go x => x | Stop _ _ => s end) St); cbv beta iota in W; subst s1; reflexivity).
    destruct (list_eqb f (str "-")); [discriminate|]. destruct (e_write e f); [|discriminate]. assert (W := f_equal (fun r => match r with Go x => x | Stop _ _ => s end) St); cbv beta iota in W; subst s1.
    cbn [with_fs m_fs]. apply fput_other. intros ->. apply N. left. reflexivity.
  - assert (fs = fs1) by congruence. subst fs1. clear H IH.
    destruct o; cbn [step] in St; unfold syms in St; try discriminate;
    repeat match type of St with context [if ?b then _ else _] => destruct b eqn:? | context [match ?b with _ => _ end] => destruct b eqn:? end; try discriminate;
      assert (m_fs s = fs) by congruence; subst; reflexivity.
Qed.
Lemma deliver_only e fs o r : only [o] fs (snd (deliver e fs o r)).
Proof. intros n N. destruct r; cbn [deliver snd]; apply fput_other; intros ->; apply N; left; reflexivity. Qed.
Lemma rev_head {A} (l : list A) o : match rev l with x :: _ => Some x | [] => None end = Some o -> exists l', l = l' ++ [o].
Proof. destruct (rev l) as [|x r] eqn:E; [discriminate|]. intros H. assert (x = o) by congruence. subst. exists (rev r). rewrite <- (rev_involutive l), E. reflexivity. Qed.
Lemma gmain_only e fs args x fs' : gmain e fs args = (x, fs') -> only (outs_of (fst (scan args))) fs fs'.
Proof.
  unfold gmain. destruct (scan args) as (os, ops). cbn [fst]. destruct (steps e os (gstart fs)) as [s|y fs1] eqn:St; intros H.
  - destruct (steps_back _ _ _ _ St) as (is & R & _). assert (O := reach_only _ _ _ _ _ R). cbn [gstart m_fs] in O.
    assert (D : forall o r, m_out s = Some o -> deliver e (m_fs s) o r = (x, fs') -> only (outs_of os) fs fs').
    { intros o r Mo E n N. rewrite <- (O n N). assert (Q := deliver_only e (m_fs s) o r n). rewrite E in Q. cbn [snd] in Q. apply Q. intros [->|[]].
      rewrite (r_out _ _ _ _ _ R) in Mo. cbn [gstart m_out] in Mo. apply rev_head in Mo. destruct Mo as (l & Ml). apply N. rewrite Ml. apply in_app_iff. right. left. reflexivity. }
    unfold finish in H. destruct ops as [|? ?]; [|assert (m_fs s = fs') by congruence; subst; exact O]. destruct (m_out s) as [o|] eqn:Mo; [|assert (m_fs s = fs') by congruence; subst; exact O].
    destruct (m_filter s); [destruct (m_ins s); [assert (m_fs s = fs') by congruence; subst; exact O|exact (D _ _ eq_refl H)]|].
    destruct (m_ins s) as [|i0 [|i1 [|? ?]]]; try (assert (m_fs s = fs') by congruence; subst; exact O). exact (D _ _ eq_refl H).
  - assert (fs1 = fs') by congruence. subst. exact (steps_stop_only _ _ _ _ _ St).
Qed.
Lemma forall2_len {A B} (P : A -> B -> Prop) l l' : Forall2 P l l' -> length l = length l'.
Proof. induction 1; cbn; [reflexivity|f_equal; assumption]. Qed.
(** Status zero *)
Lemma gmain_zero e fs args fs' : gmain e fs args = (GExit 0, fs') -> exists os l o is t, scan args = (os, []) /\ ~ In OBad os /\ outs_of os = l ++ [o] /\ Forall (makeable e) (outs_of os) /\
  Forall2 (had e fs (outs_of os)) (ins_of os) is /\ fs' o = Some (written e t) /\
  (if filtering os then exists i r, is = i :: r /\ (length r <= 1)%nat /\ dbg_filter (e_arch e) (dopts_of os) (e_buf e) i = Ok t
   else exists i0 i1, is = [i0; i1] /\ GenModel.gensrc (e_arch e) (gopts_of e os) (e_buf e) i0 i1 = Ok t).
Proof.
  unfold gmain. destruct (scan args) as (os, ops) eqn:Sc. destruct (steps e os (gstart fs)) as [s|y fs1] eqn:St; intros H.
  - destruct (steps_back _ _ _ _ St) as (is & R & Rd & NB & Mk & Ln). cbn [gstart m_ins length] in Ln. specialize (Ln ltac:(lia)). cbn [Nat.add] in Ln. rewrite (forall2_len _ _ _ Rd) in Ln.
    assert (Mi := r_ins _ _ _ _ _ R). cbn [gstart m_ins app] in Mi. assert (Mf := r_filter _ _ _ _ _ R). cbn [gstart m_filter orb] in Mf.
    unfold finish in H. destruct ops as [|? ?]; [|discriminate]. destruct (m_out s) as [o|] eqn:Mo; [|discriminate]. assert (Mo' := Mo). rewrite (r_out _ _ _ _ _ R) in Mo'. cbn [gstart m_out] in Mo'.
    apply rev_head in Mo'. destruct Mo' as (l & Ml). rewrite Mf, Mi, (reach_dopts _ _ _ _ _ R), (reach_opts _ _ _ _ _ R) in H.
    assert (D : forall r, deliver e (m_fs s) o r = (GExit 0, fs') -> exists t, r = Ok t /\ fs' o = Some (written e t)).
    { intros r E. destruct r; cbn [deliver] in E; try discriminate. exists a. split; [reflexivity|]. apply (f_equal snd) in E. cbn [snd] in E. subst fs'. apply fput_same. }
    destruct (filtering os) eqn:Fo.
    + destruct is as [|i r]; [discriminate|]. destruct (D _ H) as (t & Et & Ef). exists os, l, o, (i :: r), t. rewrite Fo.
      repeat (split; [first [reflexivity|assumption]|]). exists i, r. split; [reflexivity|]. split; [cbn [length] in Ln; lia|exact Et].
    + destruct is as [|i0 [|i1 [|? ?]]]; try discriminate. destruct (D _ H) as (t & Et & Ef). exists os, l, o, [i0; i1], t. rewrite Fo.
      repeat (split; [first [reflexivity|assumption]|]). exists i0, i1. split; [reflexivity|exact Et].
  - exfalso. assert (E : y = GExit 0) by congruence. subst y. clear H. clear Sc. revert St. generalize (gstart fs). induction os as [|o os IH]; intros s H; [discriminate|]. cbn [steps] in H.
    destruct (step e o s) as [s1|y fs2] eqn:St; [exact (IH _ H)|]. assert (y = GExit 0) by congruence. subst y. clear H IH.
    destruct o; cbn [step] in St; unfold syms in St; try discriminate;
    repeat match type of St with context [if ?b then _ else _] => destruct b eqn:? | context [match ?b with _ => _ end] => destruct b eqn:? end; discriminate.
Qed.
(** A run with everything in order *)
Lemma gmain_run e fs os wss l o is : Forall2 says os wss -> outs_of os = l ++ [o] -> Forall (makeable e) (outs_of os) -> (length (ins_of os) <= 2)%nat -> lists_fit os ->
  Forall2 (fun f i => exists c, readable e fs f c /\ i = input_of e f c) (ins_of os) is -> (forall f, In f (ins_of os) -> ~ In f (outs_of os)) ->
  exists s, only (outs_of os) fs (m_fs s) /\ gmain e fs (concat wss) =
    (if filtering os then match is with [] => (GExit 1, m_fs s) | i :: _ => deliver e (m_fs s) o (dbg_filter (e_arch e) (dopts_of os) (e_buf e) i) end
     else match is with [i0; i1] => deliver e (m_fs s) o (GenModel.gensrc (e_arch e) (gopts_of e os) (e_buf e) i0 i1) | _ => (GExit 1, m_fs s) end).
Proof.
  intros Sy Eo Mk Ln (L1 & L2 & L3) Rd Ap. unfold gmain. rewrite (scan_all _ _ Sy).
  assert (NB : ~ In OBad os). { intros I. clear - Sy I. induction Sy as [|o' ws os wss S _ IH]; [contradiction|]. destruct I as [E|I]; [subst; contradiction|exact (IH I)]. }
  destruct (steps_reach e os (gstart fs) is NB Rd Mk Ap Ln L1 L2 L3) as (s & E & R). rewrite E. exists s. split; [exact (reach_only _ _ _ _ _ R)|].
  unfold finish. rewrite (r_out _ _ _ _ _ R), Eo, rev_app_distr. cbn [rev app]. rewrite (r_filter _ _ _ _ _ R), (r_ins _ _ _ _ _ R), (reach_dopts _ _ _ _ _ R), (reach_opts _ _ _ _ _ R). reflexivity.
Qed.

(** ** The steps of the wrapper *)
Lemma gmain_status e fs args c fs' : gmain e fs args = (GExit c, fs') -> c = 0 \/ c = 1 \/ c = 255.
Proof.
  unfold gmain. destruct (scan args) as (os, ops). destruct (steps e os (gstart fs)) as [s|y fs1] eqn:St; intros H.
  - assert (D : forall o r, deliver e (m_fs s) o r = (GExit c, fs') -> c = 0 \/ c = 1 \/ c = 255) by (intros o r E; destruct r; cbn [deliver] in E; try discriminate; assert (Q := f_equal fst E); cbn in Q; injection Q; auto).
    assert (B : forall a, (GExit a, m_fs s) = (GExit c, fs') -> a = 1 \/ a = 255 -> c = 0 \/ c = 1 \/ c = 255) by (intros a E; assert (a = c) by congruence; subst; tauto).
    unfold finish in H. destruct ops; [|exact (B _ H (or_intror eq_refl))]. destruct (m_out s); [|exact (B _ H (or_intror eq_refl))].
    destruct (m_filter s); [destruct (m_ins s); [exact (B _ H (or_introl eq_refl))|exact (D _ _ H)]|].
    destruct (m_ins s) as [|? [|? [|? ?]]]; try exact (B _ H (or_introl eq_refl)). exact (D _ _ H).
  - assert (y = GExit c) by congruence. subst y. clear H. revert St. generalize (gstart fs). induction os as [|o os IH]; intros s H; [discriminate|]. cbn [steps] in H.
    destruct (step e o s) as [s1|y fs2] eqn:St; [exact (IH _ H)|]. assert (y = GExit c) by congruence. subst y. clear H IH.
    destruct o; cbn [step] in St; unfold syms in St; try discriminate;
    repeat match type of St with context [if ?b then _ else _] => destruct b eqn:? | context [match ?b with _ => _ end] => destruct b eqn:? end; try discriminate;
    assert (Q := f_equal (fun r => match r with Stop (GExit a) _ => a | _ => 0 end) St); cbn in Q; auto.
Qed.
Lemma gensrc_done e k args r fs fs' : does e k (CcSpec.gensrc k args, r) fs fs' -> fine (CcSpec.gensrc k args, r) -> whole (CcSpec.gensrc k args, r) -> gmain e fs args = (GExit 0, fs').
Proof.
  unfold CcSpec.gensrc. intros D (F1 & F2) W. cbn [whole] in W. inversion D as [|  | | a c f1 f2 G | a n f1 f2 O N | p a r1 f1 f2 NP | | ev r1 f1 f2 B]; subst.
  - destruct (gmain_status _ _ _ _ _ G) as [->|[->| ->]]; [exact G|discriminate F2|discriminate F2].
  - exfalso. change 255 with (Z.ones 8) in W. rewrite Z.land_ones in W by lia. change (2 ^ 8) with 256 in W. rewrite Z.mod_small in W by lia. lia.
  - exfalso. apply NP. reflexivity.
  - contradiction.
Qed.
Lemma rename_done e k a b r fs fs' : does e k (Rename a b, r) fs fs' -> fine (Rename a b, r) -> exists t, fs a = Some t /\ fs' = fput (fput fs a None) b (Some t).
Proof. intros D F. cbn [fine] in F. inversion D; subst; [eexists; split; [eassumption|reflexivity]|congruence|contradiction]. Qed.
Lemma access_done e k f r fs fs' : does e k (Access f, r) fs fs' -> fs' = fs /\ r = match fs f with Some _ => 0 | None => 2 end.
Proof. intros D. inversion D; subst; [split; reflexivity|contradiction]. Qed.
Lemma ins_app a b : ins_of (a ++ b) = ins_of a ++ ins_of b.
Proof. apply flat_map_app. Qed.
Lemma outs_app a b : outs_of (a ++ b) = outs_of a ++ outs_of b.
Proof. apply flat_map_app. Qed.
Lemma asks_app p a b : asks p (a ++ b) = asks p a || asks p b.
Proof. apply existsb_app. Qed.
Definition file_opt (o : opt) : Prop := match o with OIn _ | OOut _ => True | _ => False end.
Lemma flat_files {B} (p : opt -> list B) b : Forall file_opt b -> (forall o, file_opt o -> p o = []) -> flat_map p b = [].
Proof. intros F P. induction F as [|o b Fo _ IH]; [reflexivity|]. cbn [flat_map]. rewrite (P o Fo), IH. reflexivity. Qed.
Lemma asks_files p b : Forall file_opt b -> (forall o, file_opt o -> p o = false) -> asks p b = false.
Proof. intros F P. induction F as [|o b Fo _ IH]; [reflexivity|]. unfold asks in *. cbn [existsb]. rewrite (P o Fo), IH. reflexivity. Qed.
Lemma filtering_files a b : Forall file_opt b -> filtering (a ++ b) = filtering a.
Proof. intros F. unfold filtering. rewrite asks_app, (asks_files _ b F), orb_false_r; [reflexivity|]. intros [] X; try contradiction; reflexivity. Qed.
Lemma dopts_files a b : Forall file_opt b -> dopts_of (a ++ b) = dopts_of a.
Proof. intros F. unfold dopts_of. rewrite !asks_app. rewrite !(asks_files _ b F) by (intros [] X; try contradiction; reflexivity). rewrite !orb_false_r. reflexivity. Qed.
Lemma gopts_files e a b : Forall file_opt b -> gopts_of e (a ++ b) = gopts_of e a.
Proof.
  intros F. unfold gopts_of, rhel5_of, bits32_of, ignore_of, unlink_of, adapt_of, list_of. rewrite !asks_app. rewrite !(asks_files _ b F) by (intros [] X; try contradiction; reflexivity). rewrite !orb_false_r.
  rewrite !flat_map_app. rewrite !(flat_files _ b F) by (intros [] X; try contradiction; reflexivity). cbn [flat_map]. rewrite !app_nil_r. reflexivity.
Qed.
Lemma app_neq_self (f : text) (x : text) : x <> [] -> f <> f ++ x.
Proof. intros N E. apply (f_equal (@length _)) in E. rewrite app_length in E. destruct x; [contradiction N; reflexivity|cbn in E; lia]. Qed.
Lemma forall2_one {A B} (P : A -> B -> Prop) a l : Forall2 P [a] l -> exists b, l = [b] /\ P a b.
Proof. intros H. inversion H as [|? b ? r Pa R]; subst. inversion R; subst. exists b. split; [reflexivity|exact Pa]. Qed.
Lemma forall2_two {A B} (P : A -> B -> Prop) a a' l : Forall2 P [a; a'] l -> exists b b', l = [b; b'] /\ P a b /\ P a' b'.
Proof. intros H. inversion H as [|? b ? r Pa R]; subst. apply forall2_one in R. destruct R as (b' & -> & Pb). exists b, b'. auto. Qed.
Lemma filter_run e k dos f fs fs' : e_room e = None -> wants (k_dbg k) dos -> filtering dos = true -> gmain e fs (k_dbg k ++ [str "-i"; f; str "-o"; f ++ str ".tmp"]) = (GExit 0, fs') ->
  exists c t, fs f = Some c /\ dbg_filter (e_arch e) (dopts_of dos) (e_buf e) (input_of e f c) = Ok t /\ fs' (f ++ str ".tmp") = Some t /\ only [f ++ str ".tmp"] fs fs'.
Proof.
  intros Ro (wss & Sy & Ek & I0 & O0) Fi G. set (g := f ++ str ".tmp") in *.
  assert (Sy' : Forall2 says (dos ++ [OIn f; OOut g]) (wss ++ [[str "-i"; f]; [str "-o"; g]])).
  { apply Forall2_app; [exact Sy|]. constructor; [left; exists "-i"%string; split; [reflexivity|left; reflexivity]|]. constructor; [left; exists "-o"%string; split; [reflexivity|left; reflexivity]|constructor]. }
  assert (Sc0 := scan_all _ _ Sy'). rewrite concat_app, <- Ek in Sc0.
  assert (Sc : scan (k_dbg k ++ [str "-i"; f; str "-o"; g]) = (dos ++ [OIn f; OOut g], [])) by exact Sc0. clear Sc0.
  assert (Ff : Forall file_opt [OIn f; OOut g]) by (repeat constructor).
  assert (On := gmain_only _ _ _ _ _ G). rewrite Sc in On. cbn [fst] in On. rewrite outs_app, O0 in On. cbn [app outs_of flat_map] in On.
  destruct (gmain_zero _ _ _ _ G) as (os & l & o & is & t & E & NB & Eo & Mk & Hd & Et & R). rewrite Sc in E. assert (os = dos ++ [OIn f; OOut g]) by congruence. subst os. clear E.
  rewrite ins_app, I0, outs_app, O0 in Hd. cbn [app ins_of outs_of flat_map] in Hd. apply forall2_one in Hd. destruct Hd as (i & -> & (c & _ & _ & -> & Hc)).
  rewrite outs_app, O0 in Eo. cbn [app outs_of flat_map] in Eo. assert (o = g). { destruct l as [|? [|? ?]]; cbn in Eo; congruence. } subst o.
  rewrite filtering_files, Fi, dopts_files in R by exact Ff. destruct R as (i & r & Ei & _ & R). assert (input_of e f c = i) by congruence. subst i.
  unfold written in Et. rewrite Ro in Et. exists c, t. split; [|split; [exact R|split; [exact Et|exact On]]].
  destruct Hc as [Hc|([Hc|[]] & _)]; [exact Hc|]. exfalso. exact (app_neq_self f (str ".tmp") ltac:(discriminate) (eq_sym Hc)).
Qed.
Lemma patch_run e k pos f0 f1 o fs fs' : e_room e = None -> wants (k_patch k) pos -> filtering pos = false -> f0 <> o -> f1 <> o -> gmain e fs (k_patch k ++ [str "-i"; f0; str "-i"; f1; str "-o"; o]) = (GExit 0, fs') ->
  exists c0 c1 t, fs f0 = Some c0 /\ fs f1 = Some c1 /\ GenModel.gensrc (e_arch e) (gopts_of e pos) (e_buf e) (input_of e f0 c0) (input_of e f1 c1) = Ok t /\ fs' o = Some t /\ only [o] fs fs'.
Proof.
  intros Ro (wss & Sy & Ek & I0 & O0) Fi N0 N1 G.
  assert (Sy' : Forall2 says (pos ++ [OIn f0; OIn f1; OOut o]) (wss ++ [[str "-i"; f0]; [str "-i"; f1]; [str "-o"; o]])).
  { apply Forall2_app; [exact Sy|]. constructor; [left; exists "-i"%string; split; [reflexivity|left; reflexivity]|]. constructor; [left; exists "-i"%string; split; [reflexivity|left; reflexivity]|].
    constructor; [left; exists "-o"%string; split; [reflexivity|left; reflexivity]|constructor]. }
  assert (Sc0 := scan_all _ _ Sy'). rewrite concat_app, <- Ek in Sc0.
  assert (Sc : scan (k_patch k ++ [str "-i"; f0; str "-i"; f1; str "-o"; o]) = (pos ++ [OIn f0; OIn f1; OOut o], [])) by exact Sc0. clear Sc0.
  assert (Ff : Forall file_opt [OIn f0; OIn f1; OOut o]) by (repeat constructor).
  assert (On := gmain_only _ _ _ _ _ G). rewrite Sc in On. cbn [fst] in On. rewrite outs_app, O0 in On. cbn [app outs_of flat_map] in On.
  destruct (gmain_zero _ _ _ _ G) as (os & l & o' & is & t & E & NB & Eo & Mk & Hd & Et & R). rewrite Sc in E. assert (os = pos ++ [OIn f0; OIn f1; OOut o]) by congruence. subst os. clear E.
  rewrite ins_app, I0, outs_app, O0 in Hd. cbn [app ins_of outs_of flat_map] in Hd. apply forall2_two in Hd. destruct Hd as (i0 & i1 & -> & (c0 & _ & _ & -> & H0) & (c1 & _ & _ & -> & H1)).
  rewrite outs_app, O0 in Eo. cbn [app outs_of flat_map] in Eo. assert (o' = o). { destruct l as [|? [|? ?]]; cbn in Eo; congruence. } subst o'.
  rewrite filtering_files, Fi, gopts_files in R by exact Ff. destruct R as (j0 & j1 & Ei & R). assert (input_of e f0 c0 = j0 /\ input_of e f1 c1 = j1) as (<- & <-) by (split; congruence).
  unfold written in Et. rewrite Ro in Et. exists c0, c1, t. split; [|split; [|split; [exact R|split; [exact Et|exact On]]]].
  - destruct H0 as [H0|([H0|[]] & _)]; [exact H0|congruence].
  - destruct H1 as [H1|([H1|[]] & _)]; [exact H1|congruence].
Qed.
(** A file filtered in place *)
Lemma filter_did e k dos f h h2 l fs fs' : e_room e = None -> wants (k_dbg k) dos -> filtering dos = true -> k_dbg k <> [] -> did e k h fs fs' -> Forall fine h -> Forall whole h ->
  map fst h = filter_steps k f ++ l -> h2 = skipn 2 h ->
  exists c t fs1, fs f = Some c /\ dbg_filter (e_arch e) (dopts_of dos) (e_buf e) (input_of e f c) = Ok t /\ fs1 f = Some t /\ fs1 (f ++ str ".tmp") = None /\ only [f; f ++ str ".tmp"] fs fs1 /\
    did e k h2 fs1 fs' /\ map fst h2 = l /\ Forall fine h2 /\ Forall whole h2.
Proof.
  intros Ro Wa Fi NN Di Fn Wh Eh ->. unfold filter_steps in Eh. destruct (k_dbg k) as [|w ws] eqn:Ek; [contradiction NN; reflexivity|]. rewrite <- Ek in Wa, Eh. clear NN.
  destruct h as [|(e1, r1) [|(e2, r2) h]]; cbn [map fst app] in Eh; try discriminate. assert (e1 = CcSpec.gensrc k (k_dbg k ++ [str "-i"; f; str "-o"; f ++ str ".tmp"])) by congruence.
  assert (e2 = Rename (f ++ str ".tmp") f) by congruence. assert (El : map fst h = l) by congruence. subst e1 e2. clear Eh.
  inversion Di as [|? ? ? s1 ? D1 Di']; subst. inversion Di' as [|? ? ? s2 ? D2 Di2]; subst. inversion Fn as [|? ? F1 Fn']; subst. inversion Fn' as [|? ? F2 Fn2]; subst. inversion Wh as [|? ? W1 Wh']; subst. inversion Wh' as [|? ? W2 Wh2]; subst.
  apply gensrc_done in D1; [|assumption|assumption]. destruct (filter_run e k dos f fs s1 Ro Wa Fi D1) as (c & t & Ec & Ed & Et & On).
  apply rename_done in D2; [|assumption]. destruct D2 as (t' & Et' & ->). assert (t' = t) by congruence. subst t'.
  assert (Nf : f ++ str ".tmp" <> f) by (intros E; exact (app_neq_self f (str ".tmp") ltac:(discriminate) (eq_sym E))).
  exists c, t. eexists. split; [exact Ec|]. split; [exact Ed|]. split; [apply fput_same|]. split; [rewrite fput_other by exact Nf; apply fput_same|]. split; [|split; [exact Di2|split; [reflexivity|split; assumption]]].
  intros n N. cbn [In] in N. rewrite fput_other by (intros ->; tauto). rewrite fput_other by (intros ->; tauto). apply On. cbn [In]. intros [E|[]]. apply N. right. left. exact E.
Qed.
Lemma suffix_neq (b x y : text) : list_eqb x y = false -> b ++ x <> b ++ y.
Proof. intros H E. apply app_inv_head in E. subst. rewrite list_eqb_same in H. discriminate. Qed.
Lemma end_neq (b x y : text) : list_eqb (firstn 1 (rev x)) (firstn 1 (rev y)) = false -> x <> [] -> b ++ x <> y.
Proof. intros H N E. subst y. rewrite rev_app_distr in H. destruct (rev x) as [|a r] eqn:R; [apply (f_equal (@rev _)) in R; rewrite rev_involutive in R; contradiction|]. cbn [firstn app] in H. rewrite list_eqb_same in H. discriminate. Qed.
Lemma patch_did e k dos pos base found h fs fs' : e_room e = None -> wants (k_dbg k) dos -> filtering dos = true -> wants (k_patch k) pos -> filtering pos = false ->
  map fst h = patch_steps k base found -> Forall fine h -> Forall whole h -> found_said base found h -> did e k h fs fs' -> patch_made e dos pos base found fs fs'.
Proof.
  intros Ro Wd Fd Wp Fp Eh Fn Wh Fs Di.
  assert (NN : k_dbg k <> []). { destruct Wd as (wss & Sy & E & _ & _). intros N. rewrite N in E. destruct Sy as [|o ws os wss' S _]; [discriminate Fd|]. cbn in E. symmetry in E. apply app_eq_nil in E. destruct E as (-> & _).
    destruct o; cbn [says] in S; try discriminate; try contradiction; try (destruct S as [(? & _ & [S|(_ & S)])|[S|S]]; discriminate). destruct S; discriminate. }
  unfold patch_steps in Eh. cbv zeta in Eh. destruct h as [|(e0, r0) h]; cbn [map fst app] in Eh; [discriminate|]. assert (e0 = Access (base ++ str ".original.s")) by congruence. subst e0.
  assert (El := f_equal (@tl _) Eh). cbn [tl] in El. clear Eh. inversion Di as [|? ? ? s1 ? D0 Di1]; subst. inversion Fn as [|? ? F0 Fn1]; subst. inversion Wh as [|? ? W0 Wh1]; subst. clear Di Fn Wh.
  assert (r0 = if found then 0 else 2).
  { destruct Fs as [Fs|Fs]; [congruence|]. exfalso. apply (in_map fst) in Fs. rewrite El in Fs. cbn [fst] in Fs. unfold filter_steps in Fs. destruct found; repeat (apply in_app_or in Fs; destruct Fs as [Fs|Fs]);
      try (destruct (k_dbg k); [contradiction|destruct Fs as [Fs|[Fs|[]]]; discriminate]); try (destruct Fs as [Fs|[Fs|[]]]; discriminate); contradiction. }
  subst r0. assert (s1 = fs /\ fs (base ++ str ".original.s") = (if found then fs (base ++ str ".original.s") else None)) as (-> & Eo).
  { apply access_done in D0. destruct D0 as (-> & E2). split; [reflexivity|]. destruct found; [reflexivity|]. destruct (fs (base ++ str ".original.s")); [discriminate E2|reflexivity]. }
  set (orig := base ++ str ".original.s") in *. set (new := base ++ str ".patched.s") in *.
  assert (T1 : orig ++ str ".tmp" = base ++ str ".original.s.tmp") by (unfold orig; rewrite <- app_assoc; reflexivity).
  assert (T2 : new ++ str ".tmp" = base ++ str ".patched.s.tmp") by (unfold new; rewrite <- app_assoc; reflexivity).
  assert (Sec : exists fo f s2 h2, did e k h2 s2 fs' /\ Forall fine h2 /\ Forall whole h2 /\
     map fst h2 = filter_steps k new ++ [CcSpec.gensrc k (k_patch k ++ [str "-i"; f; str "-i"; new; str "-o"; base ++ str ".s.tmp"]); Rename (base ++ str ".s.tmp") (base ++ str ".s")] /\
     only [orig; base ++ str ".original.s.tmp"] fs s2 /\ (if found then f = orig /\ s2 f = Some fo /\ exists co, fs f = Some co /\ dbg_filter (e_arch e) (dopts_of dos) (e_buf e) (input_of e f co) = Ok fo else f = str "/dev/null" /\ fs = s2)).
  { destruct found.
    - destruct (filter_did e k dos orig h _ _ fs fs' Ro Wd Fd NN Di1 Fn1 Wh1 El eq_refl) as (c & t & s2 & A1 & A2 & A3 & A4 & A5 & A6 & A7 & A8 & A9).
      exists t, orig, s2, (skipn 2 h). rewrite T1 in A5. split; [exact A6|]. split; [exact A8|]. split; [exact A9|]. split; [exact A7|]. split; [exact A5|]. split; [reflexivity|]. split; [exact A3|]. exists c. split; assumption.
    - exists [], (str "/dev/null"), fs, h. split; [exact Di1|]. split; [exact Fn1|]. split; [exact Wh1|]. split; [exact El|]. split; [intros n _; reflexivity|]. split; reflexivity. }
  destruct Sec as (fo & f & s2 & h2 & Di2 & Fn2 & Wh2 & Eh2 & On2 & Sf).
  destruct (filter_did e k dos new h2 _ _ s2 fs' Ro Wd Fd NN Di2 Fn2 Wh2 Eh2 eq_refl) as (cn & fn & s3 & B1 & B2 & B3 & B4 & B5 & B6 & B7 & B8 & B9). rewrite T2 in B5.
  assert (Nno : new <> orig) by (apply suffix_neq; reflexivity). assert (Nns : new <> base ++ str ".s.tmp") by (apply suffix_neq; reflexivity).
  assert (Nnot : new <> base ++ str ".original.s.tmp") by (apply suffix_neq; reflexivity). assert (Nos : orig <> base ++ str ".s.tmp") by (apply suffix_neq; reflexivity).
  assert (Nf : f <> base ++ str ".s.tmp"). { destruct found; [destruct Sf as (-> & _); exact Nos|]. destruct Sf as (-> & _). intros E. symmetry in E. revert E. apply end_neq; [reflexivity|discriminate]. }
  assert (Nf2 : f <> new). { destruct found; [destruct Sf as (-> & _); congruence|]. destruct Sf as (-> & _). intros E. symmetry in E. revert E. apply end_neq; [reflexivity|discriminate]. }
  assert (Nf3 : f <> base ++ str ".patched.s.tmp"). { destruct found; [destruct Sf as (-> & _); apply suffix_neq; reflexivity|]. destruct Sf as (-> & _). intros E. symmetry in E. revert E. apply end_neq; [reflexivity|discriminate]. }
  assert (Nf4 : f <> base ++ str ".s"). { destruct found; [destruct Sf as (-> & _); apply suffix_neq; reflexivity|]. destruct Sf as (-> & _). intros E. symmetry in E. revert E. apply end_neq; [reflexivity|discriminate]. }
  clear Di2 Fn2 Wh2 Eh2 Di1 Fn1 Wh1 El. destruct (skipn 2 h2) as [|(e1, r1) [|(e2, r2) [|? ?]]]; cbn [map fst] in B7; try discriminate.
  assert (e1 = CcSpec.gensrc k (k_patch k ++ [str "-i"; f; str "-i"; new; str "-o"; base ++ str ".s.tmp"])) by congruence. assert (e2 = Rename (base ++ str ".s.tmp") (base ++ str ".s")) by congruence. subst e1 e2. clear B7.
  inversion B6 as [|? ? ? s4 ? D1 Di']; subst. inversion Di' as [|? ? ? s5 ? D2 Di5]; subst. inversion Di5; subst. inversion B8 as [|? ? F1 Fn']; subst. inversion Fn' as [|? ? F2 _]; subst. inversion B9 as [|? ? W1 _]; subst.
  apply gensrc_done in D1; [|assumption|assumption]. destruct (patch_run e k pos f new (base ++ str ".s.tmp") s3 s4 Ro Wp Fp Nf Nns D1) as (c0 & c1 & t & P0 & P1 & P2 & P3 & P4).
  apply rename_done in D2; [|assumption]. destruct D2 as (t' & Et' & ->). assert (t' = t) by congruence. subst t'. assert (c1 = fn) by congruence. subst c1.
  assert (Fs' : forall n, n <> base ++ str ".s.tmp" -> n <> base ++ str ".s" -> fput (fput s4 (base ++ str ".s.tmp") None) (base ++ str ".s") (Some t) n = s3 n).
  { intros n N1 N2. rewrite fput_other by exact N2. rewrite fput_other by exact N1. apply P4. intros [E|[]]. apply N1. symmetry. exact E. }
  assert (Nns' : new <> base ++ str ".s") by (apply suffix_neq; reflexivity). assert (Nos' : orig <> base ++ str ".s") by (apply suffix_neq; reflexivity).
  constructor.
  - exists cn, fn. split; [rewrite <- B1; symmetry; apply On2; cbn [In]; intros [E|[E|[]]]; [exact (Nno (eq_sym E))|exact (Nnot (eq_sym E))]|].
    split; [rewrite Fs' by assumption; exact B3|]. split; [exact B2|]. exists f, c0, t. split; [apply fput_same|]. split; [rewrite Fs' by assumption; exact P0|]. split; [exact P2|].
    assert (s3 f = s2 f). { apply B5. cbn [In]. intros [E|[E|[]]]; [exact (Nf2 (eq_sym E))|exact (Nf3 (eq_sym E))]. }
    destruct found.
    + destruct Sf as (-> & Sf & co & C1 & C2). split; [reflexivity|]. exists co. split; [exact C1|]. assert (c0 = fo) by congruence. subst c0. exact C2.
    + destruct Sf as (-> & E2). split; [reflexivity|]. split; [exact Eo|]. rewrite Fs' by assumption. rewrite <- Eo, E2. apply B5. cbn [In]. intros [E|[E|[]]]; [exact (Nno E)|]. revert E. apply suffix_neq. reflexivity.
  - intros n N. cbn [In] in N. rewrite Fs' by (intros ->; tauto). rewrite B5 by (cbn [In]; intros [E|[E|[]]]; subst; tauto). apply On2. cbn [In]. intros [E|[E|[]]]; subst; tauto.
Qed.
Lemma did_app e k a b fs fs' : did e k (a ++ b) fs fs' -> exists fs1, did e k a fs fs1 /\ did e k b fs1 fs'.
Proof. revert fs. induction a as [|x a IH]; intros fs H; cbn [app] in H; [exists fs; split; [constructor|exact H]|]. inversion H as [|? ? ? s1 ? D R]; subst. destruct (IH _ R) as (s2 & A & B). exists s2. split; [econstructor; eassumption|exact B]. Qed.
Lemma map_split {A B} (g : A -> B) h a b : map g h = a ++ b -> exists x y, h = x ++ y /\ map g x = a /\ map g y = b.
Proof. revert h. induction a as [|u a IH]; intros h H; [exists [], h; auto|]. destruct h as [|v h]; [discriminate|]. cbn in H. assert (E1 : g v = u) by congruence. assert (E2 : map g h = a ++ b) by congruence.
  destruct (IH _ E2) as (x & y & -> & Ex & Ey). exists (v :: x), y. cbn. rewrite E1, Ex. auto. Qed.
