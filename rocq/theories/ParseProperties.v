(** Properties of the blocks and the sections of an assembler file. *)
From Coq Require Import String Sorted.
From Verif Require Import Base BaseProofs StorageModel TextModel TextSpec TextProofs ParseModel ParseSpec ParseProofs
  SectSpec SectProofs.
Open Scope list_scope.

(** ** C46: the blocks of a file *)
(** The blocks come in the order of the file, do not overlap, are not empty and lie in
    the lines after the first; each line after the first is in one of them or is a line
    that may be left out; the names of blocks that have one differ; the lines
    are kept, but for lines with flags for the tool. *)
Theorem C46_blocks_cover_file a ls ls' bs :
  Forall (fun x => ~ In 10 (l_text x)) ls -> cblocks_init a ls = Ok (ls', bs) ->
  in_order (length ls) bs
  /\ NoDup (filter (fun n => negb (list_eqb n [])) (map (fun b => txt (b_name b)) bs))
  /\ Forall2 kept ls ls'
  /\ forall k y, (1 <= k)%nat -> nth_error ls k = Some y ->
       (exists b, In b bs /\ covers b k /\ forall c, In c bs -> covers c k -> c = b)
       \/ left_out bs y.
Proof.
  intros N H. destruct (cblocks_init_spec a ls ls' bs N H) as (O & ND & K & C). split; auto. split; [exact ND|]. split; auto.
  intros k y Hk E. specialize (C k y Hk E).
  assert (U : forall b c, In b bs -> In c bs -> covers b k -> covers c k -> c = b).
  { destruct O as (S & _). clear - S. induction S as [|x l S IH F]; intros b c Hb Hc Cb Cc; [destruct Hb|].
    rewrite Forall_forall in F. unfold covers in *.
    destruct Hb as [<-|Hb], Hc as [<-|Hc]; auto.
    - specialize (F c Hc). lia.
    - specialize (F b Hb). lia. }
  destruct C as [(b & Hb & Cb)|L]; [|now right].
  left. exists b. split; auto.
Qed.
Print Assumptions C46_blocks_cover_file.
(** A file cut into blocks *)
Definition stmts (l : list string) : list stmt := map (fun s => {| st_text := str s; st_num := 1; st_own := false |}) l.
Definition sample : list stmt := stmts
  [""; "	.file	""a.c"""; "	.text"; "	.globl	f"; "	.type	f, @function"; "f:"; "	ret"; "	.size	f, .-f";
   "	.globl	v"; "	.data"; "	.type	v, @object"; "v:"; "	.long	1"; "	.weak	w"; "	.ident	""GCC"""; "	.string ""x"""]%string.
Example C46_case : exists ls tab ls' bs, init_sections px86 predefined sample = Ok (ls, tab)
  /\ Forall (fun x => ~ In 10 (l_text x)) ls
  /\ cblocks_init px86 ls = Ok (ls', bs)
  /\ map (fun b => (b_type b, txt (b_name b), b_start b, b_end b)) bs
     = [(BOther, [], 1, 2); (BFunc, str "f", 2, 8); (BVar, str "v", 8, 13); (BAttr, str ".weak	w", 13, 14);
        (BOther, [], 14, 16)]%nat.
Proof.
  eexists _, _, _, _. split; [vm_compute; reflexivity|]. split; [repeat constructor; vm_compute; intuition discriminate|].
  split; [vm_compute; reflexivity|]. vm_compute. reflexivity.
Qed.

(** Cutting a file into blocks ends, and does so with the blocks or with an error. *)
Theorem C46_cutting_ends a ls : (exists r, cblocks_init a ls = Ok r) \/ cblocks_init a ls = Fatal.
Proof. pose proof (cblocks_init_ew a ls) as H. destruct (cblocks_init a ls); cbn in H; eauto; contradiction. Qed.
Print Assumptions C46_cutting_ends.

(** An error: two functions of one name *)
Example C46_error_case : exists ls tab, init_sections px86 predefined (stmts
    [""; "	.type	f, @function"; "f:"; "	.size	f, .-f"; "	.type	f, @function"; "f:"; "	.size	f, .-f"; ""]%string) = Ok (ls, tab)
  /\ cblocks_init px86 ls = Fatal.
Proof. eexists _, _. split; [vm_compute; reflexivity|]. vm_compute. reflexivity. Qed.

(** Not every line is in a block: a line that makes a symbol weak is dropped when it
    repeats another one. *)
Theorem C46_every_line_refuted : exists ls ls' bs k y,
  cblocks_init px86 ls = Ok (ls', bs) /\ (1 <= k)%nat /\ nth_error ls k = Some y /\ l_text y <> []
  /\ l_type y = parse_ctype px86 (l_text y) /\ forall b, In b bs -> ~ covers b k.
Proof.
  pose (mk := fun s => {| l_text := str s; l_num := 1; l_type := parse_ctype px86 (str s); l_sect := Sect (str ".text") None true None |}).
  exists (map mk [""; "	.weak	w"; "	.weak	w"]%string). eexists _, _, 2%nat, _. split; [vm_compute; reflexivity|].
  split; [lia|]. split; [reflexivity|]. split; [discriminate|]. split; [reflexivity|].
  intros b [<-|[]]. unfold covers. cbn. lia.
Qed.
Print Assumptions C46_every_line_refuted.

(** ** C87: the sections of the lines *)
(** In a simple file, the section each line is filed under is the one the assembler
    puts it into; and nothing else of the lines changes.  The first line is the empty
    one before the text.  [predefined ++ more]: the sections known from files read
    before. *)
Theorem C87_sections_follow_directives a x ls os more :
  Forall2 (fun y o => says (parse_ctype a (st_text y)) (st_text y) o) ls os -> simple Fresh os ->
  exists xs tab, init_sections a (predefined ++ more) (x :: ls) = Ok (xs, tab)
    /\ map (fun y => sc_name (l_sect y)) xs = str ".text" :: gas_sections gas_start os
    /\ map l_text xs = map st_text (x :: ls) /\ map l_num xs = map st_num (x :: ls)
    /\ map l_type xs = map (fun y => parse_ctype a (st_text y)) (x :: ls).
Proof.
  intros F S. destruct (init_ok a x ls os (predefined ++ more)) as (xs & tab & E & _ & M); auto; [now exists more|].
  exists xs, tab. split; auto.
Qed.
Print Assumptions C87_sections_follow_directives.
Lemma tab_blank : blank (str "	").
Proof. constructor; [now right|constructor]. Qed.
Example C87_case : Forall2 (fun y o => says (parse_ctype px86 (st_text y)) (st_text y) o)
    (stmts ["	.data"; "v:"; "	.pushsection	.note,""a"""; "	.popsection"; "	.section	"".text.hot"",""ax"""; "	.previous"]%string)
    [Enter (str ".data"); Stay; Push (str ".note"); Pop; Enter (str ".text.hot"); Previous]
  /\ simple Fresh [Enter (str ".data"); Stay; Push (str ".note"); Pop; Enter (str ".text.hot"); Previous]
  /\ gas_sections gas_start [Enter (str ".data"); Stay; Push (str ".note"); Pop; Enter (str ".text.hot"); Previous]
     = [str ".data"; str ".data"; str ".note"; str ".data"; str ".text.hot"; str ".data"].
Proof.
  split; [|split; [cbn; auto|reflexivity]].
  repeat (apply Forall2_cons; [|]); try apply Forall2_nil.
  - reflexivity.
  - reflexivity.
  - exists (str ".note"). split; [|reflexivity]. exists (str "	"), (str ".pushsection"), (str "	"), (str ",""a""").
    split; [exact tab_blank|]. split; [split; [discriminate|]; split; [repeat constructor; vm_compute; intuition discriminate|discriminate]|].
    split; [exact tab_blank|]. split; [discriminate|]. left.
    split; [split; [discriminate|]; split; [repeat constructor; vm_compute; intuition discriminate|discriminate]|].
    split; [|reflexivity]. intros c r' E. injection E as <- _. simpl; auto.
  - reflexivity.
  - exists (str ".text.hot"). split; [|reflexivity]. exists (str "	"), (str ".section"), (str "	"), (str ",""ax""").
    split; [exact tab_blank|]. split; [split; [discriminate|]; split; [repeat constructor; vm_compute; intuition discriminate|discriminate]|].
    split; [exact tab_blank|]. split; [discriminate|]. right.
    split; [discriminate|]. split; [vm_compute; intuition discriminate|]. split; [vm_compute; intuition discriminate|reflexivity].
  - reflexivity.
Qed.

(** Which sections hold code: a new one does if and only if its flags say so, *)
Theorem C87_executable s n fl tab cur d : names_flags s n fl -> find_section tab n = None -> d = DSection \/ d = DPushsection ->
  exists x, next_section tab d s cur = Ok (x, tab ++ [x]) /\ sc_name x = n /\ (sc_exec x = true <-> In 120 fl).
Proof.
  intros F N D. destruct (section_flags s n fl tab cur F N) as (x & E & Nm & X). exists x.
  split; [destruct D as [-> | ->]; cbn [next_section]; now rewrite E|]. split; [exact Nm|]. rewrite X, existsb_exists. split.
  - intros (c & I & C). apply Z.eqb_eq in C. now subst c.
  - intros I. exists 120. split; [exact I|reflexivity].
Qed.
Print Assumptions C87_executable.
(** one that was seen before stays what it was, *)
Theorem C87_known s n tab cur d k : names_section s n -> find_section tab n = Some k -> d = DSection \/ d = DPushsection ->
  exists x, next_section tab d s cur = Ok (x, tab) /\ sc_name x = n /\ sc_exec x = sc_exec k /\ sc_out x = sc_out k.
Proof.
  intros F N D. destruct (section_line s n tab cur F) as (x & tab' & E & Nm & _). exists x.
  assert (Q : tab' = tab /\ sc_exec x = sc_exec k /\ sc_out x = sc_out k).
  { assert (S0 : section_name (fst (get_token_d sect_delims (snd (get_token (@Some text s))))) = n).
    { revert E. unfold parse_section_line. change (@Some (list Z) s) with (@Some text s).
      destruct (get_token (@Some text s)) as [t0 s1]. cbn [snd]. destruct (get_token_d sect_delims s1) as [nm s2]. cbn [fst].
      destruct (find_section tab (section_name nm)) as [[n' o e p]|] eqn:Fn; intros E; injection E as <- <-; cbn [sc_name] in Nm; subst; [|reflexivity].
      apply find_some in Fn as (_ & Fn). apply list_eqb_eq in Fn. now symmetry. }
    revert E S0. unfold parse_section_line. change (@Some (list Z) s) with (@Some text s).
    destruct (get_token (@Some text s)) as [t0 s1]. cbn [snd]. destruct (get_token_d sect_delims s1) as [nm s2]. cbn [fst]. intros E Hn.
    rewrite Hn, N in E. destruct k as [n' o e p]. injection E as <- <-. repeat split. }
  destruct Q as (-> & Q1 & Q2). split; [destruct D as [-> | ->]; cbn [next_section]; now rewrite E|]. repeat split; assumption.
Qed.
Print Assumptions C87_known.
(** and the standard ones do if their name, or the flags they are put out with, say so. *)
Theorem C87_standard k : In k predefined ->
  match sc_out k with
  | None => sc_exec k = true <-> exists i, firstn 4 (skipn i (sc_name k)) = str "text"
  | Some o => exists a fl b, o = a ++ 34 :: fl ++ 34 :: b /\ ~ In 34 a /\ ~ In 34 fl /\ (sc_exec k = true <-> In 120 fl)
  end.
Proof.
  intros I.
  assert (T : forall n b, existsb (fun i => list_eqb (firstn 4 (skipn i n)) (str "text")) (seq 0 (length n)) = b ->
    (b = true <-> exists i, firstn 4 (skipn i n) = str "text")).
  { intros n b <-. rewrite existsb_exists. split.
    - intros (i & _ & E). apply list_eqb_eq in E. eauto.
    - intros (i & E). exists i. split; [|now apply list_eqb_eq]. apply in_seq. split; [lia|]. cbn.
      destruct (Nat.lt_ge_cases i (length n)) as [L|L]; [exact L|]. rewrite skipn_all2 in E by exact L. discriminate. }
  assert (X : forall fl b, existsb (Z.eqb 120) fl = b -> (b = true <-> In 120 fl)).
  { intros fl b <-. rewrite existsb_exists. split; [intros (c & J & C); apply Z.eqb_eq in C; now subst c|intros J; exists 120; now split]. }
  assert (N : forall l : text, existsb (Z.eqb 34) l = false -> ~ In 34 l).
  { intros l E J. assert (existsb (Z.eqb 34) l = true) by (apply existsb_exists; exists 34; now split). congruence. }
  pose (up := fix up (l : text) : text := match l with [] => [] | c :: r => if c =? 34 then [] else c :: up r end).
  pose (dn := fix dn (l : text) : text := match l with [] => [] | c :: r => if c =? 34 then r else dn r end).
  unfold predefined in I. cbn [map] in I.
  repeat (destruct I as [<-|I]; [cbn [sc_out sc_exec sc_name]; first
    [ apply T; vm_compute; reflexivity
    | match goal with |- exists _ _ _, ?o = _ /\ _ => exists (up o), (up (dn o)), (dn (dn o)) end;
      split; [vm_compute; reflexivity|]; split; [apply N; vm_compute; reflexivity|]; split; [apply N; vm_compute; reflexivity|];
      apply X; vm_compute; reflexivity ]|]).
  destruct I.
Qed.
Print Assumptions C87_standard.
Example C87_executable_case : names_flags (str "	.section	.text.f,""ax"",@progbits") (str ".text.f") (str "ax") /\
  find_section predefined (str ".text.f") = None /\ names_section (str "	.section	.fixup,""ax""") (str ".fixup").
Proof.
  assert (T : blank (str "	")) by (constructor; [now right|constructor]).
  assert (W : word_of (str ".section")) by (split; [discriminate|]; split; [repeat constructor; vm_compute; intuition discriminate|discriminate]).
  split; [|split; [vm_compute; reflexivity|]].
  - exists (str "	"), (str ".section"), (str "	"), [], [], (str ",@progbits"). split; [exact T|]. split; [exact W|]. split; [exact T|]. split; [discriminate|].
    split; [constructor|]. split; [constructor|]. split; [vm_compute; intuition discriminate|]. split; [vm_compute; intuition discriminate|]. left.
    split; [split; [discriminate|]; split; [repeat constructor; vm_compute; intuition discriminate|discriminate]|reflexivity].
  - exists (str "	"), (str ".section"), (str "	"), (str ",""ax"""). split; [exact T|]. split; [exact W|]. split; [exact T|]. split; [discriminate|]. left.
    split; [split; [discriminate|]; split; [repeat constructor; vm_compute; intuition discriminate|discriminate]|]. split; [|reflexivity].
    intros c r' E. injection E as <- _. simpl; auto.
Qed.
(** The assembler takes sections called .text.f to hold code, flags or not; the tool does not. *)
Theorem C87_no_flags_refuted : exists s tab cur x, names_section s (str ".text.f") /\ next_section tab DSection s cur = Ok (x, tab ++ [x]) /\
  sc_name x = str ".text.f" /\ sc_exec x = false.
Proof.
  exists (str "	.section	.text.f"), predefined, (Sect (str ".text") None true None). eexists. split; [|split; [vm_compute; reflexivity|split; reflexivity]].
  exists (str "	"), (str ".section"), (str "	"), []. split; [constructor; [now right|constructor]|].
  split; [split; [discriminate|]; split; [repeat constructor; vm_compute; intuition discriminate|discriminate]|]. split; [constructor; [now right|constructor]|]. split; [discriminate|]. left.
  split; [split; [discriminate|]; split; [repeat constructor; vm_compute; intuition discriminate|discriminate]|]. split; [|reflexivity]. discriminate.
Qed.
Print Assumptions C87_no_flags_refuted.

(** Files that are not simple: sections pushed in one another are left wrongly, *)
Theorem C87_nested_push_refuted : exists ls os xs tab,
  Forall2 (fun y o => says (parse_ctype px86 (st_text y)) (st_text y) o) ls os
  /\ init_sections px86 predefined ({| st_text := []; st_num := 0; st_own := false |} :: ls) = Ok (xs, tab)
  /\ last (map (fun y => sc_name (l_sect y)) xs) [] <> last (gas_sections gas_start os) [].
Proof.
  exists (stmts ["	.pushsection	a"; "	.pushsection	b"; "	.popsection"; "	.popsection"]%string).
  exists [Push (str "a"); Push (str "b"); Pop; Pop]. eexists _, _.
  split; [|split; [vm_compute; reflexivity|vm_compute; discriminate]].
  assert (W : word_of (str ".pushsection")) by (split; [discriminate|]; split; [repeat constructor; vm_compute; intuition discriminate|discriminate]).
  assert (B : blank (str "	")) by exact tab_blank.
  repeat (apply Forall2_cons; [|]); try apply Forall2_nil; try reflexivity.
  - exists (str "a"). split; [|reflexivity]. exists (str "	"), (str ".pushsection"), (str "	"), []. split; auto. split; auto. split; auto.
    split; [discriminate|]. left. split; [split; [discriminate|]; split; [repeat constructor; vm_compute; intuition discriminate|discriminate]|].
    split; [discriminate|reflexivity].
  - exists (str "b"). split; [|reflexivity]. exists (str "	"), (str ".pushsection"), (str "	"), []. split; auto. split; auto. split; auto.
    split; [discriminate|]. left. split; [split; [discriminate|]; split; [repeat constructor; vm_compute; intuition discriminate|discriminate]|].
    split; [discriminate|reflexivity].
Qed.
Print Assumptions C87_nested_push_refuted.
(** the section before is wrong after .popsection, *)
Theorem C87_previous_after_pop_refuted : exists ls os xs tab,
  Forall2 (fun y o => says (parse_ctype px86 (st_text y)) (st_text y) o) ls os
  /\ init_sections px86 predefined ({| st_text := []; st_num := 0; st_own := false |} :: ls) = Ok (xs, tab)
  /\ last (map (fun y => sc_name (l_sect y)) xs) [] <> last (gas_sections gas_start os) [].
Proof.
  exists (stmts ["	.data"; "	.pushsection	a"; "	.popsection"; "	.previous"]%string).
  exists [Enter (str ".data"); Push (str "a"); Pop; Previous]. eexists _, _.
  split; [|split; [vm_compute; reflexivity|vm_compute; discriminate]].
  repeat (apply Forall2_cons; [|]); try apply Forall2_nil; try reflexivity.
  exists (str "a"). split; [|reflexivity]. exists (str "	"), (str ".pushsection"), (str "	"), [].
  split; [exact tab_blank|]. split; [split; [discriminate|]; split; [repeat constructor; vm_compute; intuition discriminate|discriminate]|].
  split; [exact tab_blank|].
  split; [discriminate|]. left. split; [split; [discriminate|]; split; [repeat constructor; vm_compute; intuition discriminate|discriminate]|].
  split; [discriminate|reflexivity].
Qed.
Print Assumptions C87_previous_after_pop_refuted.
(** and a file where the assembler only warns, as there is no section to go back to,
    is refused. *)
Theorem C87_first_previous_refuted : exists ls os,
  Forall2 (fun y o => says (parse_ctype px86 (st_text y)) (st_text y) o) ls os
  /\ gas_sections gas_start os = [str ".text"]
  /\ init_sections px86 predefined ({| st_text := []; st_num := 0; st_own := false |} :: ls) = Fatal.
Proof.
  exists (stmts ["	.previous"]%string), [Previous]. split; [repeat constructor|]. split; vm_compute; reflexivity.
Qed.
Print Assumptions C87_first_previous_refuted.
(** A static variable is taken for a global one when a global variable follows. *)
Theorem C46_static_variable_global_refuted : exists ls tab ls' bs b,
  init_sections px86 predefined (stmts [""; "	.data"; "	.type	u, @object"; "u:"; "	.long	1";
      "	.globl	v"; "	.type	v, @object"; "v:"; "	.long	1"]%string) = Ok (ls, tab)
  /\ cblocks_init px86 ls = Ok (ls', bs) /\ In b bs /\ txt (b_name b) = str "u" /\ b_globl b = true
  /\ (b_start b, b_end b) = (1, 5)%nat.
Proof.
  eexists _, _, _, _, _. split; [vm_compute; reflexivity|]. split; [vm_compute; reflexivity|].
  split; [left; reflexivity|]. repeat split.
Qed.
Print Assumptions C46_static_variable_global_refuted.

(** A word followed by a colon is a label of the file, unless it begins with a digit:
    such labels may be there many times. *)
Definition word (n : list Z) : Prop :=
  exists c r, n = c :: r /\ c <> 34 /\ c <> 35 /\ c <> 47 /\ Forall (fun d => ~ In d delims) n.
Definition directive (n : list Z) : Prop := exists x, In x directives /\ n = fst x.
Theorem C46_labels a n r : word n -> ~ directive n ->
  parse_ctype a (n ++ 58 :: r) = if (48 <=? hd 0 n) && (hd 0 n <=? 57) then DLocalLabel else DLabel.
Proof.
  intros (c & q & -> & N34 & N35 & N47 & F) Nd.
  assert (Nc : ~ In c delims) by now inversion F.
  assert (Sk : skip_blanks ((c :: q) ++ 58 :: r) = (c :: q) ++ 58 :: r).
  { cbn [app skip_blanks]. unfold isblank. destruct (Z.eqb_spec c 32) as [->|]; [destruct Nc; vm_compute; auto|]. destruct (Z.eqb_spec c 9) as [->|]; [destruct Nc; vm_compute; auto|]. reflexivity. }
  unfold parse_ctype. rewrite Sk.
  replace (prefix_of [35] ((c :: q) ++ 58 :: r)) with false by (cbn [app prefix_of]; destruct (Z.eqb_spec 35 c); [congruence|reflexivity]).
  replace (prefix_of [47; 47] ((c :: q) ++ 58 :: r)) with false by (cbn [app prefix_of]; destruct (Z.eqb_spec 47 c); [congruence|reflexivity]).
  rewrite andb_false_r. cbn [orb].
  assert (U : forall m, Forall (fun d => ~ In d delims) m -> undelimited delims (m ++ 58 :: r) = (m, 58 :: r)).
  { induction m as [|x m IH]; intros Fm; [reflexivity|]. inversion Fm; subst. cbn [app undelimited].
    replace (among x delims) with false; [now rewrite IH|]. symmetry. apply not_true_iff_false. intros A. apply existsb_exists in A as (y & I & E).
    apply Z.eqb_eq in E as ->. auto. }
  assert (G : get_token (@Some text ((c :: q) ++ 58 :: r)) = (KStr (c :: q) (58 :: r), Some (58 :: r))).
  { unfold get_token, get_token_d. rewrite Sk.
    replace (at_end ((c :: q) ++ 58 :: r)) with false by (cbn [app at_end]; symmetry; apply Z.eqb_neq; intros ->; apply Nc; vm_compute; auto 20).
    cbn [app]. replace (c =? 34) with false by (symmetry; now apply Z.eqb_neq).
    change (c :: q ++ 58 :: r) with ((c :: q) ++ 58 :: r). rewrite (U _ F). reflexivity. }
  rewrite G. cbn [txt]. replace (find_ctype (c :: q)) with (@None dir); [reflexivity|].
  unfold find_ctype. destruct (find _ directives) as [x|] eqn:E; auto. exfalso. apply find_some in E as (I & E). apply same_spec in E.
  apply Nd. exists x. now split.
Qed.
Print Assumptions C46_labels.
Example C46_labels_example : parse_ctype px86 (str "foo: ret") = DLabel /\ parse_ctype px86 (str "1: ret") = DLocalLabel
  /\ word (str "foo") /\ ~ directive (str "foo").
Proof.
  split; [reflexivity|]. split; [reflexivity|]. split.
  - exists 102, (str "oo"). repeat split; try discriminate. repeat constructor; cbn; intuition discriminate.
  - intros (x & I & E). revert E. vm_compute in I. repeat (destruct I as [<-|I]; [discriminate|]). destruct I.
Qed.

(** ** A block is marked as global only if the file has a .globl line. *)
Section NoGlobl.
Variable a : parch.
Notation local_line := (fun x => l_type x <> DGlobl).
Lemma variable_start_local : forall ls n nm e g nm2, Forall local_line ls ->
  variable_start_from a n false nm ls = Ok (Some (e, g, nm2)) -> g <> Some true.
Proof.
  induction ls as [|x r IH]; intros n nm e g nm2 F H; cbn [variable_start_from] in H; [discriminate|].
  inversion F as [|? ? F1 F2]; subst.
  assert (R : forall n', variable_start_from a (S n) false n' r = Ok (Some (e, g, nm2)) -> g <> Some true).
  { intros n' E. eapply IH; eassumption. }
  destruct (list_eqb (l_text x) [] && negb (Nat.eqb n 0)); [eauto|].
  destruct (hot_label a x); [eauto|].
  match type of H with (if ?c then _ else _) = _ => destruct c; [discriminate|] end.
  destruct (l_type x) eqn:T; try discriminate; try (exfalso; apply F1; reflexivity); try (eapply R; eassumption).
  all: try (destruct (get_type_args (l_text x)) as [[[? ?]|]| | |]; cbn [rbind] in H; try discriminate;
            destruct (existsb _ _); [eapply R; eassumption|discriminate]).
  all: try (destruct (Nat.eqb n 0); [discriminate|eapply R; eassumption]).
  all: try (destruct (sc_exec (l_sect x)); [discriminate|]).
  all: try (destruct (pa_set a); [|discriminate]).
  all: injection H as _ <- _; discriminate.
Qed.
Lemma Forall_skipn {A} (P : A -> Prop) : forall n l, Forall P l -> Forall P (skipn n l).
Proof. induction n as [|n IH]; intros [|y l] F; cbn [skipn]; auto. inversion F. auto. Qed.
Lemma var_lines_local : forall n nm ls k g, Forall local_line ls -> var_lines a n nm false ls = Ok (k, g) -> g = false.
Proof.
  induction n as [|n IH]; intros nm ls k g F H; destruct ls as [|x r]; cbn [var_lines] in H; try discriminate; try (now injection H as _ <-).
  destruct (is_variable_start a (x :: r)) as [[[[e gl] nm2]|]| | |] eqn:V; cbn [rbind] in H; try discriminate.
  - pose proof (variable_start_local _ _ _ _ _ _ F V) as G.
    assert (E : match gl with Some g => g | None => false end = false) by (destruct gl as [[]|]; congruence). rewrite E in H.
    destruct (negb _); [now injection H as _ <-|].
    destruct (var_lines a n nm false (skipn e (x :: r))) as [[q g']| | |] eqn:E2; cbn [rbind] in H; try discriminate.
    apply IH in E2; [|now apply Forall_skipn]. now injection H as _ <-.
  - destruct (is_data_def a (l_text x)); [|now injection H as _ <-].
    destruct (var_lines a n nm false r) as [[q g']| | |] eqn:E2; cbn [rbind] in H; try discriminate.
    apply IH in E2; [|now inversion F]. now injection H as _ <-.
Qed.
Lemma func_lines_local : forall ls nm cnt ad u v g ad', Forall local_line ls -> func_lines a nm cnt false ad ls = Ok (u, v, g, ad') ->
  g = false /\ Forall local_line v.
Proof.
  induction ls as [|x r IH]; intros nm cnt ad u v g ad' F H; cbn [func_lines] in H.
  - injection H as _ <- <- _. auto.
  - inversion F as [|? ? F1 F2]; subst. destruct r as [|y r'].
    + injection H as _ <- <- _. auto.
    + set (r := y :: r') in *.
      destruct (if dir_beq (l_type x) DKpflags then has_adapted (l_text x) else Ok false) as [f| | |]; cbn [rbind] in H; try discriminate.
      set (x' := if dir_beq (l_type x) DKpflags then emptied x else x) in *.
      destruct (recog_func_attr a x' nm) as [c| | |]; cbn [rbind] in H; try discriminate.
      assert (E : dir_beq (l_type x) DGlobl = false).
      { destruct (dir_beq (l_type x) DGlobl) eqn:E; [|reflexivity]. apply internal_dir_dec_bl in E. congruence. }
      rewrite E in H. cbn [orb] in H. destruct (is_function_end x' nm && (cnt + c - 1 =? 0)); [injection H as _ <- <- _; auto|].
      destruct (func_lines a nm _ false (ad || f) r) as [[[[u' v'] g'] ad'']| | |] eqn:E2; cbn [rbind] in H; try discriminate.
      injection H as _ <- <- _. eapply IH; eassumption.
Qed.
Lemma one_block_local i bs x r u v bs' : Forall local_line (x :: r) -> Forall (fun b => b_globl b = false) bs ->
  one_block a i bs x r = Ok (u, v, bs') -> Forall (fun b => b_globl b = false) bs' /\ Forall local_line v.
Proof.
  intros F B H. assert (Fr : Forall local_line r) by now inversion F.
  assert (Add : forall b bs2, cblock_add bs b = Ok bs2 -> b_globl b = false -> Forall (fun b => b_globl b = false) bs2).
  { intros b bs2 C G. unfold cblock_add in C. destruct (_ && _); [discriminate|]. injection C as <-. apply Forall_app. auto. }
  assert (Sk : forall n, Forall local_line (skipn n (x :: r))) by (intros n; apply Forall_skipn; exact F).
  unfold one_block in H. destruct (list_eqb _ _); [injection H as _ <- <-; auto|].
  destruct (is_function_start a (x :: r)) as [[f nm]| | |]; cbn [rbind] in H; try discriminate. cbn [fst snd] in H.
  destruct f.
  { destruct (func_lines a (txt nm) 0 false false (x :: r)) as [[[[u' v'] g] ad]| | |] eqn:E; cbn [rbind] in H; try discriminate.
    destruct (cblock_add bs _) as [bs''| | |] eqn:C; cbn [rbind] in H; try discriminate. injection H as _ <- <-.
    apply func_lines_local in E; [|exact F]. destruct E as (-> & E). split; [|exact E]. apply (Add _ _ C). destruct ad; reflexivity. }
  destruct (is_variable_start a (x :: r)) as [vs| | |]; cbn [rbind] in H; try discriminate.
  destruct vs as [[[e g] nm2]|].
  { destruct (var_lines a (length (x :: r)) (txt nm2) false (x :: r)) as [[n gl]| | |] eqn:E; cbn [rbind] in H; try discriminate.
    destruct (cblock_add bs _) as [bs''| | |] eqn:C; cbn [rbind fst snd] in H, C; try discriminate.
    injection H as _ <- <-. apply var_lines_local in E; [|exact F]. subst gl. split; [exact (Add _ _ C eq_refl)|apply Sk]. }
  destruct (dir_beq (l_type x) DSet).
  { destruct (cblock_add bs _) as [bs''| | |] eqn:C; cbn [rbind] in H; try discriminate. injection H as _ <- <-. split; [exact (Add _ _ C eq_refl)|exact Fr]. }
  destruct (dir_beq _ _ || _).
  { destruct (find_by_name _ _); [injection H as _ <- <-; auto|].
    destruct (cblock_add bs _) as [bs''| | |] eqn:C; cbn [rbind] in H; try discriminate. injection H as _ <- <-. split; [exact (Add _ _ C eq_refl)|exact Fr]. }
  destruct (other_lines a _ ENone (x :: r)) as [[n flag]| | |]; cbn [rbind] in H; try discriminate.
  destruct flag.
  - cbn [rbind] in H. destruct (cblock_add bs _) as [bs''| | |] eqn:C; cbn [rbind] in H; try discriminate. injection H as _ <- <-.
    split; [exact (Add _ _ C eq_refl)|apply Sk].
  - destruct (until_start a (skipn n (x :: r))) as [m| | |]; cbn [rbind] in H; try discriminate.
    destruct (cblock_add bs _) as [bs''| | |] eqn:C; cbn [rbind] in H; try discriminate. injection H as _ <- <-. split; [exact (Add _ _ C eq_refl)|apply Sk].
  - destruct (rev bs) as [|b p] eqn:Rv; [discriminate|]. injection H as _ <- <-. split; [|apply Sk].
    assert (Eb : bs = rev p ++ [b]) by (rewrite <- (rev_involutive bs), Rv; reflexivity). rewrite Eb in B. apply Forall_app in B as (B1 & B2).
    apply Forall_app. split; [exact B1|]. inversion B2; subst. constructor; [assumption|constructor].
Qed.
Lemma blocks_from_local : forall n i bs ls w, Forall local_line ls -> Forall (fun b => b_globl b = false) bs ->
  blocks_from a n i bs ls = Ok w -> Forall (fun b => b_globl b = false) (snd w).
Proof.
  induction n as [|n IH]; intros i bs ls w F B H; destruct ls as [|x r]; cbn [blocks_from] in H; try discriminate; try (injection H as <-; exact B).
  destruct (one_block a i bs x r) as [[[u v] bs']| | |] eqn:O; cbn [rbind] in H; try discriminate.
  destruct (one_block_local _ _ _ _ _ _ _ F B O) as (B' & V).
  destruct (blocks_from a n (i + length u) bs' v) as [w'| | |] eqn:E; cbn [rbind] in H; try discriminate. injection H as <-. exact (IH _ _ _ _ V B' E).
Qed.
Theorem C46_global_needs_globl : forall ls ls' bs b, cblocks_init a ls = Ok (ls', bs) -> In b bs -> b_globl b = true ->
  exists x, In x ls /\ l_type x = DGlobl.
Proof.
  intros ls ls' bs b H I G. destruct (existsb (fun x => dir_beq (l_type x) DGlobl) ls) eqn:E.
  { apply existsb_exists in E as (x & Ix & Ex). exists x. split; [exact Ix|now apply internal_dir_dec_bl]. }
  exfalso. destruct ls as [|x r]; cbn [cblocks_init] in H; [injection H as _ <-; destruct I|].
  destruct (blocks_from a (length r) 1 [] r) as [w| | |] eqn:W; cbn [rbind] in H; try discriminate. injection H as _ <-.
  apply blocks_from_local in W; [|rewrite Forall_forall; intros y Iy Ty|constructor].
  - rewrite Forall_forall in W. rewrite (W b I) in G. discriminate.
  - cbn [existsb] in E. apply orb_false_iff in E as (_ & E). assert (X : existsb (fun x => dir_beq (l_type x) DGlobl) r = true).
    { apply existsb_exists. exists y. split; [exact Iy|]. rewrite Ty. reflexivity. } congruence.
Qed.
End NoGlobl.
Print Assumptions C46_global_needs_globl.
