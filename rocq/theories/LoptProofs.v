From Coq Require Import String.
From Verif Require Import Base BaseProofs StorageModel TextModel LpModel LpProofs LoptModel LoptSpec.
Open Scope list_scope.

(** * What the shell reads is what getopt was given *)
Lemma plain_not c : plain_char c = true -> (c =? 32) || (c =? 9) = false /\ c =? 39 = false /\ c =? 92 = false.
Proof.
  unfold plain_char, is_digit. cbn [existsb]. intros H.
  assert (c <> 32 /\ c <> 9 /\ c <> 39 /\ c <> 92).
  { repeat split; intros ->; vm_compute in H; discriminate. }
  destruct H0 as (A & B & C & D). apply Z.eqb_neq in A, B, C, D. rewrite A, B, C, D. auto.
Qed.
Lemma shell_plain n : forall w r, forallb plain_char n = true -> shell (Word w) (n ++ r) = shell (Word (w ++ n)) r.
Proof.
  induction n as [|c n IH]; intros w r H; [rewrite app_nil_r; reflexivity|]. cbn [forallb] in H. apply andb_true_iff in H. destruct H as [P H].
  destruct (plain_not _ P) as (A & B & C). cbn [app shell ecurrent]. rewrite A, B, C, P. rewrite (IH _ _ H). rewrite <- app_assoc. reflexivity.
Qed.
Lemma shell_quoted v : forall w r, shell (Quoted w) (quoted v ++ r) = shell (Word (w ++ v)) r.
Proof.
  induction v as [|c v IH]; intros w r; [cbn; rewrite app_nil_r; reflexivity|]. cbn [quoted]. destruct (c =? 39) eqn:E.
  - apply Z.eqb_eq in E. subst c. cbn [app shell Z.eqb Pos.eqb orb ecurrent]. rewrite IH. rewrite <- app_assoc. reflexivity.
  - cbn [app shell]. rewrite E, IH. rewrite <- app_assoc. reflexivity.
Qed.
Definition loose (r : text) : Prop := r = [] \/ exists r', r = 32 :: r'.
Lemma shell_end w r : loose r -> shell (Word w) r = econs w (shell Out r).
Proof. intros [->|(r' & ->)]; reflexivity. Qed.
(** a word as printed: as it is, or quoted *)
Definition enc (x : bool * text) : text := if fst x then quote (snd x) else snd x.
Definition good (x : bool * text) : Prop := fst x = true \/ (snd x <> [] /\ forallb plain_char (snd x) = true).
Lemma shell_word x r : good x -> loose r -> shell Out (enc x ++ r) = econs (snd x) (shell Out r).
Proof.
  intros G L. destruct x as [[|] w]; unfold enc; cbn [fst snd] in *.
  - unfold quote. cbn [app shell Z.eqb Pos.eqb orb ecurrent]. rewrite shell_quoted. apply (shell_end w r L).
  - destruct G as [G|[N P]]; [discriminate|]. cbn [fst snd] in *. destruct w as [|c w]; [contradiction N; reflexivity|]. cbn [forallb] in P. apply andb_true_iff in P. destruct P as [P Q].
    destruct (plain_not _ P) as (A & B & C). cbn [app shell ecurrent]. rewrite A, B, C, P. rewrite (shell_plain w [c] r Q). apply (shell_end _ r L).
Qed.
Lemma shell_words l : Forall good l -> shell Out (flat_map (fun x => 32 :: enc x) l) = Words (map snd l).
Proof.
  induction 1 as [|x l G _ IH]; [reflexivity|]. cbn [flat_map map]. change ((32 :: enc x) ++ flat_map (fun x => 32 :: enc x) l) with (32 :: (enc x ++ flat_map (fun x => 32 :: enc x) l)).
  change (shell Out (32 :: ?a)) with (shell Out a). cbn [shell Z.eqb Pos.eqb orb]. rewrite (shell_word x _ G), IH; [reflexivity|].
  destruct l as [|y l]; [left; reflexivity|right]. cbn [flat_map app]. eexists. reflexivity.
Qed.
Definition item_words (i : item) : list (bool * text) := (false, fst i) :: match snd i with Some v => [(true, v)] | None => [] end.
Definition words (s : scanned) : list (bool * text) := flat_map item_words (sc_items s) ++ (false, str "--") :: map (fun w => (true, w)) (sc_operands s).
Lemma print_words s : print s = flat_map (fun x => 32 :: enc x) (words s).
Proof.
  unfold print, words. rewrite flat_map_app. f_equal.
  - induction (sc_items s) as [|i l IH]; [reflexivity|]. cbn [flat_map]. rewrite flat_map_app, <- IH. f_equal. unfold print_item, item_words. destruct i as [n [v|]]; cbn [fst snd flat_map enc]; rewrite ?app_nil_r; reflexivity.
  - cbn [flat_map]. change (str " --") with (32 :: enc (false, str "--")). f_equal. induction (sc_operands s) as [|w l IH]; [reflexivity|]. cbn [flat_map map]. rewrite <- IH. reflexivity.
Qed.
Definition good_items (is : list item) : Prop := Forall (fun i : item => fst i <> [] /\ forallb plain_char (fst i) = true) is.
Lemma print_read s : good_items (sc_items s) -> shell Out (print s) = Words (map snd (words s)).
Proof.
  intros G. rewrite print_words. apply shell_words. unfold words. apply Forall_app. split.
  - induction G as [|i l Gi _ IH]; [constructor|]. cbn [flat_map]. apply Forall_app. split; [|exact IH]. unfold item_words. constructor; [right; exact Gi|]. destruct (snd i); constructor; [left; reflexivity|constructor].
  - constructor; [right; split; [discriminate|reflexivity]|]. apply Forall_map. apply Forall_forall. intros w _. left. reflexivity.
Qed.

(** * getopt *)
Inductive names_ (l n : string) : text -> Prop := NShort : names_ l n (str l) | NLong : names_ l n (str "--" ++ str n).
Definition printed (o : opt) (i : item) : Prop :=
  match o with
  | OSrc v => names_ "-s" "srcdir" (fst i) /\ snd i = Some v
  | OUpdate => names_ "-u" "update" (fst i) /\ snd i = None
  | OClean => names_ "-c" "clean" (fst i) /\ snd i = None
  | ODest v => names_ "-d" "destdir" (fst i) /\ snd i = Some v
  | OId v => names_ "-i" "id" (fst i) /\ snd i = Some v
  | OBuild v => names_ "-b" "buildid" (fst i) /\ snd i = Some v
  | OJobs v => names_ "-j" "jobs" (fst i) /\ snd i = Some v
  end.
Lemma teq_refl a : teq a a = true.
Proof. unfold teq. destruct (list_eq_dec Z.eq_dec a a); [reflexivity|contradiction]. Qed.
(** the prefixes of a literal name *)
Fixpoint prefixes (s : text) : list text := match s with [] => [] | c :: r => [c] :: map (cons c) (prefixes r) end.
Lemma prefix_in s : forall n r, s = n ++ r -> n <> [] -> In n (prefixes s).
Proof.
  induction s as [|c s IH]; intros n r E N; destruct n as [|d n]; try (contradiction N; reflexivity); [discriminate|]. cbn [app] in E. injection E as -> ->. cbn [prefixes].
  destruct n as [|e n]; [left; reflexivity|]. right. apply in_map. apply (IH (e :: n) r eq_refl). discriminate.
Qed.
Lemma cut_plain n v : ~ In 61 n -> cut_eq (n ++ 61 :: v) = (n, Some v).
Proof. induction n as [|c n IH]; intros N; [reflexivity|]. cbn [app cut_eq]. destruct (Z.eqb_spec c 61) as [->|_]; [contradiction N; left; reflexivity|]. rewrite IH; [reflexivity|]. intro H. apply N. right. exact H. Qed.
Lemma cut_none n : ~ In 61 n -> cut_eq n = (n, None).
Proof. induction n as [|c n IH]; intros N; [reflexivity|]. cbn [cut_eq]. destruct (Z.eqb_spec c 61) as [->|_]; [contradiction N; left; reflexivity|]. rewrite IH; [reflexivity|]. intro H. apply N. right. exact H. Qed.
Lemma scan_long n v m a r : n <> [] -> ~ In 61 n -> long n = Some (m, a) ->
  scan ((str "--" ++ n ++ match v with Some x => 61 :: x | None => [] end) :: r) =
  match a, v with
  | Flag, Some _ => with_bad (scan r)
  | Flag, None => with_item (str "--" ++ m, None) (scan r)
  | Arg, Some x => with_item (str "--" ++ m, Some x) (scan r)
  | Arg, None => match r with [] => Scan [] [] true | x :: r' => with_item (str "--" ++ m, Some x) (scan r') end
  end.
Proof.
  intros N E L. set (tail := match v with Some x => 61 :: x | None => [] end).
  assert (C : cut_eq (n ++ tail) = (n, v)).
  { unfold tail. destruct v as [x|]; [apply cut_plain; exact E|rewrite app_nil_r; apply cut_none; exact E]. }
  change (str "--") with [45; 45] at 1. cbn [app]. cbn [scan]. change (negb (45 =? 45)) with false. cbv iota.
  assert (T : teq (45 :: 45 :: n ++ tail) (str "--") = false).
  { unfold teq. destruct (list_eq_dec Z.eq_dec _ _) as [Q|]; [|reflexivity]. change (str "--") with [45; 45] in Q. injection Q as Q. destruct n; [contradiction N; reflexivity|discriminate]. }
  rewrite T. change (begins (str "--") (45 :: 45 :: n ++ tail)) with true. cbv iota. cbn [skipn]. rewrite C, L. destruct a, v; reflexivity.
Qed.
(** every beginning of a long name is read as that name *)
Lemma long_of (m : string) (a : arity) : In (str m, a) longs -> forallb (fun n => match long n with Some (m', a') => teq m' (str m) && match a, a' with Flag, Flag | Arg, Arg => true | _, _ => false end | None => false end && negb (existsb (Z.eqb 61) n)) (prefixes (str m)) = true ->
  forall n r, str m = n ++ r -> n <> [] -> long n = Some (str m, a) /\ ~ In 61 n.
Proof.
  intros _ F n r E N. rewrite forallb_forall in F. specialize (F n (prefix_in _ _ _ E N)). apply andb_true_iff in F. destruct F as [F Q]. split.
  - destruct (long n) as [[m' a']|]; [|discriminate]. apply andb_true_iff in F. destruct F as [T A]. unfold teq in T. destruct (list_eq_dec Z.eq_dec m' (str m)) as [->|]; [|discriminate]. destruct a, a'; (reflexivity || discriminate).
  - intros I. apply negb_true_iff in Q. assert (existsb (Z.eqb 61) n = true) by (apply existsb_exists; exists 61; auto). congruence.
Qed.
Lemma scan_arg (l m : string) v ws : In (str m, Arg) longs ->
  forallb (fun n => match long n with Some (m', a') => teq m' (str m) && match a' with Arg => true | _ => false end | None => false end && negb (existsb (Z.eqb 61) n)) (prefixes (str m)) = true ->
  (exists c, str l = [45; c] /\ c <> 45 /\ letter c = Some Arg) ->
  written_arg l m v ws -> exists i, names_ l m (fst i) /\ snd i = Some v /\ forall r, scan (ws ++ r) = with_item i (scan r).
Proof.
  intros I F (c & El & Nc & Lc) W.
  assert (Ec : 45 =? c = false) by (apply Z.eqb_neq; lia).
  assert (Ec' : c =? 45 = false) by (apply Z.eqb_neq; lia).
  assert (LO : forall n r, str m = n ++ r -> n <> [] -> long n = Some (str m, Arg) /\ ~ In 61 n) by (apply (long_of m Arg I); exact F).
  destruct W as [->|[[Nv ->]|(w & (n & r & En & Nn & ->) & [->| ->])]].
  - exists (str l, Some v). split; [apply NShort|]. split; [reflexivity|]. intros r. rewrite El. cbn [app scan]. change (negb (45 =? 45)) with false. cbv iota.
    assert (T : teq [45; c] (str "--") = false) by (unfold teq; destruct (list_eq_dec Z.eq_dec _ _) as [Q|]; [injection Q as Q; congruence|reflexivity]). rewrite T.
    change (begins (str "--") [45; c]) with ((45 =? 45) && ((45 =? c) && true)). rewrite Ec. cbn [andb tl cluster]. rewrite Lc. unfold with_item. cbn [app sc_items sc_operands sc_bad]. reflexivity.
  - exists (str l, Some v). split; [apply NShort|]. split; [reflexivity|]. intros r. rewrite El. destruct v as [|d v]; [contradiction Nv; reflexivity|]. cbn [app scan]. change (negb (45 =? 45)) with false. cbv iota.
    assert (T : teq (45 :: c :: d :: v) (str "--") = false) by (unfold teq; destruct (list_eq_dec Z.eq_dec _ _) as [Q|]; [discriminate Q|reflexivity]). rewrite T.
    change (begins (str "--") (45 :: c :: d :: v)) with ((45 =? 45) && ((45 =? c) && true)). rewrite Ec. cbn [andb tl cluster]. rewrite Lc. reflexivity.
  - exists (str "--" ++ str m, Some v). split; [apply NLong|]. split; [reflexivity|]. intros r'. destruct (LO n r En Nn) as [L E]. cbn [app]. pose proof (scan_long n None (str m) Arg (v :: r') Nn E L) as S. cbv iota in S. rewrite app_nil_r in S. exact S.
  - exists (str "--" ++ str m, Some v). split; [apply NLong|]. split; [reflexivity|]. intros r'. destruct (LO n r En Nn) as [L E]. cbn [app]. pose proof (scan_long n (Some v) (str m) Arg r' Nn E L) as S. cbv iota in S. rewrite <- app_assoc. exact S.
Qed.
Lemma scan_flag (l m : string) ws : In (str m, Flag) longs ->
  forallb (fun n => match long n with Some (m', a') => teq m' (str m) && match a' with Flag => true | _ => false end | None => false end && negb (existsb (Z.eqb 61) n)) (prefixes (str m)) = true ->
  (exists c, str l = [45; c] /\ c <> 45 /\ letter c = Some Flag) ->
  written_flag l m ws -> exists i, names_ l m (fst i) /\ snd i = None /\ forall r, scan (ws ++ r) = with_item i (scan r).
Proof.
  intros I F (c & El & Nc & Lc) W.
  assert (Ec : 45 =? c = false) by (apply Z.eqb_neq; lia).
  assert (LO : forall n r, str m = n ++ r -> n <> [] -> long n = Some (str m, Flag) /\ ~ In 61 n) by (apply (long_of m Flag I); exact F).
  destruct W as [->|(w & (n & r & En & Nn & ->) & ->)].
  - exists (str l, None). split; [apply NShort|]. split; [reflexivity|]. intros r. rewrite El. cbn [app scan]. change (negb (45 =? 45)) with false. cbv iota.
    assert (T : teq [45; c] (str "--") = false) by (unfold teq; destruct (list_eq_dec Z.eq_dec _ _) as [Q|]; [injection Q as Q; congruence|reflexivity]). rewrite T.
    change (begins (str "--") [45; c]) with ((45 =? 45) && ((45 =? c) && true)). rewrite Ec. cbn [andb tl cluster]. rewrite Lc. reflexivity.
  - exists (str "--" ++ str m, None). split; [apply NLong|]. split; [reflexivity|]. intros r'. destruct (LO n r En Nn) as [L E]. cbn [app]. pose proof (scan_long n None (str m) Flag r' Nn E L) as S. cbv iota in S. rewrite app_nil_r in S. exact S.
Qed.
Lemma scan_opt o ws : says_opt o ws -> exists i, printed o i /\ forall r, scan (ws ++ r) = with_item i (scan r).
Proof.
  destruct o; cbn [says_opt printed]; intros W; (apply scan_arg in W || apply scan_flag in W);
    first [ destruct W as (i & N & V & S); exists i; auto | cbn; tauto | vm_compute; reflexivity | eexists; split; [reflexivity|split; [discriminate|reflexivity]] ].
Qed.
Lemma scan_patch w r : (forall x, w = 45 :: x -> x = []) -> scan (w :: r) = with_operand w (scan r).
Proof.
  intros H. destruct w as [|c [|d w]]; [reflexivity|reflexivity|]. cbn [scan]. destruct (Z.eqb_spec c 45) as [->|_]; [|reflexivity]. specialize (H (d :: w) eq_refl). discriminate.
Qed.
Lemma scan_dashes rest : scan (str "--" :: rest) = Scan [] rest false.
Proof. reflexivity. Qed.
Lemma scan_all ps wss : Forall2 says ps wss -> forall tail rest, (tail = [] /\ rest = [] \/ tail = str "--" :: rest) ->
  exists is, Forall2 printed (opts_of ps) is /\ scan (concat wss ++ tail) = Scan is (patches_of ps ++ rest) false.
Proof.
  induction 1 as [|p ws ps wss S _ IH]; intros tail rest T.
  - exists []. split; [constructor|]. destruct T as [[-> ->]| ->]; reflexivity.
  - destruct (IH tail rest T) as (is & P & E). cbn [concat]. rewrite <- app_assoc. destruct p as [o|w]; cbn [says] in S.
    + destruct (scan_opt o ws S) as (i & Pi & Si). exists (i :: is). split; [constructor; assumption|]. rewrite Si, E. reflexivity.
    + destruct S as [-> S]. exists is. split; [exact P|]. cbn [app]. rewrite (scan_patch _ _ S), E. reflexivity.
Qed.
Lemma names_good l m n : names_ l m n -> (exists c, str l = [45; c] /\ plain_char c = true) -> forallb plain_char (str m) = true -> n <> [] /\ forallb plain_char n = true.
Proof.
  intros [|] (c & E & P) F; [rewrite E; cbn [forallb]; rewrite P; split; [discriminate|reflexivity]|]. split; [discriminate|]. change (str "--") with [45; 45]. cbn [app forallb]. rewrite F. reflexivity.
Qed.
Lemma printed_good o i : printed o i -> fst i <> [] /\ forallb plain_char (fst i) = true.
Proof. destruct o; cbn [printed]; intros [N _]; apply (names_good _ _ _ N); try reflexivity; eexists; split; reflexivity. Qed.

(** * The loop *)
Definition apply_opt (c : conf) (o : opt) : conf :=
  match o with
  | OSrc v => Conf v (only_update c) (do_clean c) (destdir c) (patch_id c) (given_id c) (jobs c)
  | OUpdate => Conf (srcdir c) true (do_clean c) (destdir c) (patch_id c) (given_id c) (jobs c)
  | OClean => Conf (srcdir c) (only_update c) true (destdir c) (patch_id c) (given_id c) (jobs c)
  | ODest v => Conf (srcdir c) (only_update c) (do_clean c) v (patch_id c) (given_id c) (jobs c)
  | OId v => Conf (srcdir c) (only_update c) (do_clean c) (destdir c) v (given_id c) (jobs c)
  | OBuild v => Conf (srcdir c) (only_update c) (do_clean c) (destdir c) (patch_id c) v (jobs c)
  | OJobs v => Conf (srcdir c) (only_update c) (do_clean c) (destdir c) (patch_id c) (given_id c) v
  end.
Lemma loop_item o i r c : printed o i -> loop (map snd (item_words i) ++ r) c = loop r (apply_opt c o).
Proof. destruct i as [n v]. destruct o; cbn [printed fst snd]; intros [N V]; subst v; destruct N; reflexivity. Qed.
Lemma loop_all os is : Forall2 printed os is -> forall fs c, loop (map snd (flat_map item_words is) ++ str "--" :: fs) c = Some (fold_left apply_opt os c, fs).
Proof.
  induction 1 as [|o i os is P _ IH]; intros fs c; [reflexivity|]. cbn [flat_map fold_left]. rewrite map_app, <- app_assoc, (loop_item o i _ c P). apply IH.
Qed.
Lemma last_indep (d' : text) r : forall (x d : text), last (x :: r) d = last (x :: r) d'.
Proof. induction r as [|y r IH]; intros x d; [reflexivity|]. change (last (x :: y :: r) d) with (last (y :: r) d). change (last (x :: y :: r) d') with (last (y :: r) d'). apply IH. Qed.
Lemma last_cons (x : text) l d : last (x :: l) d = last l x.
Proof. destruct l as [|y l]; [reflexivity|]. change (last (x :: y :: l) d) with (last (y :: l) d). apply last_indep. Qed.
Lemma fold_asked os : forall c,
  let a := fold_left apply_opt os c in
  srcdir a = latest (fun o => match o with OSrc v => [v] | _ => [] end) os (srcdir c) /\
  only_update a = only_update c || existsb (fun o => match o with OUpdate => true | _ => false end) os /\
  do_clean a = do_clean c || existsb (fun o => match o with OClean => true | _ => false end) os /\
  destdir a = latest (fun o => match o with ODest v => [v] | _ => [] end) os (destdir c) /\
  patch_id a = latest (fun o => match o with OId v => [v] | _ => [] end) os (patch_id c) /\
  given_id a = latest (fun o => match o with OBuild v => [v] | _ => [] end) os (given_id c) /\
  jobs a = latest (fun o => match o with OJobs v => [v] | _ => [] end) os (jobs c).
Proof.
  unfold latest. induction os as [|o os IH]; intros c; cbn zeta in *.
  - cbn [fold_left flat_map existsb last]. rewrite !orb_false_r. auto 8.
  - cbn [fold_left]. destruct (IH (apply_opt c o)) as (A & B & C & D & E & F & G). rewrite A, B, C, D, E, F, G.
    destruct o; cbn [apply_opt srcdir only_update do_clean destdir patch_id given_id jobs flat_map existsb app];
      rewrite ?last_cons, ?orb_true_l, ?orb_true_r, ?orb_false_l; repeat split; destruct (only_update c), (do_clean c); reflexivity.
Qed.
Lemma options_read env ps wss tail rest : Forall2 says ps wss -> (tail = [] /\ rest = [] \/ tail = str "--" :: rest) ->
  read_options env (concat wss ++ tail) = Read (asked env (opts_of ps)) (patches_of ps ++ rest).
Proof.
  intros S T. destruct (scan_all ps wss S tail rest T) as (is & P & E). unfold read_options, temp. rewrite E. cbn [sc_bad]. rewrite app_nil_r.
  rewrite print_read by (cbn [sc_items]; clear - P; induction P as [|o i os is Pi _ IH]; constructor; [apply (printed_good o i Pi)|exact IH]).
  unfold words. cbn [sc_items sc_operands]. rewrite map_app. cbn [map snd]. rewrite map_map. cbn [snd]. rewrite map_id. rewrite (loop_all _ _ P).
  destruct (fold_asked (opts_of ps) (before env)) as (A & B & C & D & F & G & H). destruct (fold_left apply_opt (opts_of ps) (before env)) as [s u k d i b j].
  cbn [srcdir only_update do_clean destdir patch_id given_id jobs before] in *. subst. reflexivity.
Qed.

(** * Errors *)
Lemma shell_usage l : Forall good l -> shell Out (flat_map (fun x => 32 :: enc x) l ++ USAGE) = Commands.
Proof.
  assert (N : forall w, shell (Word w) USAGE = Commands) by reflexivity.
  induction 1 as [|x l G _ IH]; [reflexivity|]. cbn [flat_map app]. cbn [shell Z.eqb Pos.eqb orb]. rewrite <- app_assoc.
  destruct l as [|y l].
  - cbn [flat_map app]. destruct x as [[|] w]; unfold enc; cbn [fst snd].
    + unfold quote. change ((39 :: quoted w) ++ USAGE) with (39 :: (quoted w ++ USAGE)). cbn [shell Z.eqb Pos.eqb orb ecurrent]. rewrite shell_quoted. apply N.
    + destruct G as [G|[Nw P]]; [discriminate|]. cbn [snd] in *. destruct w as [|c w]; [contradiction Nw; reflexivity|]. cbn [forallb] in P. apply andb_true_iff in P. destruct P as [P Q].
      destruct (plain_not _ P) as (A & B & C). cbn [app shell ecurrent]. rewrite A, B, C, P, (shell_plain w [c] _ Q). apply N.
  - rewrite (shell_word x _ G) by (right; cbn [flat_map app]; eexists; reflexivity). rewrite IH. reflexivity.
Qed.
Lemma long_in n m a : long n = Some (m, a) -> In (m, a) longs.
Proof.
  unfold long. destruct (find _ longs) as [o|] eqn:E; [intros H; injection H as ->; apply find_some in E; apply E|].
  destruct (filter _ longs) as [|o [|? ?]] eqn:F; try discriminate. intros H. injection H as ->. assert (I : In (m, a) (filter (fun o => begins n (fst o)) longs)) by (rewrite F; left; reflexivity). apply filter_In in I. apply I.
Qed.
Lemma long_good n m a : long n = Some (m, a) -> (str "--" ++ m) <> [] /\ forallb plain_char (str "--" ++ m) = true.
Proof.
  intros H. apply long_in in H. assert (F : forallb (fun o : text * arity => forallb plain_char (str "--" ++ fst o)) longs = true) by reflexivity.
  rewrite forallb_forall in F. split; [discriminate|apply (F (m, a) H)].
Qed.
Lemma letter_good c a : letter c = Some a -> [45; c] <> [] /\ forallb plain_char [45; c] = true.
Proof.
  unfold letter. destruct (find _ letters) as [o|] eqn:E; [|discriminate]. intros _. split; [discriminate|]. apply find_some in E. destruct E as [I E]. apply Z.eqb_eq in E. subst c.
  assert (F : forallb (fun o : Z * arity => forallb plain_char [45; fst o]) letters = true) by reflexivity. rewrite forallb_forall in F. apply (F o I).
Qed.
Lemma cluster_good s : let '(is, b, w) := cluster s in good_items is /\ match w with Some n => n <> [] /\ forallb plain_char n = true | None => True end.
Proof.
  induction s as [|c r IH]; [split; constructor|]. cbn [cluster]. destruct (letter c) as [[|]|] eqn:L.
  - destruct (cluster r) as [[is b] w]. destruct IH as [G W]. split; [constructor; [apply (letter_good _ _ L)|exact G]|exact W].
  - destruct r; split; try exact I; try constructor; try apply (letter_good _ _ L); constructor.
  - destruct (cluster r) as [[is b] w]. exact IH.
Qed.
Lemma scan_good : forall n args, (List.length args <= n)%nat -> good_items (sc_items (scan args)).
Proof.
  induction n as [|n IH]; intros args Ln; [destruct args; [constructor|cbn in Ln; lia]|]. destruct args as [|a r]; [constructor|]. cbn [List.length] in Ln.
  assert (R : good_items (sc_items (scan r))) by (apply IH; lia).
  assert (X : forall m, m <> [] /\ forallb plain_char m = true -> good_items (sc_items (match r with [] => Scan [] [] true | v :: r' => with_item (m, Some v) (scan r') end))).
  { intros m G. destruct r as [|v r']; [constructor|]. constructor; [exact G|]. apply IH. cbn in Ln. lia. }
  destruct a as [|c [|d a]]; [exact R|exact R|]. cbn [scan]. destruct (negb (c =? 45)); [exact R|]. destruct (teq _ _); [constructor|]. destruct (begins _ _).
  - destruct (cut_eq _) as [nm v]. destruct (long nm) as [[m [|]]|] eqn:L; [destruct v; [exact R|constructor; [apply (long_good _ _ _ L)|exact R]]|destruct v; [constructor; [apply (long_good _ _ _ L)|exact R]|apply X, (long_good _ _ _ L)]|exact R].
  - pose proof (cluster_good (tl (c :: d :: a))) as C. destruct (cluster (tl (c :: d :: a))) as [[is b] w]. destruct C as [G W].
    assert (Q : good_items (is ++ sc_items match w with Some n0 => match r with [] => Scan [] [] true | v :: r' => with_item (n0, Some v) (scan r') end | None => scan r end)).
    { apply Forall_app. split; [exact G|]. destruct w; [apply X, W|exact R]. }
    destruct b; exact Q.
Qed.
Lemma bad_evaluates env args : sc_bad (scan args) = true -> read_options env args = Evaluates.
Proof.
  intros B. unfold read_options, temp. rewrite B, print_words, shell_usage; [reflexivity|]. pose proof (scan_good _ args (le_n _)) as G. unfold words. apply Forall_app. split.
  - induction G as [|i l Gi _ IH]; [constructor|]. cbn [flat_map]. apply Forall_app. split; [|exact IH]. unfold item_words. constructor; [right; exact Gi|]. destruct (snd i); constructor; [left; reflexivity|constructor].
  - constructor; [right; split; [discriminate|reflexivity]|]. apply Forall_map. apply Forall_forall. intros w _. left. reflexivity.
Qed.
Lemma bad_after ps wss t : Forall2 says ps wss -> sc_bad (scan (concat wss ++ t)) = sc_bad (scan t).
Proof.
  induction 1 as [|p ws ps wss S _ IH]; [reflexivity|]. cbn [concat]. rewrite <- app_assoc. destruct p as [o|w]; cbn [says] in S.
  - destruct (scan_opt o ws S) as (i & _ & Si). rewrite Si. exact IH.
  - destruct S as [-> S]. cbn [app]. rewrite (scan_patch _ _ S). exact IH.
Qed.
Lemma letter_none c : unknown_letter c -> letter c = None.
Proof.
  intros [U _]. unfold letter. destruct (find _ letters) as [o|] eqn:E; [|reflexivity]. exfalso. apply find_some in E. destruct E as [I E]. apply Z.eqb_eq in E. subst c. apply U.
  assert (F : forallb (fun o : Z * arity => existsb (Z.eqb (fst o)) (str "sucdibj")) letters = true) by reflexivity. rewrite forallb_forall in F. specialize (F o I). apply existsb_exists in F. destruct F as (x & Ix & Ex). apply Z.eqb_eq in Ex. rewrite Ex. exact Ix.
Qed.
Lemma bad_letter c x r : unknown_letter c -> sc_bad (scan ((45 :: c :: x) :: r)) = true.
Proof.
  intros U. pose proof (letter_none c U) as L. destruct U as [_ N]. cbn [scan]. change (negb (45 =? 45)) with false. cbv iota.
  assert (T : teq (45 :: c :: x) (str "--") = false) by (unfold teq; destruct (list_eq_dec Z.eq_dec _ _) as [Q|]; [injection Q as Q _; congruence|reflexivity]). rewrite T.
  change (begins (str "--") (45 :: c :: x)) with ((45 =? 45) && ((45 =? c) && true)). rewrite (proj2 (Z.eqb_neq 45 c)) by lia. cbn [andb tl cluster]. rewrite L. destruct (cluster x) as [[is b] w]. reflexivity.
Qed.
Lemma begins_spec a : forall b, begins a b = true <-> exists r, b = a ++ r.
Proof.
  induction a as [|x a IH]; intros b; cbn [begins]; [split; [intros _; exists b; reflexivity|reflexivity]|]. destruct b as [|y b]; [split; [discriminate|intros (r & H); discriminate]|].
  rewrite andb_true_iff, Z.eqb_eq, IH. split; [intros [-> (r & ->)]; exists r; reflexivity|intros (r & H); injection H as -> ->; split; [reflexivity|exists r; reflexivity]].
Qed.
Lemma long_none n : unknown_name n -> long n = None.
Proof.
  intros U. assert (M : forall o, In o longs -> In (fst o) (map str ["srcdir"; "update"; "clean"; "destdir"; "id"; "buildid"; "jobs"]%string)).
  { intros o I. cbn in I. repeat (destruct I as [<-|I]; [cbn; tauto|]). contradiction. }
  unfold long. destruct (find _ longs) as [o|] eqn:E.
  - exfalso. apply find_some in E. destruct E as [I E]. unfold teq in E. destruct (list_eq_dec Z.eq_dec n (fst o)) as [->|]; [|discriminate]. apply (U (fst o) (M o I) []). rewrite app_nil_r. reflexivity.
  - destruct (filter _ longs) as [|o [|? ?]] eqn:F; try reflexivity. exfalso. assert (I : In o (filter (fun o => begins n (fst o)) longs)) by (rewrite F; left; reflexivity).
    apply filter_In in I. destruct I as [I B]. apply begins_spec in B. destruct B as (r & B). exact (U (fst o) (M o I) r B).
Qed.
Lemma bad_name n r : unknown_name n -> ~ In 61 n -> n <> [] -> sc_bad (scan ((str "--" ++ n) :: r)) = true.
Proof.
  intros U E N. change (str "--") with [45; 45]. cbn [app scan]. change (negb (45 =? 45)) with false. cbv iota.
  assert (T : teq (45 :: 45 :: n) (str "--") = false) by (unfold teq; destruct (list_eq_dec Z.eq_dec _ _) as [Q|]; [injection Q as Q; contradiction|reflexivity]). rewrite T.
  change (begins (str "--") (45 :: 45 :: n)) with true. cbv iota. cbn [skipn]. rewrite (cut_none n E), (long_none n U). reflexivity.
Qed.

(** * The steps *)
Definition only_kpatches (l : list event) : Prop := Forall (fun e => match e with EKpatch _ => True | _ => False end) l.
Lemma kpatches_trace t root id given now xs : forall f tr, exists ks, snd (build_kpatches t root id given now xs f tr) = tr ++ map EKpatch ks.
Proof.
  induction xs as [|[o p] xs IH]; intros f tr; cbn [build_kpatches]; [exists []; cbn; rewrite app_nil_r; reflexivity|].
  destruct (one_exec _ _ _ _ _ _ _ _) as [f' [k|]|f'].
  - destruct (IH f' (tr ++ [EKpatch k])) as (ks & ->). exists (k :: ks). rewrite <- app_assoc. reflexivity.
  - apply IH.
  - exists []. cbn. rewrite app_nil_r. reflexivity.
Qed.
Lemma run_trace w cc real e f m : trace (run w cc real e f m) = trace m ++ [e].
Proof. unfold run. cbn zeta. destruct (signal_ w _); reflexivity. Qed.
Lemma patches_trace w cc real ps : forall n m, trace (patches w cc real n ps m) = trace m ++ map EPatch (seq n (List.length ps)).
Proof. induction ps as [|es ps IH]; intros n m; cbn [patches List.length seq map]; [rewrite app_nil_r; reflexivity|]. rewrite IH, run_trace, <- app_assoc. reflexivity. Qed.
Lemma build_trace w cc real clean ps m : trace (build_objects w cc real clean ps m) =
  trace m ++ (if clean then [EClean] else []) ++ [EMake Original; EInstall Original] ++ map EPatch (seq 0 (List.length ps)) ++ [EMake Patched; EInstall Patched].
Proof.
  unfold build_objects. cbn zeta. rewrite !run_trace, patches_trace, !run_trace. destruct clean; [rewrite run_trace|]; cbn [trace with_files]; rewrite <- ?app_assoc; reflexivity.
Qed.
Lemma main_trace w t cc libcare proot clean upd id given ps xs m real : realpath 40 cc (files m) = Some real ->
  exists ks, trace (snd (main_checked w t cc libcare proot true clean upd id given ps xs m)) =
    trace m ++ (if upd then [] else (if clean then [EClean] else []) ++ [EMake Original; EInstall Original] ++ map EPatch (seq 0 (List.length ps)) ++ [EMake Patched; EInstall Patched]) ++ map EKpatch ks.
Proof.
  intros R. unfold main_checked. cbn [negb]. rewrite R. set (m1 := if upd then _ else _).
  assert (T : trace m1 = trace m ++ (if upd then [] else (if clean then [EClean] else []) ++ [EMake Original; EInstall Original] ++ map EPatch (seq 0 (List.length ps)) ++ [EMake Patched; EInstall Patched])).
  { unfold m1. destruct upd; [rewrite app_nil_r; reflexivity|]. rewrite build_trace. reflexivity. }
  destruct (kpatches_trace t proot id given (clock (tick m1)) xs (files (tick m1)) (trace (tick m1))) as (ks & K). exists ks.
  destruct (build_kpatches _ _ _ _ _ _ _ _) as [[f mk|f] tr]; cbn [snd] in K |- *; subst tr; cbn [recover_cc with_files trace tick]; rewrite T, <- app_assoc; reflexivity.
Qed.
(** without backups nothing is restored *)
Lemma restore_none f : (forall p, lookup p f <> None -> base_of p = None) -> restore_origs f = f.
Proof.
  intros H. unfold restore_origs. assert (B : bases (map fst f) = []).
  { unfold bases. assert (E : flat_map (fun o => match base_of o with Some b => [b] | None => [] end) (map fst f) = []); [|rewrite E; reflexivity].
    assert (Q : forall p, In p (map fst f) -> base_of p = None).
    { intros p I. apply H. clear H. induction f as [|[q n] f IH]; [contradiction|]. cbn [lookup]. unfold teq. destruct (list_eq_dec Z.eq_dec q p); [discriminate|]. destruct I as [I|I]; [cbn in I; contradiction|apply IH, I]. }
    clear H. induction (map fst f) as [|p l IH]; [reflexivity|]. cbn [flat_map]. rewrite (Q p (or_introl eq_refl)). apply IH. intros x I. apply Q. right. exact I. }
  rewrite B. reflexivity.
Qed.

(** * config-host.mak *)
Lemma lines_ended ls : Forall line_ok ls -> lines_of (text_of ls) = ls ++ [[]].
Proof.
  induction 1 as [|l ls L _ IH]; [reflexivity|]. unfold text_of in *. cbn [map concat]. rewrite <- app_assoc. cbn [app].
  induction l as [|c l IHl]; cbn [app lines_of].
  - change (10 =? 10) with true. cbv iota. rewrite IH. reflexivity.
  - destruct (Z.eqb_spec c 10) as [->|_]; [exfalso; apply L; left; reflexivity|]. rewrite IHl; [reflexivity|]. intros I. apply L. right. exact I.
Qed.
Lemma file_ended ls : Forall line_ok ls -> file_lines (text_of ls) = (ls, true).
Proof. intros L. unfold file_lines. rewrite (lines_ended ls L), last_last, removelast_last. reflexivity. Qed.
Lemma ended_text ls : ended ls = text_of ls.
Proof. unfold ended, text_of. rewrite flat_map_concat_map. reflexivity. Qed.
Lemma sed_plain t : ~ In 92 t -> sed_text t = Some t.
Proof. induction t as [|c t IH]; intros N; [reflexivity|]. cbn [sed_text]. destruct (Z.eqb_spec c 92) as [->|_]; [exfalso; apply N; left; reflexivity|]. rewrite IH; [reflexivity|]. intros I. apply N. right. exact I. Qed.
Lemma key_spec l : begins KEY l = true <-> sets_flags l.
Proof. apply begins_spec. Qed.
Lemma contains_spec p s : contains p s = true <-> inside p s.
Proof.
  induction s as [|c s IH]; cbn [contains].
  - rewrite orb_false_r, begins_spec. split; [intros (r & H); exists [], r; exact H|]. intros (a & b & H). destruct a; [exists b; exact H|discriminate].
  - rewrite orb_true_iff, begins_spec, IH. split; [intros [(r & H)|(a & b & ->)]; [exists [], r; exact H|exists (c :: a), b; reflexivity]|].
    intros (a & b & H). destruct a as [|d a]; [left; exists b; exact H|right]. cbn [app] in H. injection H as -> ->. exists a, b. reflexivity.
Qed.
Lemma no_newline t : ~ In 10 t -> existsb (Z.eqb 10) t = false.
Proof. intros N. destruct (existsb (Z.eqb 10) t) eqn:E; [|reflexivity]. apply existsb_exists in E. destruct E as (x & I & X). apply Z.eqb_eq in X. subst x. contradiction. Qed.
Lemma sed_lines t ls : Forall line_ok ls -> ~ In 10 t -> ~ In 92 t -> sed_flags t (text_of ls) = Some (text_of (map (fun l => if begins KEY l then t else l) ls)).
Proof. intros L N B. unfold sed_flags. rewrite (no_newline t N), (sed_plain t B), (file_ended ls L), orb_true_l, ended_text. reflexivity. Qed.
Lemma flag_lines_text ls : Forall line_ok ls -> flag_lines (text_of ls) = filter (begins KEY) ls.
Proof. intros L. unfold flag_lines. rewrite (file_ended ls L). reflexivity. Qed.
Lemma newline_joined l1 l2 ls : existsb (Z.eqb 10) (joined (l1 :: l2 :: ls)) = true.
Proof. change (joined (l1 :: l2 :: ls)) with (l1 ++ 10 :: joined (l2 :: ls)). rewrite existsb_app. cbn [existsb]. rewrite Z.eqb_refl, orb_true_l, orb_true_r. reflexivity. Qed.
Lemma map_none (x : text) ls : filter (begins KEY) ls = [] -> map (fun l => if begins KEY l then x else l) ls = ls.
Proof. induction ls as [|l ls IH]; [reflexivity|]. cbn [filter map]. destruct (begins KEY l); [discriminate|]. intros H. rewrite (IH H). reflexivity. Qed.
Lemma split_one l : forall ls, filter (begins KEY) ls = [l] -> exists a b, ls = a ++ l :: b /\ filter (begins KEY) a = [] /\ filter (begins KEY) b = [] /\ begins KEY l = true.
Proof.
  induction ls as [|k ls IH]; [discriminate|]. cbn [filter]. destruct (begins KEY k) eqn:E.
  - intros H. injection H as -> H. exists [], ls. auto.
  - intros H. destruct (IH H) as (a & b & -> & A & B & K). exists (k :: a), b. cbn [app filter]. rewrite E. auto.
Qed.
Lemma map_one (x l : text) a b : filter (begins KEY) a = [] -> filter (begins KEY) b = [] -> begins KEY l = true ->
  map (fun l => if begins KEY l then x else l) (a ++ l :: b) = a ++ x :: b.
Proof. intros A B K. rewrite map_app. cbn [map]. rewrite (map_none x a A), (map_none x b B), K. reflexivity. Qed.
Lemma config_one bash a l b : Forall line_ok (a ++ l :: b) -> filter (begins KEY) a = [] -> filter (begins KEY) b = [] -> begins KEY l = true -> ~ In 92 l ->
  edit_config bash (text_of (a ++ l :: b)) =
  Some (if bash && negb (contains MINUS_Q l) then text_of (a ++ (l ++ str " -Wl,-q") :: b) else text_of (a ++ l :: b), text_of (a ++ l :: b)).
Proof.
  intros L A B K N. unfold edit_config, grep_flags. rewrite (flag_lines_text _ L), filter_app. cbn [filter]. rewrite A, B, K. cbn [app joined].
  assert (Ll : line_ok l) by (rewrite Forall_forall in L; apply L, in_elt).
  assert (L' : Forall line_ok (a ++ (l ++ str " -Wl,-q") :: b)).
  { apply Forall_app in L. destruct L as [La Lb]. apply Forall_app. split; [exact La|]. inversion_clear Lb. constructor; [|assumption]. intros I. apply in_app_or in I. destruct I as [I|I]; [exact (Ll I)|]. cbn in I. repeat (destruct I as [I|I]; [discriminate|]). exact I. }
  assert (K' : begins KEY (l ++ str " -Wl,-q") = true) by (apply begins_spec in K; destruct K as (r & ->); apply begins_spec; exists (r ++ str " -Wl,-q"); rewrite app_assoc; reflexivity).
  unfold replace_flags, recover_flags. destruct (bash && negb (contains MINUS_Q l)).
  - rewrite (sed_lines _ _ L).
    + rewrite (map_one _ l a b A B K). cbv iota.
      lazymatch goal with |- context [sed_flags ?x ?y] => assert (S : sed_flags x y = Some (text_of (a ++ l :: b))) end.
      { etransitivity; [exact (sed_lines l _ L' Ll N)|]. f_equal. f_equal. exact (map_one _ _ a b A B K'). }
      rewrite S. reflexivity.
    + intros I. apply in_app_or in I. destruct I as [I|I]; [exact (Ll I)|]. cbn in I. repeat (destruct I as [I|I]; [discriminate|]). exact I.
    + intros I. apply in_app_or in I. destruct I as [I|I]; [exact (N I)|]. cbn in I. repeat (destruct I as [I|I]; [discriminate|]). exact I.
  - rewrite (sed_lines l _ L Ll N), (map_one _ l a b A B K). reflexivity.
Qed.
Lemma config_restored bash ls : Forall line_ok ls -> (forall l, In l ls -> sets_flags l -> ~ In 92 l) ->
  exists during, edit_config bash (text_of ls) = Some (during, text_of ls).
Proof.
  intros L N. destruct (filter (begins KEY) ls) as [|l1 [|l2 fs]] eqn:F.
  - exists (text_of ls). unfold edit_config, grep_flags. rewrite (flag_lines_text _ L), F. cbn [joined]. unfold replace_flags, recover_flags.
    assert (S : forall t, ~ In 10 t -> ~ In 92 t -> sed_flags t (text_of ls) = Some (text_of ls)) by (intros t A B; etransitivity; [exact (sed_lines t ls L A B)|]; f_equal; f_equal; exact (map_none t ls F)).
    assert (Q : (if bash && negb (contains MINUS_Q []) then sed_flags ([] ++ str " -Wl,-q") (text_of ls) else Some (text_of ls)) = Some (text_of ls)).
    { destruct (bash && negb _); [|reflexivity]. apply S; intros I; cbn in I; repeat (destruct I as [I|I]; [discriminate|]); exact I. }
    rewrite Q, S; [reflexivity|intros []|intros []].
  - destruct (split_one l1 ls F) as (a & b & -> & A & B & K). eexists. apply (config_one bash a l1 b L A B K). apply N; [apply in_elt|apply key_spec, K].
  - exists (text_of ls). unfold edit_config, grep_flags. rewrite (flag_lines_text _ L), F. pose proof (newline_joined l1 l2 fs) as J. set (bak := joined (l1 :: l2 :: fs)) in *. unfold replace_flags, recover_flags, sed_flags.
    rewrite existsb_app, J, orb_true_l. destruct (bash && negb _); reflexivity.
Qed.
