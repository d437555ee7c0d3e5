From Coq Require Import String.
From Verif Require Import Base BaseProofs StorageModel StorageProofs CliModel CliSpec CliProofs TextModel TextSpec TextProofs ParseModel ParseProofs GenModel GenComm ParseProperties UnitSpec.
Open Scope list_scope.

(** * The lines *)
Lemma name_word n : name_ok n -> GenComm.word n.
Proof.
  intros ((c & r & -> & N1 & N2 & N3 & N4) & F & _). split; [discriminate|]. split; [exact F|]. cbn. congruence.
Qed.
Lemma name_nodelim n c : name_ok n -> In c n -> ~ In c asm_delims.
Proof. intros (_ & F & _) I. rewrite Forall_forall in F. apply F, I. Qed.
Lemma word_skip n r : GenComm.word n -> skip_blanks (n ++ r) = n ++ r /\ at_end (n ++ r) = false.
Proof.
  intros (A & F & _). destruct n as [|c n]; [congruence|]. inversion F as [|? ? H]; subst. cbn [app skip_blanks at_end]. unfold isblank.
  cbn in H. replace (c =? 32) with false by lia. replace (c =? 9) with false by lia. replace (c =? 10) with false by lia. now split.
Qed.
Ltac wordlit := split; [discriminate|]; split; [|discriminate]; repeat constructor; cbn; lia.
(** "	.word	" and a name *)
Lemma two_tokens d n r : GenComm.word d -> GenComm.word n -> (forall c r', r = c :: r' -> In c asm_delims) ->
  get_token (@Some text (9 :: d ++ 9 :: n ++ r)) = (KStr d (9 :: n ++ r), @Some text (n ++ r))
  /\ second_token (9 :: d ++ 9 :: n ++ r) = KStr n r
  /\ get_token (@Some text (n ++ r)) = (KStr n r, if at_end (skip_blanks r) then None else Some (skip_blanks r)).
Proof.
  intros Wd Wn D. assert (G1 : get_token (@Some text (9 :: d ++ 9 :: n ++ r)) = (KStr d (9 :: n ++ r), @Some text (n ++ r))).
  { change (9 :: d ++ 9 :: n ++ r) with ([9] ++ d ++ 9 :: n ++ r). rewrite token_word; [|constructor; [right; reflexivity|constructor]|exact Wd|intros c r' [= <- _]; cbn; tauto].
    change (skip_blanks (9 :: n ++ r)) with (skip_blanks (n ++ r)). destruct (word_skip n r Wn) as (-> & ->). reflexivity. }
  assert (G2 : get_token (@Some text (n ++ r)) = (KStr n r, if at_end (skip_blanks r) then None else Some (skip_blanks r))).
  { change (n ++ r) with ([] ++ n ++ r). apply token_word; [constructor|exact Wn|exact D]. }
  split; [exact G1|]. split; [|exact G2]. unfold second_token. rewrite G1. cbn [snd]. rewrite G2. reflexivity.
Qed.
Lemma one_token d r : GenComm.word d -> (forall c r', r = c :: r' -> In c asm_delims) ->
  get_token (@Some text (9 :: d ++ r)) = (KStr d r, if at_end (skip_blanks r) then None else Some (skip_blanks r)).
Proof. intros Wd D. change (9 :: d ++ r) with ([9] ++ d ++ r). apply token_word; [constructor; [right; reflexivity|constructor]|exact Wd|exact D]. Qed.
(** The type of a line that begins with a tab and a directive *)
Lemma dir_line a d r k : GenComm.word d -> prefix_of [35] d = false -> prefix_of [47] d = false -> (forall c r', r = c :: r' -> In c asm_delims) -> find_ctype d = Some k -> parse_ctype a (9 :: d ++ r) = k.
Proof.
  intros Wd P1 P2 D F. unfold parse_ctype. change (skip_blanks (9 :: d ++ r)) with (skip_blanks (d ++ r)). destruct (word_skip d r Wd) as (-> & _).
  assert (Q1 : prefix_of [35] (d ++ r) = false) by (destruct d; [destruct Wd; congruence|exact P1]).
  assert (Q2 : prefix_of [47; 47] (d ++ r) = false). { destruct d as [|c d]; [destruct Wd; congruence|]. cbn [app prefix_of] in *. destruct (47 =? c); [destruct d; discriminate|reflexivity]. }
  rewrite Q1, Q2, andb_false_r. cbn [orb]. pose proof (token_word [] d r) as T. cbn [app] in T. rewrite T; [|constructor|exact Wd|exact D]. cbn [txt]. rewrite F. reflexivity.
Qed.
Lemma gta_none s t s' : get_token (Some s) = (t, s') -> txt t <> str ".type" -> get_type_args s = Ok None.
Proof. intros G N. unfold get_type_args. rewrite G. apply same_false in N. rewrite N. reflexivity. Qed.

Section Kinds.
Variable a : parch.
Definition typed (x : line) : Prop := l_type x = parse_ctype a (l_text x).
(** What matters of each line *)
Definition Kglobl (n : text) (x : line) := l_type x = DGlobl /\ txt (second_token (l_text x)) = n /\ get_type_args (l_text x) = Ok None /\ l_text x <> [].
Definition Ksec (e : bool) (x : line) := is_sect_cmd (l_type x) = true /\ (l_type x = DText \/ l_type x = DData \/ l_type x = DBss \/ l_type x = DSection) /\ sc_exec (l_sect x) = e /\ get_type_args (l_text x) = Ok None /\ l_text x <> [].
Definition Kalign (x : line) := l_type x = DAlign /\ l_text x <> [].
Definition Ktype (n w : text) (x : line) := l_type x = DType /\ txt (second_token (l_text x)) = n /\ l_text x <> [] /\ exists u v, get_type_args (l_text x) = Ok (Some (u, v)) /\ txt u = n /\ txt v = w.
Definition Ksize (n : text) (x : line) := l_type x = DSize /\ txt (second_token (l_text x)) = n /\ l_text x <> [].
Definition Klabel (n : text) (x : line) := l_type x = DLabel /\ txt (fst (get_token (Some (l_text x)))) = n /\ get_type_args (l_text x) = Ok None /\ l_text x <> [] /\ hot_label a x = false.
Definition Kdata (x : line) := l_type x = DOther /\ is_data_def a (l_text x) = true /\ l_text x <> [].
Lemma k_globl n x : name_ok n -> typed x -> says (str "	.globl	" ++ n) x -> Kglobl n x.
Proof.
  intros N T S. unfold typed, says in *. change (str "	.globl	" ++ n) with (9 :: str ".globl" ++ 9 :: n) in S. rewrite <- (app_nil_r n) in S.
  assert (W : GenComm.word (str ".globl")) by wordlit. destruct (two_tokens (str ".globl") n [] W (name_word n N)) as (G1 & G2 & _); [discriminate|].
  split; [rewrite T, S; apply dir_line; [exact W|reflexivity|reflexivity|intros c r' [= <- _]; cbn; tauto|vm_compute; reflexivity]|].
  split; [rewrite S, G2; reflexivity|]. split; [rewrite S; eapply gta_none; [exact G1|discriminate]|rewrite S; discriminate].
Qed.
Lemma k_sec_text d x e : typed x -> says (9 :: d) x -> sc_exec (l_sect x) = e -> In (d, find_ctype d) [(str ".text", Some DText); (str ".data", Some DData); (str ".bss", Some DBss)] -> Ksec e x.
Proof.
  intros T S E I. unfold typed, says in *. rewrite S in T. unfold Ksec. rewrite S, E, T.
  assert (H : exists k, parse_ctype a (9 :: d) = k /\ is_sect_cmd k = true /\ (k = DText \/ k = DData \/ k = DBss \/ k = DSection) /\ get_type_args (9 :: d) = Ok None).
  { cbn [In] in I. destruct I as [I|[I|[I|[]]]]; injection I as <- _;
      (eexists; split; [lazymatch goal with |- parse_ctype a (9 :: ?q) = _ => rewrite <- (app_nil_r q); apply dir_line; [wordlit|reflexivity|reflexivity|discriminate|vm_compute; reflexivity] end|]);
      (split; [reflexivity|split; [auto|reflexivity]]). }
  destruct H as (k & -> & H1 & H2 & H3). repeat split; try assumption; try discriminate.
Qed.
Lemma k_section x e z : typed x -> says (str "	.section	" ++ z) x -> sc_exec (l_sect x) = e -> Ksec e x.
Proof.
  intros T S E. unfold typed, says in *. change (str "	.section	" ++ z) with (9 :: str ".section" ++ 9 :: z) in S.
  assert (W : GenComm.word (str ".section")) by wordlit. assert (T' : l_type x = DSection) by (rewrite T, S; apply dir_line; [exact W|reflexivity|reflexivity|intros c r' [= <- _]; cbn; tauto|vm_compute; reflexivity]).
  unfold Ksec. rewrite T', E. repeat split; auto; [|rewrite S; discriminate]. rewrite S. eapply gta_none; [apply one_token; [exact W|intros c r' [= <- _]; cbn; tauto]|discriminate].
Qed.
Lemma k_code x : typed x -> code_section x -> Ksec true x.
Proof. intros T ([S|(z & S)] & E); [apply (k_sec_text (str ".text")); auto; left; vm_compute; reflexivity|apply (k_section x true z); auto]. Qed.
Lemma k_datasec x : typed x -> data_section x -> Ksec false x.
Proof.
  intros T ([S|[S|(z & S)]] & E); [apply (k_sec_text (str ".data")); auto; right; left; vm_compute; reflexivity|apply (k_sec_text (str ".bss")); auto; right; right; left; vm_compute; reflexivity|apply (k_section x false z); auto].
Qed.
Lemma k_align x : typed x -> align_line x -> Kalign x.
Proof.
  intros T (z & [S|S]); unfold typed, says in *; (split; [|rewrite S; discriminate]); rewrite T, S.
  - change (str "	.align	" ++ z) with (9 :: str ".align" ++ 9 :: z). apply dir_line; [wordlit|reflexivity|reflexivity|intros c r' [= <- _]; cbn; tauto|vm_compute; reflexivity].
  - change (str "	.p2align	" ++ z) with (9 :: str ".p2align" ++ 9 :: z). apply dir_line; [wordlit|reflexivity|reflexivity|intros c r' [= <- _]; cbn; tauto|vm_compute; reflexivity].
Qed.
Lemma k_type n w x : name_ok n -> GenComm.word w -> typed x -> says (str "	.type	" ++ n ++ str ", " ++ w) x -> Ktype n w x.
Proof.
  intros N Ww T S. unfold typed, says in *. change (str "	.type	" ++ n ++ str ", " ++ w) with (9 :: str ".type" ++ 9 :: n ++ (44 :: 32 :: w)) in S.
  assert (W : GenComm.word (str ".type")) by wordlit. destruct (two_tokens (str ".type") n (44 :: 32 :: w) W (name_word n N)) as (G1 & G2 & G3); [intros c r' [= <- _]; cbn; tauto|].
  split; [rewrite T, S; apply dir_line; [exact W|reflexivity|reflexivity|intros c r' [= <- _]; cbn; tauto|vm_compute; reflexivity]|].
  split; [rewrite S, G2; reflexivity|]. split; [rewrite S; discriminate|]. exists (KStr n (44 :: 32 :: w)), (KStr w []). rewrite S. split; [|split; reflexivity].
  unfold get_type_args. rewrite G1. cbn [txt]. change (same (str ".type") (str ".type")) with true. cbn [negb]. cbn iota. rewrite G3.
  change (skip_blanks (44 :: 32 :: w)) with (44 :: 32 :: w). change (at_end (44 :: 32 :: w)) with false. cbn iota. rewrite token_comma. cbn [txt]. change (skip_blanks (32 :: w)) with (skip_blanks w).
  destruct (word_skip w [] Ww) as (E1 & E2). rewrite app_nil_r in E1, E2. rewrite E1, E2. pose proof (token_word [] w []) as X. cbn [app] in X. rewrite app_nil_r in X. rewrite X; [|constructor|exact Ww|discriminate].
  reflexivity.
Qed.
Lemma k_size n z x : name_ok n -> typed x -> says (str "	.size	" ++ n ++ str ", " ++ z) x -> Ksize n x.
Proof.
  intros N T S. unfold typed, says in *. change (str "	.size	" ++ n ++ str ", " ++ z) with (9 :: str ".size" ++ 9 :: n ++ (44 :: 32 :: z)) in S.
  assert (W : GenComm.word (str ".size")) by wordlit. destruct (two_tokens (str ".size") n (44 :: 32 :: z) W (name_word n N)) as (G1 & G2 & G3); [intros c r' [= <- _]; cbn; tauto|].
  split; [rewrite T, S; apply dir_line; [exact W|reflexivity|reflexivity|intros c r' [= <- _]; cbn; tauto|vm_compute; reflexivity]|].
  split; [rewrite S, G2; reflexivity|rewrite S; discriminate].
Qed.
Lemma prefix_spec p s : prefix_of p s = true <-> exists v, s = p ++ v.
Proof.
  revert s. induction p as [|c p IH]; intros s; cbn [prefix_of app]; [split; [exists s; reflexivity|reflexivity]|].
  destruct s as [|d s]; [split; [discriminate|intros (v & E); discriminate]|]. rewrite andb_true_iff, IH, Z.eqb_eq. split; [intros (-> & v & ->); exists v; reflexivity|intros (v & E); injection E as -> ->; split; [reflexivity|exists v; reflexivity]].
Qed.
Lemma contains_inv s p : contains s p = true -> exists u v, s = u ++ p ++ v.
Proof.
  unfold contains. induction s as [|c s IH]; cbn [strstr].
  - destruct (prefix_of p []) eqn:P; [|discriminate]. intros _. apply prefix_spec in P. destruct P as (v & P). exists [], v. exact P.
  - destruct (prefix_of p (c :: s)) eqn:P; [intros _; apply prefix_spec in P; destruct P as (v & P); exists [], v; exact P|].
    destruct (strstr s p); [|discriminate]. intros _. destruct IH as (u & v & ->); [reflexivity|]. exists (c :: u), v. reflexivity.
Qed.
Lemma no_hot n p : ~ In 58 p -> p <> [] -> (forall u v, n <> u ++ p ++ v) -> contains (n ++ [58]) p = false.
Proof.
  intros Np Ne H. apply not_true_is_false. intros C. apply contains_inv in C. destruct C as (u & v & E).
  destruct (rev v) as [|c v'] eqn:R.
  - assert (v = []) by (rewrite <- (rev_involutive v), R; reflexivity). subst v. rewrite app_nil_r in E. apply (f_equal (@rev Z)) in E. rewrite !rev_app_distr in E. cbn in E.
    destruct (rev p) as [|d p'] eqn:Rp; [apply Ne; rewrite <- (rev_involutive p), Rp; reflexivity|]. cbn in E. injection E as <- _. apply Np. apply in_rev. rewrite Rp. left. reflexivity.
  - assert (v = rev v' ++ [c]) by (rewrite <- (rev_involutive v), R; reflexivity). subst v. rewrite !app_assoc in E. apply app_inj_tail in E. destruct E as (E & _). apply (H u (rev v')). rewrite E, app_assoc. reflexivity.
Qed.
Lemma k_label n x : name_ok n -> typed x -> says (n ++ str ":") x -> Klabel n x.
Proof.
  intros N T S. pose proof N as N0. unfold typed, says in *. change (str ":") with [58] in S. destruct N as ((c & r & En & N1 & N2 & N3 & N4) & F & Nd & H1 & H2).
  assert (Ty : l_type x = DLabel).
  { rewrite T, S. rewrite C46_labels; [|exists c, r; repeat split; auto; exact F|].
    - rewrite En. cbn [hd]. destruct (48 <=? c) eqn:E1, (c <=? 57) eqn:E2; try reflexivity. lia.
    - intros (q & I & E). apply Nd. rewrite E. revert I. unfold directives. rewrite !in_map_iff. intros (y & <- & I). exists (fst y). split; [reflexivity|].
      cbn [In] in I |- *. repeat (destruct I as [<-|I]; [cbn [fst]; tauto|]). destruct I. }
  assert (G : get_token (@Some text (n ++ [58])) = (KStr n [58], Some [58])).
  { pose proof (token_word [] n [58]) as X. cbn [app] in X. rewrite X; [reflexivity|constructor|apply name_word, N0|intros d q [= <- _]; cbn; tauto]. }
  split; [exact Ty|]. split; [rewrite S, G; reflexivity|]. split; [rewrite S; eapply gta_none; [exact G|]; cbn [txt]; intros E; apply Nd; rewrite E; vm_compute; tauto|].
  split; [rewrite S, En; discriminate|]. unfold hot_label. rewrite S, (no_hot n (str ".LCOLD")), (no_hot n (str ".LHOT")); [apply andb_false_r| | |exact H2| | |exact H1]; try discriminate; cbn; lia.
Qed.
Lemma k_data w y x : GenComm.word w -> prefix_of [35] w = false -> prefix_of [47] w = false -> find_ctype w = None -> existsb (same w) (pa_data a) = true -> typed x -> says (str "	" ++ w ++ str "	" ++ y) x ->
  (forall z, skip_blanks (9 :: y) <> 58 :: z) -> Kdata x.
Proof.
  intros W P1 P2 F D T S Y. unfold typed, says in *. change (str "	" ++ w ++ str "	" ++ y) with (9 :: w ++ 9 :: y) in S.
  assert (G : get_token (@Some text (9 :: w ++ 9 :: y)) = (KStr w (9 :: y), if at_end (skip_blanks (9 :: y)) then None else Some (skip_blanks (9 :: y)))) by (apply one_token; [exact W|intros c r' [= <- _]; cbn; tauto]).
  split; [|split; [unfold is_data_def; rewrite S, G; exact D|rewrite S; discriminate]].
  rewrite T, S. unfold parse_ctype. change (skip_blanks (9 :: w ++ 9 :: y)) with (skip_blanks (w ++ 9 :: y)). destruct (word_skip w (9 :: y) W) as (-> & _).
  assert (Q1 : prefix_of [35] (w ++ 9 :: y) = false) by (destruct w; [destruct W; congruence|exact P1]).
  assert (Q2 : prefix_of [47; 47] (w ++ 9 :: y) = false). { destruct w as [|c w]; [destruct W; congruence|]. cbn [app prefix_of] in *. destruct (47 =? c); [destruct w; discriminate|reflexivity]. }
  rewrite Q1, Q2, andb_false_r. cbn [orb]. pose proof (token_word [] w (9 :: y)) as X. cbn [app] in X. rewrite X; [|constructor|exact W|intros c r' [= <- _]; cbn; tauto]. cbn [txt]. rewrite F.
  destruct (at_end (skip_blanks (9 :: y))); [reflexivity|]. destruct (skip_blanks (9 :: y)) as [|d q] eqn:E; [reflexivity|]. destruct (Z.eq_dec d 58) as [->|Nd]; [exfalso; exact (Y q eq_refl)|].
  destruct d as [|p|p]; try reflexivity. do 6 (destruct p as [p|p|]; try reflexivity); congruence.
Qed.

(** * Cutting *)
Variable fw : text.
Hypothesis fw_ok : fw = pa_func a.
Lemma ne_eqb (l : text) : l <> [] -> list_eqb l [] = false.
Proof. destruct l; [congruence|reflexivity]. Qed.
Ltac eqb_of T := rewrite ?T; cbn [dir_beq is_sect_cmd andb orb negb].

(** Where a function begins *)
Lemma fs_align x r first func nm attr : Kalign x -> function_start_from a first func nm attr (x :: r) = function_start_from a false func nm attr r.
Proof. intros (T & N). cbn [function_start_from]. rewrite (ne_eqb _ N), andb_false_r, T. cbn [dir_beq is_sect_cmd andb orb]. reflexivity. Qed.
Lemma fs_aligns al r first func nm attr : Forall Kalign al -> exists first', function_start_from a first func nm attr (al ++ r) = function_start_from a first' func nm attr r.
Proof.
  intros F. revert first. induction F as [|x al K F IH]; intros first; cbn [app]; [exists first; reflexivity|]. rewrite fs_align by exact K. apply IH.
Qed.
Lemma fs_code x r first func nm attr : Ksec true x -> function_start_from a first func nm attr (x :: r) = function_start_from a false func nm attr r.
Proof. intros (C & _ & E & _ & N). cbn [function_start_from]. rewrite (ne_eqb _ N), andb_false_r, C, E. cbn [andb orb]. reflexivity. Qed.
Lemma fs_datasec x r first func nm attr : Ksec false x -> function_start_from a first func nm attr (x :: r) = Ok (func, nm).
Proof.
  intros (C & T & E & G & N). cbn [function_start_from]. rewrite (ne_eqb _ N), andb_false_r, E, andb_false_r, G. cbn [rbind]. unfold hot_label. destruct T as [T|[T|[T|T]]]; rewrite T; cbn [dir_beq andb orb]; rewrite ?andb_false_r; reflexivity.
Qed.
Lemma fs_globl n x r first func nm attr : Kglobl n x -> txt nm = [] \/ txt nm = n -> exists nm', txt nm' = n /\ function_start_from a first func nm attr (x :: r) = function_start_from a false func nm' attr r.
Proof.
  intros (T & Sn & G & N) H. cbn [function_start_from]. rewrite (ne_eqb _ N), andb_false_r, G, T. cbn [dir_beq is_sect_cmd andb orb rbind]. exists (second_token (l_text x)). split; [exact Sn|]. rewrite Sn, !orb_false_r.
  destruct H as [->| ->]; [cbn [list_eqb negb andb]; reflexivity|]. rewrite same_refl, andb_false_r. reflexivity.
Qed.
Lemma fs_globls (g : bool) n gl r first func nm attr : (if g then exists x, gl = [x] /\ Kglobl n x else gl = []) -> txt nm = [] \/ txt nm = n ->
  exists first' nm', (txt nm' = txt nm \/ txt nm' = n) /\ function_start_from a first func nm attr (gl ++ r) = function_start_from a first' func nm' attr r.
Proof.
  intros K H. destruct g; [|subst gl; exists first, nm; auto]. destruct K as (x & -> & K). cbn [app]. destruct (fs_globl n x r first func nm attr K H) as (nm' & E & ->). exists false, nm'. auto.
Qed.
Lemma fs_type n x r first func nm attr : Ktype n fw x -> txt nm = [] \/ txt nm = n -> exists nm' attr', txt nm' = n /\ function_start_from a first func nm attr (x :: r) = function_start_from a false true nm' attr' r.
Proof.
  intros (T & Sn & N & u & v & G & Eu & Ev) H. cbn [function_start_from]. rewrite (ne_eqb _ N), andb_false_r, G, T. cbn [dir_beq is_sect_cmd andb orb rbind]. rewrite Ev, fw_ok, same_refl. cbn [andb orb].
  exists (second_token (l_text x)), (pa_func a). split; [exact Sn|]. rewrite Sn, orb_true_r. destruct H as [->| ->]; [cbn [list_eqb negb andb]; reflexivity|]. rewrite same_refl, andb_false_r. reflexivity.
Qed.
Lemma fs_other_type n w x r first func nm attr : w <> pa_func a -> Ktype n w x -> function_start_from a first func nm attr (x :: r) = Ok (func, nm).
Proof.
  intros Nw (T & Sn & N & u & v & G & Eu & Ev). cbn [function_start_from]. rewrite (ne_eqb _ N), andb_false_r, G, T. cbn [dir_beq is_sect_cmd andb orb rbind]. rewrite Ev. apply same_false in Nw. rewrite Nw. cbn [andb orb]. unfold hot_label. rewrite T. cbn [dir_beq andb]. rewrite andb_false_r. reflexivity.
Qed.
Lemma fs_label n x r func nm attr : Klabel n x -> function_start_from a false func nm attr (x :: r) = Ok (func, nm).
Proof.
  intros (T & _ & G & N & H). cbn [function_start_from]. rewrite (ne_eqb _ N), G, T, H. reflexivity.
Qed.
Definition Gl (g : bool) (n : text) (gl : list line) : Prop := if g then exists x, gl = [x] /\ Kglobl n x else gl = [].
Lemma function_start_fun g n sec al gl ty lb r : Ksec true sec -> Forall Kalign al -> Gl g n gl -> Ktype n fw ty -> Klabel n lb ->
  exists nm, txt nm = n /\ is_function_start a (sec :: al ++ gl ++ ty :: lb :: r) = Ok (true, nm).
Proof.
  intros K1 K2 K3 K4 K5. unfold is_function_start. rewrite fs_code by exact K1. destruct (fs_aligns al (gl ++ ty :: lb :: r) false false kempty [] K2) as (f1 & ->).
  destruct (fs_globls g n gl (ty :: lb :: r) f1 false kempty [] K3 (or_introl eq_refl)) as (f2 & nm & Hn & ->).
  destruct (fs_type n ty (lb :: r) f2 false nm [] K4) as (nm' & attr & E & ->); [destruct Hn as [->| ->]; auto|]. exists nm'. split; [exact E|]. apply (fs_label n), K5.
Qed.
Lemma function_start_var g n gl sec al w ty r : w <> pa_func a -> Gl g n gl -> (sec = [] \/ exists x, sec = [x] /\ Ksec false x) -> Forall Kalign al -> Ktype n w ty ->
  exists nm, is_function_start a (gl ++ sec ++ al ++ ty :: r) = Ok (false, nm).
Proof.
  intros Nw K1 K2 K3 K4. unfold is_function_start. destruct (fs_globls g n gl (sec ++ al ++ ty :: r) true false kempty [] K1 (or_introl eq_refl)) as (f1 & nm & _ & ->). exists nm.
  destruct K2 as [->|(x & -> & K2)]; cbn [app]; [|apply fs_datasec, K2]. destruct (fs_aligns al (ty :: r) f1 false nm [] K3) as (f2 & ->). apply (fs_other_type n w); assumption.
Qed.

(** Where a variable begins *)
Lemma vs_skip x r k g nm : l_type x = DAlign \/ l_type x = DText \/ l_type x = DData \/ l_type x = DBss \/ l_type x = DSection -> l_text x <> [] ->
  variable_start_from a k g nm (x :: r) = variable_start_from a (S k) g nm r.
Proof.
  intros T N. cbn [variable_start_from]. rewrite (ne_eqb _ N). cbn [andb]. unfold hot_label. destruct T as [T|[T|[T|[T|T]]]]; rewrite T; cbn [dir_beq takes_name andb]; rewrite andb_false_r; reflexivity.
Qed.
Lemma vs_aligns al r k g nm : Forall Kalign al -> variable_start_from a k g nm (al ++ r) = variable_start_from a (length al + k) g nm r.
Proof.
  intros F. revert k. induction F as [|x al (T & N) F IH]; intros k; cbn [app length]; [reflexivity|]. rewrite vs_skip, IH; auto. f_equal. cbn. lia.
Qed.
Lemma vs_sec e x r k g nm : Ksec e x -> variable_start_from a k g nm (x :: r) = variable_start_from a (S k) g nm r.
Proof. intros (_ & T & _ & _ & N). apply vs_skip; [tauto|exact N]. Qed.
Lemma vs_globls (g0 : bool) g n gl r k nm : Gl g n gl -> txt nm = [] \/ txt nm = n -> exists nm', (txt nm' = txt nm \/ txt nm' = n) /\ variable_start_from a k g0 nm (gl ++ r) = variable_start_from a (length gl + k) (g0 || g) nm' r.
Proof.
  intros K H. destruct g; [|cbn [Gl] in K; subst gl; exists nm; rewrite orb_false_r; auto]. destruct K as (x & -> & T & Sn & G & N). cbn [app length variable_start_from]. exists (second_token (l_text x)). split; [right; exact Sn|].
  rewrite (ne_eqb _ N). cbn [andb]. unfold hot_label. rewrite T. cbn [dir_beq takes_name andb]. rewrite andb_false_r. rewrite Sn, orb_true_r.
  destruct H as [->| ->]; [cbn [list_eqb negb andb]; reflexivity|]. rewrite same_refl, andb_false_r. reflexivity.
Qed.
Lemma vs_type n w x r k g nm : Ktype n w x -> txt nm = [] \/ txt nm = n -> exists nm', txt nm' = n /\ variable_start_from a k g nm (x :: r) = if existsb (same w) (pa_objs a) then variable_start_from a (S k) g nm' r else Ok None.
Proof.
  intros (T & Sn & N & u & v & G & Eu & Ev) H. exists (second_token (l_text x)). split; [exact Sn|]. cbn [variable_start_from]. rewrite (ne_eqb _ N). cbn [andb]. unfold hot_label. rewrite T. cbn [dir_beq takes_name andb]. rewrite andb_false_r, Sn, G. cbn [rbind]. rewrite Ev.
  destruct H as [->| ->]; [cbn [list_eqb negb andb]; reflexivity|]. rewrite same_refl, andb_false_r. reflexivity.
Qed.
Lemma vs_size n x r k g nm : Ksize n x -> variable_start_from a (S k) g nm (x :: r) = variable_start_from a (S (S k)) g nm r.
Proof.
  intros (T & _ & N). cbn [variable_start_from]. rewrite (ne_eqb _ N). cbn [andb]. unfold hot_label. rewrite T. cbn [dir_beq takes_name andb]. rewrite andb_false_r. reflexivity.
Qed.
Lemma vs_label n x r k g nm : Klabel n x -> txt nm = n -> sc_exec (l_sect x) = false -> exists nm', txt nm' = n /\ variable_start_from a k g nm (x :: r) = Ok (Some (S k, Some g, nm')).
Proof.
  intros (T & Sn & _ & N & H) En E. exists (fst (get_token (Some (l_text x)))). split; [exact Sn|]. cbn [variable_start_from]. rewrite (ne_eqb _ N), H, T, E. cbn [andb takes_name]. rewrite Sn, En, same_refl, andb_false_r. reflexivity.
Qed.
Lemma variable_start_var g n gl sec al w ty sz lb r : existsb (same w) (pa_objs a) = true -> Gl g n gl -> (sec = [] \/ exists x, sec = [x] /\ Ksec false x) -> Forall Kalign al -> Ktype n w ty -> Ksize n sz -> Klabel n lb -> sc_exec (l_sect lb) = false ->
  exists nm, txt nm = n /\ is_variable_start a (gl ++ sec ++ al ++ ty :: sz :: lb :: r) = Ok (Some (length (gl ++ sec ++ al ++ [ty; sz; lb]), Some g, nm)).
Proof.
  intros Ow K1 K2 K3 K4 K5 K6 E. unfold is_variable_start. destruct (vs_globls false g n gl (sec ++ al ++ ty :: sz :: lb :: r) 0 kempty K1 (or_introl eq_refl)) as (nm & Hn & ->). cbn [orb].
  assert (S2 : variable_start_from a (length gl + 0) g nm (sec ++ al ++ ty :: sz :: lb :: r) = variable_start_from a (length sec + (length gl + 0)) g nm (al ++ ty :: sz :: lb :: r)).
  { destruct K2 as [->|(x & -> & K2)]; [reflexivity|]. cbn [app length]. rewrite (vs_sec false) by exact K2. reflexivity. }
  rewrite S2, vs_aligns by exact K3. destruct (vs_type n w ty (sz :: lb :: r) (length al + (length sec + (length gl + 0))) g nm K4) as (nm' & En & ->); [destruct Hn as [->| ->]; auto|]. rewrite Ow.
  rewrite (vs_size n) by exact K5. destruct (vs_label n lb r (S (S (length al + (length sec + (length gl + 0))))) g nm' K6 En E) as (nm2 & E2 & ->). exists nm2. split; [exact E2|]. rewrite !app_length. cbn [length]. do 4 f_equal. lia.
Qed.
Lemma variable_start_fun g n sec al gl ty r : existsb (same fw) (pa_objs a) = false -> Ksec true sec -> Forall Kalign al -> Gl g n gl -> Ktype n fw ty -> is_variable_start a (sec :: al ++ gl ++ ty :: r) = Ok None.
Proof.
  intros Nw K1 K2 K3 K4. unfold is_variable_start. rewrite (vs_sec true), vs_aligns by assumption. destruct (vs_globls false g n gl (ty :: r) (length al + 1) kempty K3 (or_introl eq_refl)) as (nm & Hn & ->).
  destruct (vs_type n fw ty r (length gl + (length al + 1)) (false || g) nm K4) as (nm' & En & ->); [destruct Hn as [->| ->]; auto|]. rewrite Nw. reflexivity.
Qed.
Lemma variable_start_data x r : Kdata x -> is_variable_start a (x :: r) = Ok None.
Proof. intros (T & _ & N). unfold is_variable_start. cbn [variable_start_from]. rewrite (ne_eqb _ N). cbn [andb]. unfold hot_label. rewrite T. cbn [dir_beq takes_name andb]. rewrite andb_false_r. reflexivity. Qed.

(** The lines of a function *)
Definition plain_line (x : line) : Prop := ~ In (l_type x) [DType; DSize; DGlobl; DKpflags].
Lemma fl_plain nm cnt g ad x r : plain_line x -> r <> [] -> func_lines a nm cnt g ad (x :: r) = (do q <- func_lines a nm cnt g ad r; let '(u, v, g', ad') := q in Ok (x :: u, v, g', ad')).
Proof.
  intros P N. destruct r as [|y r]; [congruence|]. cbn [func_lines]. unfold plain_line in P. cbn [In] in P.
  assert (B : forall d, In d [DType; DSize; DGlobl; DKpflags] -> dir_beq (l_type x) d = false). { intros d I. destruct (dir_beq (l_type x) d) eqn:E; [|reflexivity]. apply internal_dir_dec_bl in E. subst d. cbn [In] in I. tauto. }
  unfold recog_func_attr, is_function_end. rewrite (B DGlobl), (B DKpflags), (B DType), (B DSize) by (cbn; tauto). cbn [rbind andb]. rewrite Z.add_0_r, !orb_false_r. reflexivity.
Qed.
Lemma fl_plains nm cnt g ad xs r : Forall plain_line xs -> r <> [] -> func_lines a nm cnt g ad (xs ++ r) = (do q <- func_lines a nm cnt g ad r; let '(u, v, g', ad') := q in Ok (xs ++ u, v, g', ad')).
Proof.
  intros F N. induction F as [|x xs P F IH]; cbn [app]; [destruct (func_lines a nm cnt g ad r) as [[[[u v] g'] ad']| | |]; reflexivity|]. rewrite fl_plain; [|exact P|destruct xs; [exact N|discriminate]].
  rewrite IH. destruct (func_lines a nm cnt g ad r) as [[[[u v] g'] ad']| | |]; reflexivity.
Qed.
Lemma fl_globl nm n cnt g ad x r : Kglobl n x -> r <> [] -> func_lines a nm cnt g ad (x :: r) = (do q <- func_lines a nm cnt true ad r; let '(u, v, g', ad') := q in Ok (x :: u, v, g', ad')).
Proof.
  intros (T & _) N. destruct r as [|y r]; [congruence|]. cbn [func_lines]. unfold recog_func_attr, is_function_end. rewrite T. cbn [dir_beq rbind andb]. rewrite T. cbn [dir_beq rbind andb]. rewrite Z.add_0_r, !orb_false_r, orb_true_r. reflexivity.
Qed.
Lemma fl_type n cnt g ad x r : Ktype n fw x -> r <> [] -> func_lines a n cnt g ad (x :: r) = (do q <- func_lines a n (cnt + 1) g ad r; let '(u, v, g', ad') := q in Ok (x :: u, v, g', ad')).
Proof.
  intros (T & _ & _ & u & v & G & Eu & Ev) N. destruct r as [|y r]; [congruence|]. cbn [func_lines]. unfold recog_func_attr, is_function_end. rewrite T. cbn [dir_beq rbind andb]. rewrite T, G. cbn [dir_beq rbind]. rewrite Ev, fw_ok, same_refl, Eu, Nat.ltb_irrefl, andb_false_r, Eu, same_refl. cbn [rbind]. rewrite !orb_false_r. reflexivity.
Qed.
Lemma fl_size n g ad x r : Ksize n x -> func_lines a n 1 g ad (x :: r) = Ok ([x], r, g, ad).
Proof.
  intros (T & Sn & _). destruct r as [|y r]; [reflexivity|]. cbn [func_lines]. unfold recog_func_attr, is_function_end. rewrite T. cbn [dir_beq rbind andb]. rewrite T. cbn [dir_beq rbind andb]. rewrite Sn, Nat.ltb_irrefl, Sn, same_refl. cbn [andb Z.eqb Z.add Z.sub Z.opp Pos.add]. rewrite !orb_false_r. reflexivity.
Qed.
(** What follows the label up to the end *)
Definition closes (n : text) (tail : list line) : Prop := tail <> [] /\ forall g r, func_lines a n 1 g false (tail ++ r) = Ok (tail, r, g, false).
Lemma func_lines_fun g n sec al gl ty lb tail r : Ksec true sec -> Forall Kalign al -> Gl g n gl -> Ktype n fw ty -> Klabel n lb -> closes n tail ->
  func_lines a n 0 false false ((sec :: al ++ gl ++ ty :: lb :: tail) ++ r) = Ok (sec :: al ++ gl ++ ty :: lb :: tail, r, g, false).
Proof.
  intros K1 K2 K3 K4 K5 (Nt & K6).
  assert (P1 : plain_line sec) by (destruct K1 as (_ & [T|[T|[T|T]]] & _); unfold plain_line; rewrite T; cbn; intuition discriminate).
  assert (P2 : Forall plain_line al) by (eapply Forall_impl; [|exact K2]; intros x (T & _); unfold plain_line; rewrite T; cbn; intuition discriminate).
  assert (P5 : plain_line lb) by (destruct K5 as (T & _); unfold plain_line; rewrite T; cbn; intuition discriminate).
  replace ((sec :: al ++ gl ++ ty :: lb :: tail) ++ r) with (sec :: al ++ gl ++ ty :: lb :: tail ++ r) by (cbn; rewrite <- !app_assoc; reflexivity).
  assert (T1 : func_lines a n 0 g false (ty :: lb :: tail ++ r) = Ok (ty :: lb :: tail, r, g, false)).
  { rewrite fl_type; [|exact K4|discriminate]. rewrite fl_plain; [|exact P5|destruct tail; [congruence|discriminate]]. rewrite K6. reflexivity. }
  rewrite fl_plain; [|exact P1|destruct al; [destruct gl; discriminate|discriminate]]. rewrite fl_plains; [|exact P2|destruct gl; discriminate].
  destruct g; cbn [Gl] in K3.
  - destruct K3 as (x & -> & K3). cbn [app]. rewrite (fl_globl n n); [|exact K3|discriminate]. rewrite T1. reflexivity.
  - subst gl. cbn [app]. rewrite T1. reflexivity.
Qed.
Lemma closes_plain n body sz : Forall plain_line body -> Ksize n sz -> closes n (body ++ [sz]).
Proof. intros K6 K7. split; [destruct body; discriminate|]. intros g r. rewrite <- app_assoc. cbn [app]. rewrite fl_plains; [|exact K6|discriminate]. rewrite fl_size by exact K7. reflexivity. Qed.
(** Cold parts *)
Lemma strstr_cold n v : (forall u v, n <> u ++ str ".cold" ++ v) -> strstr (n ++ str ".cold" ++ v) (str ".cold") = Some (length n).
Proof.
  induction n as [|c n IH]; intros H.
  - cbn [app length]. destruct (str ".cold" ++ v) as [|x q] eqn:E; [discriminate|]. cbn [strstr]. rewrite <- E. rewrite (proj2 (prefix_spec _ _)) by (exists v; reflexivity). reflexivity.
  - change ((c :: n) ++ str ".cold" ++ v) with (c :: n ++ str ".cold" ++ v). cbn [strstr length].
    replace (prefix_of (str ".cold") (c :: n ++ str ".cold" ++ v)) with false.
    + rewrite IH; [reflexivity|]. intros u w E. apply (H (c :: u) w). rewrite E. reflexivity.
    + symmetry. apply not_true_is_false. intros P. apply prefix_spec in P. destruct P as (w & P). change (str ".cold") with [46; 99; 111; 108; 100] in *.
      destruct n as [|c1 n]; [cbn in P; congruence|]. destruct n as [|c2 n]; [cbn in P; congruence|]. destruct n as [|c3 n]; [cbn in P; congruence|]. destruct n as [|c4 n]; [cbn in P; congruence|].
      cbn in P. injection P as -> -> -> -> -> _. apply (H [] n). reflexivity.
Qed.
Lemma remove_cold_name n e r : (forall u v, n <> u ++ str ".cold" ++ v) -> txt (remove_cold (KStr (n ++ str ".cold" ++ e) r)) = n.
Proof.
  intros H. unfold remove_cold. cbn [txt rest]. rewrite <- !app_assoc. rewrite strstr_cold by exact H. cbn [txt]. rewrite firstn_app, Nat.sub_diag, firstn_all. cbn [firstn]. apply app_nil_r.
Qed.
(** The two lines of a cold part *)
Definition Ktypec (n : text) (x : line) := l_type x = DType /\ exists u v, get_type_args (l_text x) = Ok (Some (u, v)) /\ (length n < length (txt u))%nat /\ txt (remove_cold u) = n /\ txt v = fw.
Definition Ksizec (n : text) (x : line) := l_type x = DSize /\ (length n < length (txt (second_token (l_text x))))%nat /\ txt (remove_cold (second_token (l_text x))) = n.
Lemma cold_word n e : name_ok n -> Forall (fun d => ~ In d asm_delims) e -> GenComm.word (n ++ str ".cold" ++ e).
Proof.
  intros N F. destruct (name_word n N) as (W1 & W2 & W3). split; [destruct n; [congruence|discriminate]|]. split; [apply Forall_app; split; [exact W2|]; apply Forall_app; split; [repeat constructor; cbn; lia|exact F]|]. destruct n; [congruence|exact W3].
Qed.
Lemma k_typec n e x : GenComm.word fw -> name_ok n -> Forall (fun d => ~ In d asm_delims) e -> (forall u v, n <> u ++ str ".cold" ++ v) -> typed x -> says (str "	.type	" ++ (n ++ str ".cold" ++ e) ++ str ", " ++ fw) x -> Ktypec n x.
Proof.
  intros Ww N F H T S. pose proof (cold_word n e N F) as Wc. unfold typed, says in *. set (c := n ++ str ".cold" ++ e) in *. change (str "	.type	" ++ c ++ str ", " ++ fw) with (9 :: str ".type" ++ 9 :: c ++ (44 :: 32 :: fw)) in S.
  assert (W : GenComm.word (str ".type")) by wordlit. destruct (two_tokens (str ".type") c (44 :: 32 :: fw) W Wc) as (G1 & G2 & G3); [intros d r' [= <- _]; cbn; tauto|].
  split; [rewrite T, S; apply dir_line; [exact W|reflexivity|reflexivity|intros d r' [= <- _]; cbn; tauto|vm_compute; reflexivity]|].
  exists (KStr c (44 :: 32 :: fw)), (KStr fw []). rewrite S. split; [|split; [cbn [txt]; unfold c; rewrite !app_length; cbn; lia|split; [apply remove_cold_name, H|reflexivity]]].
  unfold get_type_args. rewrite G1. cbn [txt]. change (same (str ".type") (str ".type")) with true. cbn [negb]. cbn iota. rewrite G3.
  change (skip_blanks (44 :: 32 :: fw)) with (44 :: 32 :: fw). change (at_end (44 :: 32 :: fw)) with false. cbn iota. rewrite token_comma. cbn [txt]. change (skip_blanks (32 :: fw)) with (skip_blanks fw).
  destruct (word_skip fw [] Ww) as (E1 & E2). rewrite app_nil_r in E1, E2. rewrite E1, E2. pose proof (token_word [] fw []) as X. cbn [app] in X. rewrite app_nil_r in X. rewrite X; [|constructor|exact Ww|discriminate].
  reflexivity.
Qed.
Lemma k_sizec n e z x : name_ok n -> Forall (fun d => ~ In d asm_delims) e -> (forall u v, n <> u ++ str ".cold" ++ v) -> typed x -> says (str "	.size	" ++ (n ++ str ".cold" ++ e) ++ str ", " ++ z) x -> Ksizec n x.
Proof.
  intros N F H T S. pose proof (cold_word n e N F) as Wc. unfold typed, says in *. set (c := n ++ str ".cold" ++ e) in *. change (str "	.size	" ++ c ++ str ", " ++ z) with (9 :: str ".size" ++ 9 :: c ++ (44 :: 32 :: z)) in S.
  assert (W : GenComm.word (str ".size")) by wordlit. destruct (two_tokens (str ".size") c (44 :: 32 :: z) W Wc) as (G1 & G2 & G3); [intros d r' [= <- _]; cbn; tauto|].
  split; [rewrite T, S; apply dir_line; [exact W|reflexivity|reflexivity|intros d r' [= <- _]; cbn; tauto|vm_compute; reflexivity]|].
  rewrite S, G2. split; [cbn [txt]; unfold c; rewrite !app_length; cbn; lia|apply remove_cold_name, H].
Qed.
Lemma fl_typec n cnt g ad x r : pa_cold a = true -> Ktypec n x -> r <> [] -> func_lines a n cnt g ad (x :: r) = (do q <- func_lines a n (cnt + 1) g ad r; let '(u, v, g', ad') := q in Ok (x :: u, v, g', ad')).
Proof.
  intros Pc (T & u & v & G & L & Eu & Ev) N. destruct r as [|y r]; [congruence|]. cbn [func_lines]. unfold recog_func_attr, is_function_end. rewrite T. cbn [dir_beq rbind andb]. rewrite T, G. cbn [dir_beq rbind]. rewrite Ev, fw_ok, same_refl, Pc, (proj2 (Nat.ltb_lt _ _) L). cbn [andb]. rewrite Eu, same_refl. cbn [rbind]. rewrite !orb_false_r. reflexivity.
Qed.
Lemma fl_size2 n g ad x r : Ksize n x -> r <> [] -> func_lines a n 2 g ad (x :: r) = (do q <- func_lines a n 1 g ad r; let '(u, v, g', ad') := q in Ok (x :: u, v, g', ad')).
Proof.
  intros (T & Sn & _) N. destruct r as [|y r]; [congruence|]. cbn [func_lines]. unfold recog_func_attr, is_function_end. rewrite T. cbn [dir_beq rbind andb]. rewrite T. cbn [dir_beq rbind andb]. rewrite Sn, Nat.ltb_irrefl, Sn, same_refl. cbn [andb Z.eqb Z.add Z.sub Z.opp Pos.add Z.pos_sub Pos.eqb Pos.pred_double]. rewrite !orb_false_r. reflexivity.
Qed.
Lemma fl_sizec n g ad x r : Ksizec n x -> func_lines a n 1 g ad (x :: r) = Ok ([x], r, g, ad).
Proof.
  intros (T & L & Sn). destruct r as [|y r]; [reflexivity|]. cbn [func_lines]. unfold recog_func_attr, is_function_end. rewrite T. cbn [dir_beq rbind andb]. rewrite T. cbn [dir_beq rbind andb]. rewrite (proj2 (Nat.ltb_lt _ _) L), Sn, same_refl. cbn [andb Z.eqb Z.add Z.sub Z.opp Pos.add]. rewrite !orb_false_r. reflexivity.
Qed.
Lemma closes_cold n body tyc body2 sz body3 szc : pa_cold a = true -> Forall plain_line (body ++ body2 ++ body3) -> Ktypec n tyc -> Ksize n sz -> Ksizec n szc -> closes n (body ++ tyc :: body2 ++ sz :: body3 ++ [szc]).
Proof.
  intros Pc F K1 K2 K3. apply Forall_app in F. destruct F as (F1 & F). apply Forall_app in F. destruct F as (F2 & F3). split; [destruct body; discriminate|]. intros g r.
  replace ((body ++ tyc :: body2 ++ sz :: body3 ++ [szc]) ++ r) with (body ++ tyc :: body2 ++ sz :: body3 ++ szc :: r) by (rewrite <- !app_assoc; cbn; rewrite <- !app_assoc; cbn; rewrite <- !app_assoc; reflexivity).
  rewrite fl_plains; [|exact F1|discriminate]. rewrite fl_typec; [|exact Pc|exact K1|destruct body2; discriminate]. rewrite fl_plains; [|exact F2|discriminate]. rewrite fl_size2; [|exact K2|destruct body3; discriminate]. rewrite fl_plains; [|exact F3|discriminate]. rewrite fl_sizec by exact K3. reflexivity.
Qed.
(** The lines of a variable *)
Lemma vl_data nm g data r : forall k, Forall Kdata data -> (length data <= k)%nat -> var_lines a k nm g (data ++ r) = (do q <- var_lines a (k - length data) nm g r; Ok (length data + fst q, snd q))%nat.
Proof.
  induction data as [|x data IH]; intros k F L; cbn [app length].
  - rewrite Nat.sub_0_r. destruct (var_lines a k nm g r) as [[? ?]| | |]; reflexivity.
  - inversion F as [|? ? K F']; subst. destruct k as [|k]; [cbn in L; lia|]. cbn [var_lines]. rewrite variable_start_data by exact K. cbn [rbind]. destruct K as (_ & -> & _). rewrite IH; [|exact F'|cbn in L; lia].
    cbn [Nat.sub]. destruct (var_lines a (k - length data) nm g r) as [[? ?]| | |]; reflexivity.
Qed.
End Kinds.
