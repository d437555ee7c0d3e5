(** C105-C109: the server. *)
From Coq Require Import String.
From Verif Require Import Base BaseProofs StorageModel ServModel ServSpec CliModel CliSpec CliProofs LoopModel LoopSpec LoopProofs LoopTrace.
Open Scope list_scope.

(** ** For the examples *)
Definition fds0 : fdt := fun fd =>
  if fd =? 0 then Some (OStdin, false) else if fd =? 1 then Some (OStdout, false) else if fd =? 2 then Some (OStderr, false)
  else if fd =? 3 then Some (OListen, false) else None.
Lemma fds0_started : started 1024 3 fds0.
Proof.
  split.
  - apply Nat.leb_le. reflexivity.
  - exists OStdout. split; [reflexivity|discriminate].
  - exists OStderr. split; [reflexivity|discriminate].
  - exists false. reflexivity.
  - lia.
  - exists 4. split; [lia|reflexivity].
  - intros fd n b. unfold fds0. repeat (destruct (_ =? _); [discriminate|]). discriminate.
Qed.
Fixpoint cut_words (s cur : list Z) : list (list Z) :=
  match s with [] => [cur] | 32 :: r => cur :: cut_words r [] | c :: r => cut_words r (cur ++ [c]) end.
Definition asks (f : forkres) (ps : list (bool * list Z)) (s : string) : input :=
  IConn {| c_recv := [Data (encode (cut_words (str s) []))]; c_fork := f; c_ret := 0; c_prints := ps |}.
Definition ask : string -> input := asks FErr [].
Definition serves (l : list input) : st * list event * fin := serve_loop 1024 3 l (initial (str "/d") fds0).

Section Server.
Variable lim : nat.
Variable sfd : Z.
Variable t0 : fdt.
Hypothesis ST : started lim sfd t0.
Variable dir : list Z.
Variable l : list input.
Variable s : st.
Variable tr : list event.
Variable f : fin.
Hypothesis RUN : serve_loop lim sfd l (initial dir t0) = (s, tr, f).

Lemma the_run : runs t0 l (initial dir t0) s tr f.
Proof. eapply loop_runs; [exact ST|apply initial_good with (lim := lim) (sfd := sfd); exact ST|exact RUN]. Qed.

(** ** C105 *)

(** A start-up notification has the process it names patched from the directory that is set: the argument of
    the last storage command before it (4095 bytes of it), or the one the server was started with.  The
    client's connection is handed on to the patching. *)
Theorem C105_notified_process_patched : forall n cmd p pid rest,
  In (EAccept n) tr -> option_map request (nth_error l n) = Some (Some (cmd :: p :: rest)) ->
  (cmd = str "execve" \/ cmd = str "startup") -> numeral p pid -> pid < 2 ^ 31 ->
  In (EPatch (dir_after dir (map request (firstn n l))) pid (list_eqb cmd (str "execve")) (Some (OConn n))) (during n tr).
Proof.
  intros n cmd p pid rest I Q C NU LT.
  destruct (nth_conn lim t0 _ _ _ _ _ the_run n I) as (c & si & fd & ev & h & d & ch & tl & Q1 & _ & _ & _ & _ & Q6 & Q7 & Q8 & _).
  cbn [s_n initial s_dir Nat.add] in *. rewrite Q1 in Q. cbn [option_map request] in Q. rewrite Q8. apply in_app_iff. left.
  assert (SC : scan_d p = Some pid).
  { unfold scan_d. rewrite (atoi_numeral _ _ NU LT). destruct NU as (NE & F & _). destruct p as [|c0 p]; [congruence|].
    inversion F as [|? ? F1]. subst. unfold has_number. rewrite skip_space_digit by exact F1.
    replace ((c0 =? 45) || (c0 =? 43)) with false by lia. unfold is_digit. replace ((48 <=? c0) && (c0 <=? 57)) with true by lia. reflexivity. }
  assert (KEY : forall ev r d ch, exec_does t0 si n fd c (cmd :: p :: rest) ev r d ch ->
    In (EPatch (s_dir si) pid (list_eqb cmd (str "execve")) (Some (OConn n))) ev).
  { clear - SC C. intros ev r d ch X. inversion X; subst; try (destruct C as [C|C]; discriminate C).
    - cbn [hd] in *. destruct just; left; replace pid0 with pid by congruence; reflexivity.
    - cbn [hd] in *. congruence.
    - exfalso. match goal with H : ~ In _ _ |- _ => apply H end. unfold quiet_cmds. cbn [In]. destruct C as [->| ->]; auto 10. }
  rewrite <- Q6. inversion Q7 as [EH|[EH|EH]|EH|argv ev0 rv d0 ch0 EH X|argv ev0 d0 ch0 EH X]; subst; rewrite EH in Q; try discriminate;
    injection Q as ->.
  - apply in_app_iff. left. eapply KEY. exact X.
  - eapply KEY. exact X.
Qed.

Lemma skip_space_in : forall u c, In c (skip_space u) -> In c u.
Proof. induction u as [|x u IH]; cbn [skip_space]; intros c H; [exact H|]. destruct (is_space x); [right; now apply IH|exact H]. Qed.
Lemma has_number_digit u : has_number u = true -> exists c, In c u /\ 48 <= c <= 57.
Proof.
  unfold has_number. intros H. pose proof (skip_space_in u) as I. destruct (skip_space u) as [|c r]; [discriminate|].
  destruct ((c =? 45) || (c =? 43)).
  - destruct r as [|d r]; [discriminate|]. exists d. unfold is_digit in H. split; [apply I; right; now left|lia].
  - exists c. unfold is_digit in H. split; [apply I; now left|lia].
Qed.
(** Nothing else is patched outside of patch commands: update patches all processes (-1) from that directory, and
    execve and startup the process their argument names, which must have a digit in it. *)
Theorem C105_only_on_request : forall d pid just fd, In (EPatch d pid just fd) tr ->
  exists n cmd args, In (EPatch d pid just fd) (during n tr) /\ option_map request (nth_error l n) = Some (Some (cmd :: args)) /\
    d = dir_after dir (map request (firstn n l)) /\
    ((cmd = str "update" /\ pid = -1 /\ just = false /\ fd = None) \/
     (cmd = (if just then str "execve" else str "startup") /\ fd = Some (OConn n) /\
      (forall x, numeral (hd [] args) x -> x < 2 ^ 31 -> pid = x) /\ exists c, In c (hd [] args) /\ 48 <= c <= 57)).
Proof.
  intros d pid just fd I. destruct (event_of _ _ _ _ _ _ the_run _ I) as [(p & [H|H])|[(m & H)|(n & J & K)]]; try discriminate.
  cbn [s_n initial Nat.add] in *.
  destruct (nth_conn lim t0 _ _ _ _ _ the_run n J) as (c & si & fd' & ev & h & d' & ch & tl & Q1 & _ & _ & _ & _ & Q6 & Q7 & Q8 & Q9).
  cbn [s_n initial s_dir Nat.add] in *. exists n. rewrite Q1. cbn [option_map request].
  pose proof K as K0. rewrite Q8 in K. apply in_app_iff in K. destruct K as [K|K]; [|destruct (Q9 _ K) as (p & [H|H]); discriminate].
  assert (NP : forall a b ps, ~ In (EPatch d pid just fd) (prints_to a b ps)).
  { intros a b ps H. unfold prints_to in H. apply in_flat_map in H. destruct H as ([x bs] & _ & H). cbn [snd] in H.
    destruct bs; [destruct H|]. destruct H as [H|[]]. discriminate. }
  assert (NE : ~ In (EPatch d pid just fd) (end_child si)).
  { intros H. destruct (end_child_tidy si _ H) as (p & [X|X]); discriminate. }
  assert (NW : forall o bs, ~ In (EPatch d pid just fd) (writes_to o bs)).
  { intros o bs H. destruct bs; [destruct H|]. destruct H as [H|[]]. discriminate. }
  assert (KEY : forall argv ev r d' ch, exec_does t0 si n fd' c argv ev r d' ch -> In (EPatch d pid just fd) ev ->
    exists cmd args, argv = cmd :: args /\ d = s_dir si /\ ((cmd = str "update" /\ pid = -1 /\ just = false /\ fd = None) \/
     (cmd = (if just then str "execve" else str "startup") /\ fd = Some (OConn n) /\ scan_d (hd [] args) = Some pid))).
  { clear - NP NE NW. intros argv ev r d' ch X H.
    destruct X as [just0 args pid0 S|just0 args bs S|args|args|args|args rv F R|args pid0 F|args t F T|args pid0 S|args bs S|cmd args N].
    - destruct H as [H|H]; [|destruct (NP _ _ _ H)]. injection H as <- <- <- <-.
      eexists _, _. split; [reflexivity|]. split; [reflexivity|]. right. auto.
    - destruct (NW _ _ H).
    - destruct H as [H|H]; [|destruct (NP _ _ _ H)]. injection H as <- <- <- <-.
      eexists _, _. split; [reflexivity|]. split; [reflexivity|]. left. auto.
    - destruct H.
    - destruct H.
    - destruct (NE H).
    - apply in_app_iff in H. destruct H as [H|H]; [destruct (NE H)|]. cbn in H. intuition discriminate.
    - apply in_app_iff in H. destruct H as [H|H]; [destruct (NE H)|]. cbn in H. intuition discriminate.
    - cbn in H. intuition discriminate.
    - destruct (NW _ _ H).
    - destruct H as [H|H]; [discriminate|destruct (NP _ _ _ H)]. }
  assert (FIN : forall argv, handle_client (c_recv c) = HExec argv ->
    (exists cmd args, argv = cmd :: args /\ d = s_dir si /\ ((cmd = str "update" /\ pid = -1 /\ just = false /\ fd = None) \/
     (cmd = (if just then str "execve" else str "startup") /\ fd = Some (OConn n) /\ scan_d (hd [] args) = Some pid))) ->
    exists cmd args, In (EPatch d pid just fd) (during n tr) /\
      Some match handle_client (c_recv c) with HExec a => Some a | _ => None end = Some (Some (cmd :: args)) /\
      d = dir_after dir (map request (firstn n l)) /\
      ((cmd = str "update" /\ pid = -1 /\ just = false /\ fd = None) \/
       (cmd = (if just then str "execve" else str "startup") /\ fd = Some (OConn n) /\
        (forall x, numeral (hd [] args) x -> x < 2 ^ 31 -> pid = x) /\ exists c, In c (hd [] args) /\ 48 <= c <= 57))).
  { intros argv EH (cmd & args & EA & D & C). exists cmd, args. rewrite EH, EA. split; [exact K0|]. split; [reflexivity|].
    split; [rewrite D; exact Q6|]. destruct C as [C|(C1 & C2 & C3)]; [left; exact C|right]. split; [exact C1|]. split; [exact C2|].
    unfold scan_d in C3. destruct (has_number _) eqn:HN; [|discriminate]. injection C3 as <-. split.
    - intros x NU LT. apply atoi_numeral; assumption.
    - apply has_number_digit. exact HN. }
  inversion Q7 as [EH|[EH|EH]|EH|argv ev0 rv d0 ch0 EH X|argv ev0 d0 ch0 EH X]; subst; try (destruct K; fail).
  - destruct K as [K|[K|[]]]; discriminate.
  - apply (FIN argv EH). eapply KEY; [exact X|]. apply in_app_iff in K. destruct K as [K|[K|[]]]; [exact K|discriminate].
  - apply (FIN argv EH). eapply KEY; [exact X|exact K].
Qed.

(** ** C106 *)

(** At any time at most one program started with run has not been waited for; when the server ends, by stop, by an
    error of accept or by SIGTERM, it has been. *)
Theorem C106_one_child : forks_ok l -> forall a b, tr = a ++ b -> (length (children a) <= 1)%nat.
Proof. intros FO. apply (proj1 (runs_children _ _ _ _ _ _ the_run FO [] (or_introl eq_refl))). Qed.
Theorem C106_no_child_left : forks_ok l -> forall code, f = FExit code -> children tr = [].
Proof. intros FO. apply (proj2 (runs_children _ _ _ _ _ _ the_run FO [] (or_introl eq_refl))). Qed.

(** Whom the server sends SIGTERM: the program it runs, and has not waited for; and whom a kill command names -- if no
    kill command names a number the server got from fork. *)
Theorem C106_signals_its_child_partial : forks_ok l ->
  (forall i p c, In i l -> killed_by i p -> In (IConn c) l -> 0 < p /\ c_fork c <> FParent p) ->
  forall a p b, tr = a ++ ESignal p :: b -> In p (children a) \/ exists i, In i l /\ killed_by i p.
Proof.
  intros FO KN. refine (runs_signals t0 (fun p => exists i, In i l /\ killed_by i p) _ _ _ _ _ the_run FO _ [] eq_refl).
  intros i p I KB. split; [eauto|]. cbn [s_child initial]. assert (exists c, i = IConn c) as [c ->].
  { destruct KB as (args & Q & _). destruct i; cbn in Q; try discriminate. eauto. }
  destruct (KN _ p c I KB I) as [P _]. split; [lia|]. split; [lia|]. intros c' I'. apply (KN _ p c' I KB I').
Qed.

(** A run command starts a program, after the one before was ended; the client is told its number. *)
Theorem C106_run : forall n c cmdargs pid, In (EAccept n) tr -> nth_error l n = Some (IConn c) ->
  request (IConn c) = Some (str "run" :: cmdargs) -> c_fork c = FParent pid -> 0 < pid < 2 ^ 31 ->
  exists ends num rest, during n tr = ends ++ [EFork pid; EWrite (Some (OConn n)) (num ++ [10]); EClose (Some (OConn n))] ++ rest /\
    numeral num pid /\ (forall e, In e (ends ++ rest) -> exists p, e = ESignal p \/ e = EWait p).
Proof.
  intros n c cmdargs pid I Q R F PB.
  destruct (nth_conn lim t0 _ _ _ _ _ the_run n I) as (c' & si & fd & ev & h & d & ch & tl & Q1 & _ & _ & _ & _ & _ & Q7 & Q8 & Q9).
  cbn [s_n initial s_dir Nat.add] in *. assert (c' = c) by congruence. subst c'. cbn [request] in R. rewrite Q8. exists (end_child si), (dec pid), tl.
  assert (E : ev = end_child si ++ [EFork pid; EWrite (Some (OConn n)) (dec pid ++ [10]); EClose (Some (OConn n))]).
  { inversion Q7 as [EH|[EH|EH]|EH|argv ev0 rv d0 ch0 EH X|argv ev0 d0 ch0 EH X]; subst; rewrite EH in R; try discriminate; injection R as ->.
    - inversion X; subst; try (destruct just; discriminate); try congruence.
      + match goal with H : _ \/ _ |- _ => destruct H; congruence end.
      + match goal with H : c_fork c = FParent ?x |- _ => lazymatch x with pid => fail | _ => assert (x = pid) by congruence; subst x end end.
        rewrite <- app_assoc. reflexivity.
      + exfalso. match goal with H : ~ In _ _ |- _ => apply H end. left. reflexivity.
    - inversion X; subst; congruence. }
  subst ev. split; [rewrite <- !app_assoc; reflexivity|]. split; [apply dec_numeral; lia|].
  intros e J. apply in_app_iff in J. destruct J as [J|J]; [exact (end_child_tidy _ _ J)|exact (Q9 _ J)].
Qed.

(** ** C107 *)

(** What is printed while a command is executed goes to the client that sent it and to nobody else; a patch, unpatch or
    info command's output is all of it.  (The output for start-up notifications and update goes to the server's own
    standard output and error.) *)
Theorem C107_output_to_its_client : forall n c cmd args, In (EAccept n) tr -> nth_error l n = Some (IConn c) ->
  request (IConn c) = Some (cmd :: args) ->
  (~ quiet cmd -> forall o bs, In (EWrite o bs) (during n tr) -> o = Some (OConn n)) /\
  (quiet cmd -> forall o bs, In (EWrite o bs) (during n tr) -> o = obj_of t0 1 \/ o = obj_of t0 2) /\
  (~ quiet cmd -> cmd <> str "run" -> cmd <> str "kill" ->
   In (EOp cmd args) (during n tr) /\ written (during n tr) = concat (map snd (c_prints c))).
Proof.
  intros n c cmd args I Q R.
  destruct (nth_conn lim t0 _ _ _ _ _ the_run n I) as (c' & si & fd & ev & h & d & ch & tl & Q1 & _ & _ & _ & _ & _ & Q7 & Q8 & Q9).
  cbn [s_n initial s_dir Nat.add] in *. assert (c' = c) by congruence. subst c'. cbn [request] in R. rewrite Q8.
  assert (WT : forall tl, tidy tl -> written tl = []).
  { clear. induction tl as [|e tl IH]; intros T; [reflexivity|]. destruct (T e (or_introl eq_refl)) as (p & [->| ->]); cbn [written];
      apply IH; intros e I; apply T; right; exact I. }
  assert (WA : forall a b, written (a ++ b) = written a ++ written b).
  { clear. induction a as [|e a IH]; intros b; [reflexivity|]. destruct e; cbn [app written]; rewrite ?IH, ?app_assoc; reflexivity. }
  assert (TW : forall tl o bs, tidy tl -> ~ In (EWrite o bs) tl).
  { intros tl' o bs T J. destruct (T _ J) as (p & [X|X]); discriminate. }
  assert (WP : forall a b ps, written (prints_to a b ps) = concat (map snd ps)).
  { intros a b ps. unfold prints_to. induction ps as [|[e bs] ps IH]; [reflexivity|]. cbn [flat_map map concat snd]. rewrite WA, IH.
    destruct bs; cbn [written]; [reflexivity|]. rewrite app_nil_r. reflexivity. }
  assert (PW : forall a b ps o bs, In (EWrite o bs) (prints_to a b ps) -> o = a \/ o = b).
  { intros a b ps o bs J. unfold prints_to in J. apply in_flat_map in J. destruct J as ([e x] & _ & J). cbn [snd fst] in J.
    destruct x; [destruct J|]. destruct J as [J|[]]. injection J as <- _. destruct e; auto. }
  assert (WW : forall o bs o' bs', In (EWrite o' bs') (writes_to o bs) -> o' = o).
  { intros o bs o' bs' J. destruct bs; [destruct J|]. destruct J as [J|[]]. congruence. }
  assert (KEY : forall ev r d ch, exec_does t0 si n fd c (cmd :: args) ev r d ch ->
    (~ quiet cmd -> forall o bs, In (EWrite o bs) ev -> o = Some (OConn n)) /\
    (quiet cmd -> forall o bs, In (EWrite o bs) ev -> o = obj_of t0 1 \/ o = obj_of t0 2) /\
    (~ quiet cmd -> cmd <> str "run" -> cmd <> str "kill" -> In (EOp cmd args) ev /\ written ev = concat (map snd (c_prints c)))).
  { assert (EC : forall o bs, ~ In (EWrite o bs) (end_child si)) by (intros o bs; apply TW, end_child_tidy).
    assert (NQR : ~ quiet (str "run")) by (intros J; cbn in J; intuition discriminate).
    assert (NQK : ~ quiet (str "kill")) by (intros J; cbn in J; intuition discriminate).
    clear - WP PW WW EC NQR NQK. intros ev r d ch X. inversion X; subst.
    all: try (split; [intros NQ; exfalso; apply NQ; cbn; destruct just; auto 10|];
      split; [|intros NQ; exfalso; apply NQ; cbn; destruct just; auto 10]; intros _ o bs' J).
    - destruct J as [J|J]; [discriminate|]. exact (PW _ _ _ _ _ J).
    - right. exact (WW _ _ _ _ J).
    - split; [intros NQ; exfalso; apply NQ; cbn; auto 10|]. split; [|intros NQ; exfalso; apply NQ; cbn; auto 10]. intros _ o bs' J.
      destruct J as [J|J]; [discriminate|]. exact (PW _ _ _ _ _ J).
    - split; [intros _ o bs []|]. split; [intros _ o bs []|]. intros NQ. exfalso. apply NQ. cbn. auto 10.
    - split; [intros _ o bs []|]. split; [intros _ o bs []|]. intros NQ. exfalso. apply NQ. cbn. auto 10.
    - split; [intros _ o bs J; destruct (EC _ _ J)|]. split; [intros J; destruct (NQR J)|]. intros _ N. congruence.
    - split; [|split; [intros J; destruct (NQR J)|intros _ N; congruence]]. intros _ o bs J. apply in_app_iff in J.
      destruct J as [J|[J|[J|[]]]]; [destruct (EC _ _ J)|discriminate|congruence].
    - split; [|split; [intros J; destruct (NQR J)|intros _ N; congruence]]. intros _ o bs J. apply in_app_iff in J.
      destruct J as [J|[J|[]]]; [destruct (EC _ _ J)|discriminate].
    - split; [intros _ o bs J; cbn in J; intuition discriminate|]. split; [intros J; destruct (NQK J)|]. intros _ _ N. congruence.
    - split; [intros _ o bs' J; exact (WW _ _ _ _ J)|]. split; [intros J; destruct (NQK J)|]. intros _ _ N. congruence.
    - match goal with H : ~ In _ _ |- _ => rename H into NI end. split.
      { intros _ o bs J. destruct J as [J|J]; [discriminate|]. destruct (PW _ _ _ _ _ J); assumption. }
      split; [intros QQ; exfalso; apply NI; right; right; exact QQ|]. intros _ _ _. split; [left; reflexivity|]. cbn [written]. apply WP. }
  assert (FIN : forall x r d ch, exec_does t0 si n fd c (cmd :: args) x r d ch -> (ev = x \/ ev = x ++ [EClose (Some (OConn n))]) ->
    (~ quiet cmd -> forall o bs, In (EWrite o bs) (ev ++ tl) -> o = Some (OConn n)) /\
    (quiet cmd -> forall o bs, In (EWrite o bs) (ev ++ tl) -> o = obj_of t0 1 \/ o = obj_of t0 2) /\
    (~ quiet cmd -> cmd <> str "run" -> cmd <> str "kill" -> In (EOp cmd args) (ev ++ tl) /\ written (ev ++ tl) = concat (map snd (c_prints c)))).
  { intros x r d' ch' X EV. destruct (KEY _ _ _ _ X) as (K1 & K2 & K3).
    assert (IN : forall o bs, In (EWrite o bs) (ev ++ tl) -> In (EWrite o bs) x).
    { intros o bs J. apply in_app_iff in J. destruct J as [J|J]; [|destruct (TW _ _ _ Q9 J)]. destruct EV as [->| ->]; [exact J|].
      apply in_app_iff in J. destruct J as [J|[J|[]]]; [exact J|discriminate]. }
    split; [intros NQ o bs J; exact (K1 NQ o bs (IN _ _ J))|]. split; [intros QQ o bs J; exact (K2 QQ o bs (IN _ _ J))|].
    intros NQ N1 N2. destruct (K3 NQ N1 N2) as [A B]. rewrite WA, (WT _ Q9), app_nil_r. destruct EV as [->| ->].
    - split; [apply in_app_iff; left; exact A|exact B].
    - split; [apply in_app_iff; left; apply in_app_iff; left; exact A|]. rewrite WA. cbn [written]. rewrite app_nil_r. exact B. }
  inversion Q7 as [EH|[EH|EH]|EH|argv ev0 rv d0 ch0 EH X|argv ev0 d0 ch0 EH X]; subst; rewrite EH in R; try discriminate; injection R as ->.
  - eapply FIN; [exact X|right; reflexivity].
  - eapply FIN; [exact X|left; reflexivity].
Qed.

(** Whatever is written to a connection is written while its own command is executed. *)
Theorem C107_not_to_another_client : forall m bs, In (EWrite (Some (OConn m)) bs) tr -> In (EWrite (Some (OConn m)) bs) (during m tr).
Proof.
  intros m bs I. destruct (event_of _ _ _ _ _ _ the_run _ I) as [(p & [H|H])|[(k & H)|(n & J & K)]]; try discriminate.
  cbn [s_n initial Nat.add] in *.
  destruct (nth_conn lim t0 _ _ _ _ _ the_run n J) as (c & si & fd' & ev & h & d' & ch & tl & Q1 & _ & _ & _ & _ & _ & Q7 & Q8 & Q9).
  cbn [s_n initial s_dir Nat.add] in *.
  assert (R : exists cmd args, request (IConn c) = Some (cmd :: args)).
  { pose proof K as K'. rewrite Q8 in K'. apply in_app_iff in K'. destruct K' as [K'|K']; [|destruct (Q9 _ K') as (p & [X|X]); discriminate].
    cbn [request]. inversion Q7 as [EH|[EH|EH]|EH|argv ev0 rv d0 ch0 EH X|argv ev0 d0 ch0 EH X]; subst; try (destruct K'; fail).
    - destruct K' as [K'|[K'|[]]]; discriminate.
    - rewrite EH. destruct (executed_nonempty _ _ EH) as (cmd & args & ->). eauto.
    - rewrite EH. destruct (executed_nonempty _ _ EH) as (cmd & args & ->). eauto. }
  destruct R as (cmd & args & R). destruct (C107_output_to_its_client n c cmd args J Q1 R) as (A & B & _).
  assert (NC : forall x, obj_of t0 x <> Some (OConn m)).
  { intros x. unfold obj_of. destruct (t0 x) as [[o b]|] eqn:E; [|discriminate]. cbn. intros X. injection X as ->. exact (st_no_conn _ _ _ ST _ _ _ E). }
  assert (D : quiet cmd \/ ~ quiet cmd).
  { unfold quiet. destruct (in_dec (list_eq_dec Z.eq_dec) cmd [str "execve"; str "startup"; str "update"; str "storage"; str "stop"]); auto. }
  destruct D as [D|D].
  - destruct (B D _ _ K) as [E|E]; symmetry in E; destruct (NC _ E).
  - specialize (A D _ _ K). injection A as ->. exact K.
Qed.

(** Between commands, and at the end, the descriptors are the ones of the start (but 101 and 102, which hold the standard
    ones), and no connection is held open. *)
Theorem C107_descriptors_kept : f = FWaiting \/ (exists code, f = FExit code) ->
  (forall fd, fd <> 101 -> fd <> 102 -> s_fds s fd = t0 fd) /\ (forall fd n b, s_fds s fd <> Some (OConn n, b)).
Proof. exact (runs_fds _ _ _ _ _ _ the_run). Qed.

(** The program that run starts: a shell with the argument of the command, and with the descriptors of the server that
    are kept when a program is executed, without standard output and error. *)
Theorem C107_program_started : forall sh fds, In (EExec sh fds) tr ->
  (exists n cmdargs, option_map request (nth_error l n) = Some (Some (str "run" :: cmdargs)) /\ sh = hd [] cmdargs) /\
  fds 1 = None /\ fds 2 = None /\ fds 101 = None /\ fds 102 = None /\
  (forall i, i <> 1 -> i <> 2 -> i <> 101 -> i <> 102 -> fds i = match t0 i with Some (o, false) => Some (o, false) | _ => None end).
Proof.
  intros sh fds I. destruct (event_of _ _ _ _ _ _ the_run _ I) as [(p & [H|H])|[(k & H)|(n & J & K)]]; try discriminate.
  cbn [s_n initial Nat.add] in *.
  destruct (nth_conn lim t0 _ _ _ _ _ the_run n J) as (c & si & fd & ev & h & d' & ch & tl & Q1 & G & B & E & _ & _ & Q7 & Q8 & Q9).
  cbn [s_n initial s_dir Nat.add] in *. rewrite Q8 in K. apply in_app_iff in K.
  destruct K as [K|K]; [|destruct (Q9 _ K) as (p & [X|X]); discriminate].
  assert (NP : forall a b ps, ~ In (EExec sh fds) (prints_to a b ps)).
  { intros a b ps H. unfold prints_to in H. apply in_flat_map in H. destruct H as ([x bs] & _ & H). cbn [snd] in H.
    destruct bs; [destruct H|]. destruct H as [H|[]]. discriminate. }
  assert (NE : ~ In (EExec sh fds) (end_child si)).
  { intros H. destruct (end_child_tidy si _ H) as (p & [X|X]); discriminate. }
  assert (NW : forall o bs, ~ In (EExec sh fds) (writes_to o bs)).
  { intros o bs H. destruct bs; [destruct H|]. destruct H as [H|[]]. discriminate. }
  assert (KEY : forall argv ev r d' ch, exec_does t0 si n fd c argv ev r d' ch -> In (EExec sh fds) ev ->
    exists args, argv = str "run" :: args /\ sh = hd [] args /\ forall i, fds i = at_exec (redirected t0 si fd n) i).
  { clear - NP NE NW. intros argv ev r d' ch X H.
    destruct X as [just0 args pid0 S|just0 args bs S|args|args|args|args rv F R|args pid0 F|args t F T|args pid0 S|args bs S|cmd args N].
    - destruct H as [H|H]; [discriminate|destruct (NP _ _ _ H)].
    - destruct (NW _ _ H).
    - destruct H as [H|H]; [discriminate|destruct (NP _ _ _ H)].
    - destruct H.
    - destruct H.
    - destruct (NE H).
    - apply in_app_iff in H. destruct H as [H|H]; [destruct (NE H)|]. cbn in H. intuition discriminate.
    - apply in_app_iff in H. destruct H as [H|[H|[]]]; [destruct (NE H)|]. injection H as <- <-. eauto.
    - cbn in H. intuition discriminate.
    - destruct (NW _ _ H).
    - destruct H as [H|H]; [discriminate|destruct (NP _ _ _ H)]. }
  assert (K2 : exists args, request (IConn c) = Some (str "run" :: args) /\ sh = hd [] args /\ forall i, fds i = at_exec (redirected t0 si fd n) i).
  { cbn [request]. inversion Q7 as [EH|[EH|EH]|EH|argv ev0 rv d0 ch0 EH X|argv ev0 d0 ch0 EH X]; subst; try (destruct K; fail).
    - destruct K as [K|[K|[]]]; discriminate.
    - apply in_app_iff in K. destruct K as [K|[K|[]]]; [|discriminate]. destruct (KEY _ _ _ _ _ X K) as (args & -> & H1 & H2).
      exists args. rewrite EH. auto.
    - destruct (KEY _ _ _ _ _ X K) as (args & -> & H1 & H2). exists args. rewrite EH. auto. }
  destruct K2 as (args & R & -> & FD). split; [exists n, args; rewrite Q1; cbn [option_map]; rewrite R; auto|].
  destruct ST as [_ (o1 & E1 & _) (o2 & E2 & _) _ _ _ _].
  rewrite !FD. unfold at_exec, redirected. cbn [Z.eqb Pos.eqb orb]. rewrite E1, E2.
  split; [reflexivity|]. split; [reflexivity|]. split; [reflexivity|]. split; [reflexivity|].
  intros i N1 N2 N3 N4. rewrite FD. unfold at_exec, redirected.
  replace (i =? 1) with false by lia. replace (i =? 2) with false by lia. replace (i =? 101) with false by lia. replace (i =? 102) with false by lia.
  cbn [orb]. destruct (i =? fd) eqn:EI; [apply Z.eqb_eq in EI; subst i; rewrite E; reflexivity|]. destruct G as [G _]. rewrite G by assumption. reflexivity.
Qed.

(** ** C108 *)

(** The server goes on: whatever clients send, as long as none says stop, each one is served in turn, and then the server
    waits for the next. *)
Theorem C108_goes_on : Forall served_well l -> f = FWaiting /\ forall n, (n < length l)%nat -> In (EAccept n) tr.
Proof. intros W. destruct (runs_served lim sfd _ _ _ _ _ _ the_run W) as (A & _ & B). split; [exact A|exact B]. Qed.
(** After stop nobody is served, and the server ends with code 0. *)
Theorem C108_stops : forall n args, In (EAccept n) tr -> option_map request (nth_error l n) = Some (Some (str "stop" :: args)) ->
  f = FExit 0 /\ forall m, In (EAccept m) tr -> (m <= n)%nat.
Proof. exact (runs_stop lim _ _ _ _ _ _ the_run). Qed.
End Server.
(** SIGTERM while the server waits, after clients that were served: it waits for the program it started,
    if any, and ends with code 143. *)
Lemma handle_not_waiting lim s c fd s2 ev f : handle_conn lim s c fd = (s2, ev, HFin f) -> f <> FWaiting.
Proof.
  unfold handle_conn. intros H ->. destruct (handle_client (c_recv c)) as [| |argv| |]; try discriminate.
  destruct (server_execute_cmd lim s c fd argv) as [[s3 ev3] r]. destruct r; discriminate.
Qed.
Lemma loop_term lim sfd : forall l1 l2 s s2 tr, serve_loop lim sfd l1 s = (s2, tr, FWaiting) -> ~ In ITerm l1 ->
  serve_loop lim sfd (l1 ++ ITerm :: l2) s = (s2, tr ++ end_child s2, FExit 143).
Proof.
  induction l1 as [|i l1 IH]; intros l2 s s2 tr H N; cbn [serve_loop app] in *.
  - destruct (accept lim sfd s); [|discriminate]. injection H as <- <-. reflexivity.
  - destruct i as [c| |]; try discriminate. destruct (accept lim sfd s) as [[s1 fd]|]; [|discriminate].
    destruct (handle_conn lim s1 c fd) as [[s3 ev] h] eqn:E0. destruct h as [rv|f0].
    + destruct (rv =? SERVER_STOP); [discriminate|]. destruct (serve_loop lim sfd l1 s3) as [[s4 ev4] f4] eqn:E. injection H as -> <- ->.
      rewrite (IH l2 _ _ _ E); [|intros J; apply N; now right]. cbn [app]. now rewrite app_assoc.
    + exfalso. injection H as _ _ ->. apply (handle_not_waiting _ _ _ _ _ _ _ E0). reflexivity.
Qed.
Theorem C108_terminated : forall lim sfd t0 dir l1 l2, started lim sfd t0 -> Forall served_well l1 ->
  exists (s : st) (tr : list event), serve_loop lim sfd (l1 ++ ITerm :: l2) (initial dir t0) = (s, tr, FExit 143) /\
    (forall n, In (EAccept n) tr <-> (n < length l1)%nat).
Proof.
  intros lim sfd t0 dir l1 l2 ST W. destruct (serve_loop lim sfd l1 (initial dir t0)) as [[s tr] f] eqn:E.
  destruct (C108_goes_on lim sfd t0 ST dir l1 s tr f E W) as (-> & A).
  exists s, (tr ++ end_child s). split.
  - apply loop_term; [exact E|]. intros J. rewrite Forall_forall in W. exact (W _ J).
  - intros n. split; [|intros L; apply in_or_app; left; now apply A].
    intros H. apply in_app_or in H. destruct H as [H|H].
    + destruct (nth_conn lim t0 _ _ _ _ _ (the_run lim sfd t0 ST dir l1 s tr FWaiting E) n H) as (c & si & fd & ev & h & d & ch & tl & Q1 & _).
      apply nth_error_Some. cbn in Q1. congruence.
    + destruct (end_child_tidy s _ H) as (p & [X|X]); discriminate.
Qed.
Print Assumptions C108_terminated.

Print Assumptions C105_notified_process_patched.
Print Assumptions C105_only_on_request.
Print Assumptions C106_one_child.
Print Assumptions C106_no_child_left.
Print Assumptions C106_signals_its_child_partial.
Print Assumptions C106_run.
Print Assumptions C107_output_to_its_client.
Print Assumptions C107_not_to_another_client.
Print Assumptions C107_descriptors_kept.
Print Assumptions C107_program_started.
Print Assumptions C108_goes_on.
Print Assumptions C108_stops.

(** A session: a directory is set, a program run, a process that starts is patched, information is asked for, another
    program is run, the server stopped. *)
Definition session : list input :=
  [ask "storage /var/x"; asks (FParent 100) [] "run sleep"; asks FErr [(false, [111; 10])] "execve 42"; asks FErr [(false, [97; 10]); (true, [98])] "info -p 7";
   asks (FParent 101) [] "run true"; ask "stop"].
Example C105_C108_case : let '(s, tr, f) := serves session in
  f = FExit 0 /\ forks_ok session /\ Forall served_well (firstn 5 session) /\
  (forall i p c, In i session -> killed_by i p -> In (IConn c) session -> 0 < p /\ c_fork c <> FParent p) /\
  tr = [EAccept 0; EClose (Some (OConn 0));
    EAccept 1; EFork 100; EWrite (Some (OConn 1)) (str "100" ++ [10]); EClose (Some (OConn 1));
    EAccept 2; EPatch (str "/var/x") 42 true (Some (OConn 2)); EWrite (Some OStdout) [111; 10]; EClose (Some (OConn 2));
    EAccept 3; EOp (str "info") [str "-p"; str "7"]; EWrite (Some (OConn 3)) [97; 10]; EWrite (Some (OConn 3)) [98]; EClose (Some (OConn 3));
    EAccept 4; ESignal 100; EWait 100; EFork 101; EWrite (Some (OConn 4)) (str "101" ++ [10]); EClose (Some (OConn 4));
    EAccept 5; EClose (Some (OConn 5)); ESignal 101; EWait 101].
Proof.
  assert (E : exists t, serves session = ({| s_dir := str "/var/x"; s_child := 101; s_fds := t; s_n := 6 |},
   [EAccept 0; EClose (Some (OConn 0));
    EAccept 1; EFork 100; EWrite (Some (OConn 1)) (str "100" ++ [10]); EClose (Some (OConn 1));
    EAccept 2; EPatch (str "/var/x") 42 true (Some (OConn 2)); EWrite (Some OStdout) [111; 10]; EClose (Some (OConn 2));
    EAccept 3; EOp (str "info") [str "-p"; str "7"]; EWrite (Some (OConn 3)) [97; 10]; EWrite (Some (OConn 3)) [98]; EClose (Some (OConn 3));
    EAccept 4; ESignal 100; EWait 100; EFork 101; EWrite (Some (OConn 4)) (str "101" ++ [10]); EClose (Some (OConn 4));
    EAccept 5; EClose (Some (OConn 5)); ESignal 101; EWait 101], FExit 0)) by (eexists; vm_compute; reflexivity).
  destruct E as [t ->]. split; [reflexivity|]. split.
  { intros c p I E. cbn [session In] in I. repeat (destruct I as [I|I]; [injection I as <-; cbn in E; try discriminate; injection E as <-; lia|]). destruct I. }
  split.
  { cbn [firstn session]. repeat (apply Forall_cons; [vm_compute; repeat split; discriminate|]). apply Forall_nil. }
  split; [|reflexivity]. intros i p c I (args & R & _) _. exfalso. cbn [session In] in I.
  repeat (destruct I as [<-|I]; [vm_compute in R; discriminate R|]). destruct I.
Qed.

(** The storage command without an argument: processes are patched from the directory with the empty name. *)
Theorem C105_missing_argument_refuted : exists l s tr f, serves l = (s, tr, f) /\
  map request l = [Some [str "storage"]; Some [str "startup"; str "5"]] /\ In (EPatch [] 5 false (Some (OConn 1))) tr.
Proof.
  exists [ask "storage"; ask "startup 5"]. eexists _, _, _. split; [vm_compute; reflexivity|]. split; [vm_compute; reflexivity|].
  right. right. right. left. reflexivity.
Qed.
Print Assumptions C105_missing_argument_refuted.
(** A word that only starts with a number is taken for the number. *)
Theorem C105_trailing_text_refuted : exists l s tr f p, serves l = (s, tr, f) /\
  map request l = [Some [str "startup"; p]] /\ (forall n, ~ numeral p n) /\ In (EPatch (str "/d") 5 false (Some (OConn 0))) tr.
Proof.
  exists [ask "startup 5x7"]. eexists _, _, _, (str "5x7"). split; [vm_compute; reflexivity|]. split; [vm_compute; reflexivity|]. split.
  - intros n (_ & F & _). inversion F as [|? ? _ F1]. inversion F1. lia.
  - right. left. reflexivity.
Qed.
Print Assumptions C105_trailing_text_refuted.
(** The directory on the command line is copied into 4096 bytes whatever its length. *)
Theorem C105_long_directory_refuted : exists d, Forall (fun c => 0 < c) d /\ start_dir (Some d) = None.
Proof.
  exists (repeat 47 (Z.to_nat 4096)). split; [apply Forall_forall; intros x I; apply repeat_spec in I; lia|].
  unfold start_dir, PATH_MAX, zlen. rewrite repeat_length, Z2Nat.id by lia. reflexivity.
Qed.
Print Assumptions C105_long_directory_refuted.
(** Otherwise it is what the server starts with. *)
Theorem C105_start : forall d, zlen d < 4096 -> start_dir (Some d) = Some d /\ start_dir None = Some (str "/var/lib/libcare").
Proof. intros d L. unfold start_dir, PATH_MAX. replace (4096 <=? zlen d) with false by lia. split; reflexivity. Qed.
Print Assumptions C105_start.

(** After kill the server still takes the number for its child's: the next run command signals whatever process has that
    number by then. *)
Theorem C106_signals_another_refuted : exists l s tr f a p b, serves l = (s, tr, f) /\ forks_ok l /\
  tr = a ++ ESignal p :: b /\ children a = [] /\ In (ESignal p) (during 2 tr) /\
  option_map request (nth_error l 2) = Some (Some [str "run"; str "true"]).
Proof.
  exists [asks (FParent 100) [] "run sleep"; ask "kill 100"; asks (FParent 102) [] "run true"]. eexists _, _, _.
  exists [EAccept 0; EFork 100; EWrite (Some (OConn 0)) (str "100" ++ [10]); EClose (Some (OConn 0));
    EAccept 1; ESignal 100; EWait 100; EClose (Some (OConn 1)); EAccept 2]. exists 100. eexists.
  split; [vm_compute; reflexivity|]. split.
  { intros c p I E. repeat (destruct I as [I|I]; [injection I as <-; cbn in E; try discriminate; injection E as <-; lia|]). destruct I. }
  split; [reflexivity|]. split; [reflexivity|]. split; [left; reflexivity|]. vm_compute. reflexivity.
Qed.
Print Assumptions C106_signals_another_refuted.
(** A client may have SIGTERM sent to every process. *)
Theorem C106_kill_everything_refuted : exists l s tr f, serves l = (s, tr, f) /\ In (ESignal (-1)) tr.
Proof. exists [ask "kill -1"]. eexists _, _, _. split; [vm_compute; reflexivity|]. right. left. reflexivity. Qed.
Print Assumptions C106_kill_everything_refuted.

(** The program that run starts cannot print, and it holds the socket the server listens on. *)
Theorem C107_program_output_refuted : exists l s tr f sh fds, serves l = (s, tr, f) /\ In (EExec sh fds) tr /\ sh = str "date" /\ fds 1 = None.
Proof.
  exists [asks (FChild true) [] "run date"]. destruct (serves [asks (FChild true) [] "run date"]) as [[s tr] f] eqn:E.
  assert (X : exists fds, tr = [EAccept 0; EExec (str "date") fds] /\ fds 1 = None).
  { vm_compute in E. injection E as _ <- _. eexists. split; reflexivity. }
  destruct X as (fds & -> & Y). exists s. eexists. exists f, (str "date"), fds. split; [reflexivity|]. split; [right; left; reflexivity|]. split; [reflexivity|exact Y].
Qed.
Print Assumptions C107_program_output_refuted.
Theorem C107_listening_socket_kept_refuted : exists l s tr f sh fds b, serves l = (s, tr, f) /\ In (EExec sh fds) tr /\ fds 3 = Some (OListen, b).
Proof.
  exists [asks (FChild true) [] "run date"]. destruct (serves [asks (FChild true) [] "run date"]) as [[s tr] f] eqn:E.
  assert (X : exists fds, tr = [EAccept 0; EExec (str "date") fds] /\ fds 3 = Some (OListen, false)).
  { vm_compute in E. injection E as _ <- _. eexists. split; reflexivity. }
  destruct X as (fds & -> & Y). exists s. eexists. exists f, (str "date"), fds, false. split; [reflexivity|]. split; [right; left; reflexivity|exact Y].
Qed.
Print Assumptions C107_listening_socket_kept_refuted.
(** If the server is started without a standard output, or with room for 64 descriptors only, a client's connection stays
    open when the client has been served. *)
Definition fds_nostdout : fdt := fun fd => if fd =? 1 then None else fds0 fd.
Theorem C107_no_standard_output_refuted : exists l s tr b, serve_loop 1024 3 l (initial (str "/d") fds_nostdout) = (s, tr, FWaiting) /\
  s_fds s 101 = Some (OConn 0, b).
Proof.
  exists [ask "info"]. destruct (serve_loop 1024 3 [ask "info"] (initial (str "/d") fds_nostdout)) as [[s tr] f] eqn:E.
  vm_compute in E. injection E as <- <- <-. eexists _, _, _. split; reflexivity.
Qed.
Print Assumptions C107_no_standard_output_refuted.
Theorem C107_few_descriptors_refuted : exists l s tr b, serve_loop 64 3 l (initial (str "/d") fds0) = (s, tr, FWaiting) /\
  s_fds s 1 = Some (OConn 0, b).
Proof.
  exists [ask "info"]. destruct (serve_loop 64 3 [ask "info"] (initial (str "/d") fds0)) as [[s tr] f] eqn:E.
  vm_compute in E. injection E as <- <- <-. eexists _, _, _. split; reflexivity.
Qed.
Print Assumptions C107_few_descriptors_refuted.

(** One failure of accept ends the server, with code 0; so does a listening descriptor with the number 101 after one command. *)
Theorem C108_accept_error_refuted : exists l s tr, serves (ask "info" :: IErr :: l) = (s, tr, FExit 0) /\ l <> [] /\ ~ In (EAccept 1) tr.
Proof.
  exists [ask "info"]. eexists _, _. split; [vm_compute; reflexivity|]. split; [discriminate|]. cbn. intuition discriminate.
Qed.
Print Assumptions C108_accept_error_refuted.
Definition fds_101 : fdt := fun fd => if fd =? 3 then None else if fd =? 101 then Some (OListen, false) else fds0 fd.
Theorem C108_descriptor_101_refuted : exists l s tr, serve_loop 1024 101 l (initial (str "/d") fds_101) = (s, tr, FExit 0) /\
  Forall served_well l /\ length l = 2%nat /\ ~ In (EAccept 1) tr.
Proof.
  exists [ask "info"; ask "info"]. eexists _, _. split; [vm_compute; reflexivity|].
  split; [repeat (apply Forall_cons; [vm_compute; repeat split; discriminate|]); apply Forall_nil|]. split; [reflexivity|]. cbn. intuition discriminate.
Qed.
Print Assumptions C108_descriptor_101_refuted.
(** A client that connects and says nothing keeps all others waiting. *)
Theorem C108_silent_client_refuted : exists l s tr, serves l = (s, tr, FBlocked) /\ length l = 2%nat /\
  option_map request (nth_error l 1) = Some (Some [str "info"]) /\ ~ In (EAccept 1) tr.
Proof.
  exists [IConn {| c_recv := []; c_fork := FErr; c_ret := 0; c_prints := [] |}; ask "info"]. eexists _, _. split; [vm_compute; reflexivity|].
  split; [reflexivity|]. split; [vm_compute; reflexivity|]. cbn. intuition discriminate.
Qed.
Print Assumptions C108_silent_client_refuted.
(** If the shell cannot be executed, the new process takes part in the serving. *)
Theorem C108_two_servers_refuted : exists l s tr c, serves l = (s, tr, FWaiting) /\ nth_error l 0 = Some (IConn c) /\ c_fork c = FChild false /\
  In (EAccept 1) tr /\ In (EOp (str "info") []) tr.
Proof.
  exists [asks (FChild false) [] "run date"; ask "info"]. eexists _, _, _. split; [vm_compute; reflexivity|].
  split; [reflexivity|]. split; [reflexivity|]. cbn. auto 10.
Qed.
Print Assumptions C108_two_servers_refuted.

(** ** C109 *)

(** A server that listens on a name starting with / of at most 106 bytes is the one that a client given that name talks to;
    without a name the client takes /var/run/libcare.sock. *)
Theorem C109_same_socket : forall p args, hd 0 p = 47 -> Forall (fun c => 0 < c) p -> (length p <= 106)%nat ->
  exists a, bind_socket true true p = BAddr a /\ unix_name (map Some a) = Some (UPath p) /\
    unix_name (client_addr (p :: args)) = Some (UPath p).
Proof. exact same_socket. Qed.
Print Assumptions C109_same_socket.
Theorem C109_default_socket : forall cmd args, hd 0 cmd <> 47 -> unix_name (client_addr (cmd :: args)) = Some (UPath (str "/var/run/libcare.sock")).
Proof. exact default_name. Qed.
Print Assumptions C109_default_socket.
(** A longer name is refused by the server. *)
Theorem C109_long_name_refused : forall p a b, hd 0 p = 47 -> (107 <= length p)%nat -> bind_socket a b p = BRefused.
Proof. exact long_refused. Qed.
Print Assumptions C109_long_name_refused.
Example C109_case : exists a, bind_socket true true (str "/run/l.sock") = BAddr a /\ unix_name (map Some a) = Some (UPath (str "/run/l.sock")) /\
  unix_name (client_addr [str "/run/l.sock"; str "info"]) = Some (UPath (str "/run/l.sock")).
Proof. eexists. split; [reflexivity|]. vm_compute. auto. Qed.

(** The client uses a byte that was never written for a name of 107 bytes or more. *)
Theorem C109_client_name_refuted : exists p args, hd 0 p = 47 /\ Forall (fun c => 0 < c) p /\ unix_name (client_addr (p :: args)) = None.
Proof.
  exists (repeat 47 107), [str "info"]. split; [reflexivity|]. split; [apply Forall_forall; intros x I; apply repeat_spec in I; lia|]. vm_compute. reflexivity.
Qed.
Print Assumptions C109_client_name_refuted.
(** A server listening on an abstract name, or on a relative one, is out of any client's reach. *)
Theorem C109_abstract_name_refuted : exists p a, p = str "@libcare" /\ bind_socket true true p = BAddr a /\
  unix_name (map Some a) = Some (UAbstract (str "libcare" ++ [0])) /\
  forall argv, unix_name (client_addr argv) <> unix_name (map Some a).
Proof.
  exists (str "@libcare"). eexists. split; [reflexivity|]. split; [reflexivity|]. split; [vm_compute; reflexivity|].
  intros argv. destruct (client_is_path argv) as (r & ->). cbn. destruct (path_part r); discriminate.
Qed.
Print Assumptions C109_abstract_name_refuted.
Theorem C109_relative_name_refuted : exists p a, p = str "l.sock" /\ bind_socket true true p = BAddr a /\
  forall argv, unix_name (client_addr argv) <> unix_name (map Some a).
Proof.
  exists (str "l.sock"). eexists. split; [reflexivity|]. split; [reflexivity|].
  intros argv. destruct (client_is_path argv) as (r & ->). cbn. destruct (path_part r); discriminate.
Qed.
Print Assumptions C109_relative_name_refuted.
(** The result is not set when no socket can be made. *)
Theorem C109_no_socket_refuted : exists p, bind_socket false true p = BUndefined.
Proof. exists (str "/run/l.sock"). reflexivity. Qed.
Print Assumptions C109_no_socket_refuted.
Example C108_terminated_case : snd (serves [ask "info"; ITerm; ask "info"]) = FExit 143.
Proof. vm_compute. reflexivity. Qed.
