(** The library that announces programs before they start.  C144: which programs are announced,
    and what a call does; C145: what the announced program finds in LD_PRELOAD. *)
From Coq Require Import String.
From Verif Require Import Base BaseProofs StorageModel CliSpec CliProofs LoopModel LoopSpec LoopTrace ServModel ServSpec ServProofs ExecModel ExecSpec ExecProofs.
Open Scope list_scope.

(** A world for the examples: the pattern accepts names that begin with /opt/; the server
    answers and traces the process 1234. *)
Definition x_world (connect traced : bool) (err : option Z) : world := {|
  w_pat := Some (begins (str "/opt/")); w_real := fun f => Some (str "/opt/" ++ f); w_unix := None; w_tid := 1234; w_alloc := [];
  w_socket := true; w_connect := connect; w_send := []; w_recv := [NEintr]; w_traced := traced;
  w_exec := fun _ _ _ => err; w_search := fun _ _ _ => err; w_environ := [str "LD_PRELOAD=/x/execve.so:/y/a.so"; str "A=1"] |}.

(** ** C144 *)

(** A program the pattern does not match is started as if the library was not there. *)
Theorem C144_transparent : forall w c, unmatched w (file c) -> ~ too_many c ->
  run w c = ([fst (real_call w c (env_of w c))], match snd (real_call w c (env_of w c)) with None => Replaced | Some e => Failed e end).
Proof.
  intros w c U T. apply unmatched_listed in U. destruct (run_cases w c) as [(T' & _)|[(_ & P & E)|(_ & P & E)]]; [contradiction| |]; rewrite E; clear E.
  - destruct c; cbn [in_path real_call file args_of env_of] in *; try (exfalso; exact P); (match goal with |- context [in_dec ?a ?b ?c] => destruct (in_dec a b c) end; [contradiction|reflexivity]).
  - unfold execve_. rewrite U. destruct c; cbn [in_path real_call file args_of env_of] in *; try reflexivity;
      (match goal with |- context [in_dec ?a ?b ?c] => destruct (in_dec a b c) as [I|I] end; [reflexivity|destruct (P I)]).
Qed.
Print Assumptions C144_transparent.
Example C144_transparent_case : unmatched (x_world true true None) (str "/bin/ls") /\ ~ too_many (Execl (str "/bin/ls") [str "ls"]) /\
  run (x_world true true None) (Execlp (str "/bin/ls") [str "ls"]) =
    ([Exec (str "/bin/ls") [str "ls"] [str "LD_PRELOAD=/x/execve.so:/y/a.so"; str "A=1"]], Replaced).
Proof.
  split; [apply unmatched_listed; vm_compute; reflexivity|]. split; [cbn; lia|]. vm_compute. reflexivity.
Qed.

(** A program it matches is announced: the server is sent the command execve with the number of the
    thread; after its answer the process stops for it at a breakpoint; when that lets it go on, the program
    is started with the arguments it was given. *)
Theorem C144_announced : forall w c env tid path, matched w (file c) -> ~ too_many c -> ~ in_path c ->
  Forall (eq true) (w_alloc w) -> Forall2 var_after (env_of w c) env ->
  w_socket w = true -> w_connect w = true -> ~ In NErr (w_send w) -> ~ In NErr (w_recv w) -> w_traced w = true ->
  w_tid w = tid -> 0 < tid < 2 ^ 31 ->
  path = (match w_unix w with Some p => p | None => str "/var/run/libcare.sock" end) -> hd 0 path = 47 -> Forall (fun x => 0 < x) path -> (length path <= 107)%nat ->
  exists addr n, unix_name (map Some addr) = Some (UPath path) /\ numeral n tid /\
    run w c = ([Connect addr; Send (encode [str "execve"; n]); Recv; Close; Trap; Exec (file c) (args_of c) env],
      match w_exec w (file c) (args_of c) env with None => Replaced | Some e => Failed e end).
Proof.
  intros w c env tid path M T P A V Hs Hc Hsd Hrv Ht Et Bt Ep H47 Fp Lp. subst tid.
  destruct (run_cases w c) as [(T' & _)|[(_ & P' & _)|(_ & _ & E)]]; [contradiction|contradiction|]. rewrite E. clear E.
  assert (U : forall l, ~ In NErr l -> until_done l = true).
  { induction l as [|x l IH]; intro N; [reflexivity|]. destruct x; [reflexivity|apply IH; intro I; apply N; right; exact I|destruct N; left; reflexivity]. }
  unfold execve_. apply matched_listed in M. rewrite M. unfold filter_environ. destruct (hd_true _ A) as (A1 & A2). rewrite A1, (vars_ok _ _ V _ A2).
  unfold notify. rewrite Hs, Hc, (U _ Hsd), (U _ Hrv), Ht. cbn [negb]. cbv iota.
  exists (pad 108 (firstn 108 (ExecModel.unix_path w))), (dec (w_tid w)). split; [|split; [apply dec_numeral; exact Bt|]].
  - assert (E : ExecModel.unix_path w = path) by (rewrite Ep; reflexivity). rewrite E. rewrite firstn_all2 by lia. unfold pad.
    remember (108 - length path)%nat as k eqn:EK. destruct k as [|k]; [lia|]. cbn [repeat]. rewrite map_app. cbn [map]. apply LoopTrace.unix_path; assumption.
  - rewrite encode_message. reflexivity.
Qed.
Print Assumptions C144_announced.
Example C144_announced_case :
  matched (x_world true true None) (str "bin/s") /\
  Forall2 var_after (w_environ (x_world true true None)) [str "LD_PRELOAD=/y/a.so"; str "A=1"] /\
  run (x_world true true (Some 2)) (Execv (str "bin/s") [str "s"; str "-d"]) =
    ([Connect (pad 108 (str "/var/run/libcare.sock")); Send (str "execve" ++ 0 :: str "1234" ++ [0; 0]); Recv; Close; Trap;
      Exec (str "bin/s") [str "s"; str "-d"] [str "LD_PRELOAD=/y/a.so"; str "A=1"]], Failed 2).
Proof.
  split; [apply matched_listed; vm_compute; reflexivity|]. split.
  - constructor; [|constructor; [|constructor]].
    + apply (va_cut [] (str "/x") [str "/y/a.so"]); [constructor| |discriminate|right; discriminate].
      split; [cbn; intro H; repeat (destruct H as [H|H]; [discriminate H|]); destruct H|].
      change (str "/execve.so") with this_lib. apply strstr_none. vm_compute. reflexivity.
    + apply va_other. intros (r & E). discriminate E.
  - vm_compute. reflexivity.
Qed.

(** The server takes the message for the command execve with that number, however it arrives. *)
Theorem C144_server : forall n tid evs rest, numeral n tid -> 0 < tid < 2 ^ 31 -> arrives (encode [str "execve"; n]) evs ->
  handle_client (evs ++ rest) = HExec [str "execve"; n].
Proof.
  intros n tid evs rest N B A. assert (E : n = dec tid) by (apply (numeral_inj _ _ tid); [exact N|apply dec_numeral; exact B]).
  assert (L : (length n <= 10)%nat) by (rewrite E; apply dec_length).
  destruct N as (N1 & N2 & _).
  apply delivered; [|discriminate| | |exact A].
  - constructor; [split; [discriminate|]; repeat (apply Forall_cons; [reflexivity|]); apply Forall_nil|]. constructor; [|constructor].
    split; [exact N1|]. eapply Forall_impl; [|exact N2]. cbn. intros x Hx. lia.
  - unfold zlen, ARGV_SIZE. cbn. lia.
  - unfold zlen, encode, MSG_SIZE. cbn [flat_map]. rewrite !app_length. cbn [length]. change (length (str "execve")) with 6%nat. lia.
Qed.
Print Assumptions C144_server.

(** Whatever happens: no program the pattern matches by the path it is started by runs without having been announced; and what is run, if
    anything, is the file that was asked for, with the arguments given. *)
Theorem C144_never_unannounced : forall w c f a env tr e, run w c = (tr, e) -> In (Exec f a env) tr ->
  f = file c /\ a = args_of c /\
  (matched w f -> exists addr n, tr = [Connect addr; Send (encode [str "execve"; n]); Recv; Close; Trap; Exec f a env] /\ n = dec (w_tid w) /\ w_traced w = true).
Proof.
  intros w c f a env tr e R I. destruct (run_cases w c) as [(T' & E)|[(_ & P & E)|(_ & P & E)]]; rewrite E in R; clear E.
  - injection R as <- <-. destruct I.
  - injection R as <- <-. destruct I as [I|[]]. discriminate I.
  - unfold execve_ in R. destruct (listed w (file c)) as [[|]|] eqn:L.
    + destruct (filter_environ (w_alloc w) (env_of w c)) as [env'| |]; [|injection R as <- <-; destruct I|injection R as <- <-; destruct I].
      unfold notify in R.
      destruct (w_socket w); cbn [negb] in R; [|injection R as <- <-; destruct I].
      destruct (w_connect w); cbn [negb] in R; [|injection R as <- <-; cbn in I; destruct I as [I|[I|[]]]; discriminate I].
      destruct (until_done (w_send w)); cbn [negb] in R; [|injection R as <- <-; cbn in I; destruct I as [I|[I|[I|[]]]]; discriminate I].
      destruct (until_done (w_recv w)); cbn [negb] in R; [|injection R as <- <-; cbn in I; destruct I as [I|[I|[I|[]]]]; discriminate I].
      destruct (w_traced w); [|injection R as <- <-; cbn in I; destruct I as [I|[I|[I|[I|[I|[]]]]]]; discriminate I].
      injection R as <- <-. cbn in I. destruct I as [I|[I|[I|[I|[I|[I|[]]]]]]]; try discriminate I. injection I as <- <- <-.
      split; [reflexivity|]. split; [reflexivity|]. intros _. eexists. exists (dec (w_tid w)). rewrite encode_message. auto.
    + injection R as <- <-. destruct I as [I|[]]. injection I as <- <- <-. split; [reflexivity|]. split; [reflexivity|].
      intro M. apply matched_listed in M. rewrite L in M. discriminate M.
    + injection R as <- <-. destruct I.
Qed.
Print Assumptions C144_never_unannounced.

(** If the announcement cannot be made, for whatever error of the calls it takes and after however many interruptions, the
    process is killed with SIGABRT and the program is not run. *)
Theorem C144_gives_up : forall w c env, matched w (file c) -> ~ too_many c -> ~ in_path c ->
  Forall (eq true) (w_alloc w) -> Forall2 var_after (env_of w c) env ->
  (w_socket w = false \/ w_connect w = false \/ exists k r, w_send w = repeat NEintr k ++ NErr :: r \/ w_recv w = repeat NEintr k ++ NErr :: r) ->
  snd (run w c) = Killed 6 /\ forall f a e, ~ In (Exec f a e) (fst (run w c)) /\ ~ In (ExecSearch f a e) (fst (run w c)).
Proof.
  intros w c env M T P A V H. destruct (run_cases w c) as [(T' & _)|[(_ & P' & _)|(_ & _ & E)]]; [contradiction|contradiction|]. rewrite E. clear E.
  assert (U : forall k r, until_done (repeat NEintr k ++ NErr :: r) = false) by (induction k as [|k IH]; intro r; [reflexivity|apply IH]).
  unfold execve_. apply matched_listed in M. rewrite M. unfold filter_environ. destruct (hd_true _ A) as (A1 & A2). rewrite A1, (vars_ok _ _ V _ A2).
  assert (N : snd (notify w) = Some (Killed 6) /\ forall f a e, ~ In (Exec f a e) (fst (notify w)) /\ ~ In (ExecSearch f a e) (fst (notify w))).
  { unfold notify. destruct (w_socket w); cbn [negb]; [|split; [reflexivity|intros f a e; split; intros []]].
    destruct (w_connect w); cbn [negb]; [|split; [reflexivity|intros f a e; cbn [fst In]; split; intros I; repeat (destruct I as [I|I]; [discriminate I|]); exact I]].
    destruct H as [H|[H|(k & r & [H|H])]]; [discriminate H|discriminate H| |].
    - rewrite H, U. cbn [negb]. split; [reflexivity|intros f a e; cbn [fst In]; split; intros I; repeat (destruct I as [I|I]; [discriminate I|]); exact I].
    - rewrite H, U. destruct (until_done (w_send w)); cbn [negb]; (split; [reflexivity|intros f a e; cbn [fst In]; split; intros I; repeat (destruct I as [I|I]; [discriminate I|]); exact I]). }
  destruct (notify w) as [l [x|]]; cbn [fst snd] in N; [|destruct N as [N _]; discriminate N]. destruct N as [N1 N2]. injection N1 as ->. split; [reflexivity|exact N2].
Qed.
Print Assumptions C144_gives_up.
Example C144_gives_up_case :
  let w := {| w_pat := Some (fun _ => true); w_real := Some; w_unix := None; w_tid := 1; w_alloc := []; w_socket := true; w_connect := true; w_send := [NEintr; NErr];
    w_recv := []; w_traced := true; w_exec := fun _ _ _ => None; w_search := fun _ _ _ => None; w_environ := [] |} in
  run w (Execv (str "/bin/s") [str "s"]) = ([Connect (pad 108 (str "/var/run/libcare.sock")); Send (str "execve" ++ 0 :: str "1" ++ [0; 0]); Close], Killed 6).
Proof. vm_compute. reflexivity. Qed.

(** A call that fails, fails because the real one did; or for lack of memory or too many arguments, and then nothing has happened. *)
Theorem C144_failed : forall w c tr n, run w c = (tr, Failed n) ->
  (tr = [] /\ ((n = 38 /\ too_many c) \/ (n = 12 /\ In false (w_alloc w)))) \/
  exists env, w_exec w (file c) (args_of c) env = Some n /\ In (Exec (file c) (args_of c) env) tr \/
              w_search w (file c) (args_of c) env = Some n /\ tr = [ExecSearch (file c) (args_of c) env].
Proof.
  intros w c tr n R.
  assert (AF : forall r, after r = Failed n -> r = Some n) by (intros [x|] E; [injection E as ->; reflexivity|discriminate E]).
  assert (NV : forall env al, filter_vars al env = FNull -> In false al).
  { induction env as [|x env IH]; intros al E; cbn [filter_vars] in E; cbv zeta in E; [discriminate E|].
    assert (K : forall al' y, match filter_vars al' env with FOk l => FOk (y :: l) | z => z end = FNull -> In false al').
    { intros al' y K. apply IH. destruct (filter_vars al' env); [discriminate K|reflexivity|discriminate K]. }
    assert (Z : forall (X : fenv), (if hd true al then X else FNull) = FNull -> X = FNull \/ In false al).
    { intros X Z. destruct al as [|[|] al']; cbn [hd] in Z; [left; exact Z|left; exact Z|right; left; reflexivity]. }
    destruct (begins preload x); [|exact (K _ _ E)]. destruct (filter_value (skipn 11 x)) as [|y|]; [exact (K _ _ E)| |].
    - apply Z in E. destruct E as [E|E]; [|exact E]. apply K in E. destruct al; [destruct E|right; exact E].
    - apply Z in E. destruct E as [E|E]; [discriminate E|exact E]. }
  destruct (run_cases w c) as [(T' & E)|[(_ & P & E)|(_ & P & E)]]; rewrite E in R; clear E.
  - injection R as <- <-. left. auto.
  - injection R as <- R. right. exists (env_of w c). right. split; [apply AF, R|reflexivity].
  - unfold execve_ in R. destruct (listed w (file c)) as [[|]|]; [| |discriminate R].
    + destruct (filter_environ (w_alloc w) (env_of w c)) as [env'| |] eqn:FE; [| |discriminate R].
      * destruct (notify w) as [t [q|]] eqn:NT.
        { exfalso. unfold notify in NT. injection R as <- ->. revert NT.
          destruct (negb (w_socket w)), (negb (w_connect w)), (negb (until_done (w_send w))), (negb (until_done (w_recv w))), (w_traced w); discriminate. }
        injection R as <- R. right. exists env'. left. split; [apply AF, R|]. apply in_or_app. right. left. reflexivity.
      * injection R as <- <-. left. split; [reflexivity|]. right. split; [reflexivity|]. unfold filter_environ in FE.
        destruct (w_alloc w) as [|[|] al]; cbn [hd tl] in FE; [apply NV in FE; destruct FE|right; exact (NV _ _ FE)|left; reflexivity].
    + injection R as <- R. right. exists (env_of w c). left. split; [apply AF, R|left; reflexivity].
Qed.
Print Assumptions C144_failed.
Example C144_failed_case : run (x_world true true (Some 13)) (Execvp (str "ls") [str "ls"]) =
  ([ExecSearch (str "ls") [str "ls"] [str "LD_PRELOAD=/x/execve.so:/y/a.so"; str "A=1"]], Failed 13).
Proof. vm_compute. reflexivity. Qed.

(** Refuted: every program the pattern matches is announced.  A program found through PATH is
    not, even when the pattern matches everything. *)
Theorem C144_by_name_refuted : exists w c m, w_pat w = Some m /\ (forall s, m s = true) /\ (forall ad, ~ In (Connect ad) (fst (run w c))) /\ snd (run w c) = Replaced.
Proof.
  exists {| w_pat := Some (fun _ => true); w_real := Some; w_unix := None; w_tid := 1; w_alloc := []; w_socket := true; w_connect := true; w_send := [];
    w_recv := []; w_traced := true; w_exec := fun _ _ _ => None; w_search := fun _ _ _ => None; w_environ := [] |}.
  exists (Execvp (str "server") [str "server"]), (fun _ => true). split; [reflexivity|]. split; [reflexivity|]. split; [|reflexivity].
  intros ad. vm_compute. intros [E|[]]. discriminate E.
Qed.
Print Assumptions C144_by_name_refuted.
(** Refuted: a program that could be started without the library is started.  Without a server
    the process aborts; *)
Theorem C144_no_server_refuted : exists w c, w_connect w = false /\ w_exec w (file c) (args_of c) (env_of w c) = None /\ snd (run w c) = Killed 6.
Proof. exists (x_world false true None), (Execv (str "/opt/s") [str "s"]). repeat split. Qed.
Print Assumptions C144_no_server_refuted.
(** when the server could not attach and has closed the connection, it dies of the breakpoint; *)
Theorem C144_untraced_refuted : exists w c, w_connect w = true /\ w_traced w = false /\ w_exec w (file c) (args_of c) (env_of w c) = None /\ snd (run w c) = Killed 5.
Proof. exists (x_world true false None), (Execv (str "/opt/s") [str "s"]). repeat split. Qed.
Print Assumptions C144_untraced_refuted.
(** and with 1024 arguments given one by one the call fails, whatever the pattern. *)
Theorem C144_arguments_refuted : exists w c, w_pat w = None /\ snd (real_call w c (env_of w c)) = None /\ run w c = ([], Failed 38).
Proof.
  exists {| w_pat := None; w_real := Some; w_unix := None; w_tid := 1; w_alloc := []; w_socket := true; w_connect := true; w_send := [];
    w_recv := []; w_traced := true; w_exec := fun _ _ _ => None; w_search := fun _ _ _ => None; w_environ := [] |}.
  exists (Execl (str "/bin/echo") (repeat (str "x") (32 * 32))). split; [reflexivity|]. split; [reflexivity|]. vm_compute. reflexivity.
Qed.
Print Assumptions C144_arguments_refuted.
(** The pattern is compared with an array that may not have been written when a relative path does not exist. *)
Theorem C144_missing_refuted : exists w c m, w_pat w = Some m /\ w_real w (file c) = None /\ w_exec w (file c) (args_of c) (env_of w c) = Some 2 /\ run w c = ([], Undefined).
Proof.
  exists {| w_pat := Some (fun _ => false); w_real := fun _ => None; w_unix := None; w_tid := 1; w_alloc := []; w_socket := true; w_connect := true; w_send := [];
    w_recv := []; w_traced := true; w_exec := fun _ _ _ => Some 2; w_search := fun _ _ _ => None; w_environ := [] |}.
  exists (Execv (str "./nothing") [str "nothing"]), (fun _ => false). repeat split.
Qed.
Print Assumptions C144_missing_refuted.

(** ** C145 *)

(** The variables of the announced program, when LD_PRELOAD is a list of libraries with this one
    in any place but the last of several, and not in the root directory as the first: the entry of
    this library is gone. *)
Theorem C145_environ : forall alloc env env', Forall (eq true) alloc -> Forall2 var_after env env' -> filter_environ alloc env = FOk env'.
Proof. intros alloc env env' A V. unfold filter_environ. destruct (hd_true _ A) as (A1 & A2). rewrite A1. apply vars_ok; assumption. Qed.
Print Assumptions C145_environ.
(** With this library as the first, what is preloaded into the announced program is exactly the rest. *)
Theorem C145_first_partial : forall alloc e1 e2 d after, Forall (eq true) alloc ->
  (forall e, In e (e1 ++ e2) -> ~ prefix (str "LD_PRELOAD=") e) -> plain_lib d -> d <> [] -> after <> [] ->
  filter_environ alloc (e1 ++ ld_preload (lib_in d :: after) :: e2) = FOk (e1 ++ ld_preload after :: e2).
Proof.
  intros alloc e1 e2 d after A N P Nd Na. apply C145_environ; [exact A|].
  assert (S : forall l, (forall e, In e l -> ~ prefix (str "LD_PRELOAD=") e) -> Forall2 var_after l l).
  { induction l as [|e l IH]; intro H; [constructor|]. constructor; [apply va_other, H; left; reflexivity|apply IH; intros e' I; apply H; right; exact I]. }
  apply Forall2_app; [apply S; intros e I; apply N, in_or_app; left; exact I|].
  constructor; [|apply S; intros e I; apply N, in_or_app; right; exact I].
  apply (va_cut [] d after); [constructor|exact P|exact Na|right; exact Nd].
Qed.
Print Assumptions C145_first_partial.
Example C145_first_case : filter_environ [] [str "A=1"; str "LD_PRELOAD=/x/execve.so:/y/a.so:/y/b.so"; str "B=2"] =
  FOk [str "A=1"; str "LD_PRELOAD=/y/a.so:/y/b.so"; str "B=2"].
Proof. vm_compute. reflexivity. Qed.
(** Whatever the environment: a variable changes only if it is LD_PRELOAD with the name of this
    library and a colon in it; the number and order of the variables stay. *)
Theorem C145_others : forall alloc env env', filter_environ alloc env = FOk env' ->
  Forall2 (fun e e' => (e' <> e -> exists v, e = str "LD_PRELOAD=" ++ v /\ infix (str "/execve.so") v /\ In 58 v) /\
    (prefix (str "LD_PRELOAD=") e -> prefix (str "LD_PRELOAD=") e')) env env'.
Proof. intros alloc env env' H. unfold filter_environ in H. destruct (hd true alloc); [|discriminate H]. exact (vars_others _ _ _ H). Qed.
Print Assumptions C145_others.
(** As the last of several, or in the root directory as the first of several, the code reads or
    writes out of bounds: *)
Theorem C145_last : forall alloc before d env, Forall (eq true) alloc -> before <> [] -> Forall plain_lib before -> plain_lib d ->
  filter_environ alloc (ld_preload (before ++ [lib_in d]) :: env) = FUndef.
Proof.
  intros alloc before d env A N F P. unfold filter_environ. destruct (hd_true _ A) as (A1 & A2). rewrite A1. cbn [filter_vars]. cbv zeta.
  destruct (hd_true _ A2) as (A3 & _).
  unfold ld_preload. change (str "LD_PRELOAD=") with preload. rewrite begins_preload, skip_preload, value_last by assumption. rewrite A3. reflexivity.
Qed.
Print Assumptions C145_last.
Theorem C145_root : forall alloc after env, Forall (eq true) alloc -> after <> [] -> filter_environ alloc (ld_preload (lib_in [] :: after) :: env) = FUndef.
Proof.
  intros alloc after env A N. unfold filter_environ. destruct (hd_true _ A) as (A1 & A2). rewrite A1. cbn [filter_vars]. cbv zeta.
  destruct (hd_true _ A2) as (A3 & _).
  unfold ld_preload. change (str "LD_PRELOAD=") with preload. rewrite begins_preload, skip_preload, value_root by assumption. rewrite A3. reflexivity.
Qed.
Print Assumptions C145_root.
(** Refuted: the announced program has everything preloaded but this library. *)
(** Alone, it stays. *)
Theorem C145_alone_refuted : exists d, plain_lib d /\ filter_environ [] [ld_preload [lib_in d]] = FOk [ld_preload [lib_in d]].
Proof.
  exists (str "/x"). split; [|vm_compute; reflexivity]. split; [cbn; intro H; repeat (destruct H as [H|H]; [discriminate H|]); destruct H|].
  change (str "/execve.so") with this_lib. apply strstr_none. vm_compute. reflexivity.
Qed.
Print Assumptions C145_alone_refuted.
(** Between two others, these become one name that is nobody's. *)
Theorem C145_between_refuted : exists a d b, plain_lib a /\ plain_lib d /\ plain_lib b /\
  filter_environ [] [ld_preload [a; lib_in d; b]] = FOk [ld_preload [a ++ b]].
Proof.
  exists (str "/y/a.so"), (str "/x"), (str "/y/b.so").
  assert (P : forall s, strstr this_lib s = None -> existsb (Z.eqb 58) s = false -> plain_lib s).
  { intros s H1 H2. split; [intro I; apply has_colon in I; congruence|apply strstr_none; exact H1]. }
  split; [apply P; reflexivity|]. split; [apply P; reflexivity|]. split; [apply P; reflexivity|]. vm_compute. reflexivity.
Qed.
Print Assumptions C145_between_refuted.
(** As the last, the call is undefined. *)
Theorem C145_last_refuted : exists w c, matched w (file c) /\ env_of w c = [str "LD_PRELOAD=/y/a.so:/x/execve.so"] /\ run w c = ([], Undefined).
Proof.
  exists (x_world true true None), (Execve (str "/opt/s") [str "s"] [str "LD_PRELOAD=/y/a.so:/x/execve.so"]).
  split; [apply matched_listed; vm_compute; reflexivity|]. split; [reflexivity|]. vm_compute. reflexivity.
Qed.
Print Assumptions C145_last_refuted.
(** Another library whose name begins the same way is damaged. *)
Theorem C145_other_library_refuted : exists l, ~ In (lib_in (str "/usr/lib")) l /\
  filter_environ [] [ld_preload l] = FOk [str "LD_PRELOAD=1:/y/a.so"].
Proof.
  exists [str "/usr/lib/execve.so.1"; str "/y/a.so"]. split; [|vm_compute; reflexivity].
  intros [E|[E|[]]]; discriminate E.
Qed.
Print Assumptions C145_other_library_refuted.
