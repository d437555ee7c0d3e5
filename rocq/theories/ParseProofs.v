(** Proofs about cutting a file into blocks. *)
From Coq Require Import String Sorted.
From Verif Require Import Base BaseProofs StorageModel TextModel TextSpec TextProofs TextLines TextStmt RenameModel RenameProofs ParseModel ParseSpec.
Open Scope list_scope.

(** ** How many lines things take *)
Lemma variable_start_len a : forall ls n globl nm e g nm2,
  variable_start_from a n globl nm ls = Ok (Some (e, g, nm2)) -> (n < e <= n + length ls)%nat.
Proof.
  induction ls as [|x r IH]; intros n globl nm e g nm2 H; cbn [variable_start_from] in H; [discriminate|].
  cbn [length].
  assert (R : forall g' n', variable_start_from a (S n) g' n' r = Ok (Some (e, g, nm2)) -> (n < e <= n + S (length r))%nat).
  { intros g' n' E. apply IH in E. lia. }
  destruct (list_eqb (l_text x) [] && negb (Nat.eqb n 0)); [eauto|].
  destruct (hot_label a x); [eauto|].
  match type of H with (if ?c then _ else _) = _ => destruct c; [discriminate|] end.
  destruct (l_type x) eqn:T; try discriminate; try (eapply R; eassumption);
    try (injection H as <- _ _; lia).
  all: try (destruct (get_type_args (l_text x)) as [[[? ?]|]| | |]; cbn [rbind] in H; try discriminate;
            destruct (existsb _ _); [eapply R; eassumption|discriminate]).
  all: try (destruct (Nat.eqb n 0); [discriminate|eapply R; eassumption]).
  all: try (destruct (sc_exec (l_sect x)); [discriminate|injection H as <- _ _; lia]).
  all: try (destruct (pa_set a); [injection H as <- _ _; lia|discriminate]).
Qed.
Lemma func_lines_shape a nm : forall ls cnt g ad u v g' ad', ls <> [] ->
  func_lines a nm cnt g ad ls = Ok (u, v, g', ad') ->
  u <> [] /\ exists w, ls = w ++ v /\ Forall2 kept w u.
Proof.
  induction ls as [|x r IH]; intros cnt g ad u v g' ad' N H; [congruence|]. cbn [func_lines] in H.
  destruct r as [|y r'].
  - injection H as <- <- _ _. split; [discriminate|]. exists [x]. split; auto. constructor; [now left|constructor].
  - set (r := y :: r') in *.
    destruct (if dir_beq (l_type x) DKpflags then has_adapted (l_text x) else Ok false) as [f| | |]; cbn [rbind] in H; try discriminate.
    set (x' := if dir_beq (l_type x) DKpflags then emptied x else x) in *.
    assert (K : kept x x').
    { unfold x'. destruct (dir_beq (l_type x) DKpflags) eqn:E; [|now left].
      apply internal_dir_dec_bl in E. right. auto. }
    destruct (recog_func_attr a x' nm) as [c| | |]; cbn [rbind] in H; try discriminate.
    destruct (is_function_end x' nm && (cnt + c - 1 =? 0)).
    + injection H as <- <- _ _. split; [discriminate|]. exists [x]. split; auto.
    + destruct (func_lines a nm _ _ _ r) as [[[[u' v'] g''] ad'']| | |] eqn:E; cbn [rbind] in H; try discriminate.
      injection H as <- <- _ _. apply IH in E as (_ & w & Ew & F); [|discriminate].
      split; [discriminate|]. exists (x :: w). split; [cbn; now f_equal|]. constructor; auto.
Qed.
Lemma var_lines_le a nm : forall n g ls k g', var_lines a n nm g ls = Ok (k, g') -> (k <= length ls)%nat.
Proof.
  induction n as [|n IH]; intros g ls k g' H; cbn [var_lines] in H; destruct ls as [|x r];
    try discriminate; try (injection H as <- _; cbn; lia).
  destruct (is_variable_start a (x :: r)) as [[[[e gl] nm2]|]| | |] eqn:V; cbn [rbind] in H; try discriminate.
  - apply variable_start_len in V.
    destruct (negb (same nm (txt nm2))); [injection H as <- _; lia|].
    destruct (var_lines a n nm _ (skipn e (x :: r))) as [[k' g'']| | |] eqn:E; cbn [rbind] in H; try discriminate.
    injection H as <- _. apply IH in E. rewrite skipn_length in E. cbn [fst]. lia.
  - destruct (is_data_def a (l_text x)); [|injection H as <- _; lia].
    destruct (var_lines a n nm g r) as [[k' g'']| | |] eqn:E; cbn [rbind] in H; try discriminate.
    injection H as <- _. apply IH in E. cbn [fst length]. lia.
Qed.
Lemma other_lines_le a last : forall ls flag n f, other_lines a last flag ls = Ok (n, f) -> (n <= length ls)%nat.
Proof.
  induction ls as [|x r IH]; intros flag n f H; cbn [other_lines] in H; [injection H as <- _; cbn; lia|].
  destruct (starts_block a (x :: r)) as [b| | |]; cbn [rbind] in H; try discriminate.
  destruct b; [injection H as <- _; lia|].
  set (flag' := if dir_beq (l_type x) DSection && _ then EIniarr else flag) in *.
  assert (G : forall res, res = (do q <- other_lines a last flag' r; Ok (S (fst q), snd q)) -> res = Ok (n, f) -> (n <= length (x :: r))%nat).
  { intros res -> E. destruct (other_lines a last flag' r) as [[n' f']| | |] eqn:E'; cbn [rbind] in E; try discriminate.
    injection E as <- _. apply IH in E'. cbn [fst length]. lia. }
  destruct flag'; try (eapply G; [reflexivity|exact H]).
  all: destruct (dir_beq (l_type x) DOther && is_data_def a (l_text x)); [|eapply G; [reflexivity|exact H]].
  all: destruct last as [b|]; [|injection H as <- _; cbn; lia].
  all: destruct (btype_beq (b_type b) BFunc && _); [injection H as <- _; cbn; lia|eapply G; [reflexivity|exact H]].
Qed.
Lemma other_lines_pos a last ls flag n f : ls <> [] -> starts_block a ls = Ok false ->
  other_lines a last flag ls = Ok (n, f) -> (0 < n)%nat.
Proof.
  destruct ls as [|x r]; [congruence|]. intros _ S H. cbn [other_lines] in H. rewrite S in H. cbn [rbind] in H.
  set (flag' := if dir_beq (l_type x) DSection && _ then EIniarr else flag) in *.
  assert (G : forall res, res = (do q <- other_lines a last flag' r; Ok (Datatypes.S (fst q), snd q)) -> res = Ok (n, f) -> (0 < n)%nat).
  { intros res -> E. destruct (other_lines a last flag' r) as [[n' f']| | |] eqn:E'; cbn [rbind] in E; try discriminate.
    injection E as <- _. lia. }
  destruct flag'; try (eapply G; [reflexivity|exact H]).
  all: destruct (dir_beq (l_type x) DOther && is_data_def a (l_text x)); [|eapply G; [reflexivity|exact H]].
  all: destruct last as [b|]; [|injection H as <- _; cbn; lia].
  all: destruct (btype_beq (b_type b) BFunc && _); [injection H as <- _; cbn; lia|eapply G; [reflexivity|exact H]].
Qed.
Lemma until_start_le a : forall ls n, until_start a ls = Ok n -> (n <= length ls)%nat.
Proof.
  induction ls as [|x r IH]; intros n H; cbn [until_start] in H; [injection H as <-; lia|].
  destruct (starts_block a (x :: r)) as [b| | |]; cbn [rbind] in H; try discriminate.
  destruct b; [injection H as <-; lia|]. destruct (until_start a r) as [m| | |]; cbn [rbind] in H; try discriminate.
  injection H as <-. specialize (IH m eq_refl). cbn [length]. lia.
Qed.
(** A last block extended is a block there is. *)
Lemma other_update a last : forall ls flag n, other_lines a last flag ls = Ok (n, EUpdate) ->
  flag = EUpdate \/ exists b, last = Some b.
Proof.
  induction ls as [|x r IH]; intros flag n H; cbn [other_lines] in H; [injection H as _ ->; auto|].
  destruct (starts_block a (x :: r)) as [b| | |]; cbn [rbind] in H; try discriminate.
  destruct b; [injection H as _ ->; auto|].
  set (flag' := if dir_beq (l_type x) DSection && _ then EIniarr else flag) in *.
  assert (G : forall res, res = (do q <- other_lines a last flag' r; Ok (S (fst q), snd q)) -> res = Ok (n, EUpdate) ->
              flag' = EUpdate \/ exists b, last = Some b).
  { intros res -> E. destruct (other_lines a last flag' r) as [[n' f']| | |] eqn:E'; cbn [rbind] in E; try discriminate.
    cbn [fst snd] in E. injection E as _ ->. eapply IH. eauto. }
  assert (X : flag' = EUpdate \/ (exists b, last = Some b)).
  { destruct flag'; try (eapply G; [reflexivity|exact H]); [|auto].
    destruct last; eauto. destruct (dir_beq (l_type x) DOther && is_data_def a (l_text x)).
    - injection H as _ H. discriminate.
    - eapply G; [reflexivity|exact H]. }
  destruct X as [X|X]; auto. unfold flag' in X. destruct (dir_beq (l_type x) DSection && _); [discriminate|auto].
Qed.

Lemma nodup_snoc {A} (l : list A) x : NoDup l -> ~ In x l -> NoDup (l ++ [x]).
Proof.
  intros N I. induction N as [|y l Hy N IH]; cbn; [repeat constructor; auto|]. constructor.
  - intros H. apply in_app_or in H as [H|[<-|[]]]; auto. apply I. now left.
  - apply IH. intros H. apply I. now right.
Qed.
(** ** One block *)
Definition covered (bs : list cblock) (k : nat) (x : line) : Prop := (exists b, In b bs /\ covers b k) \/ left_out bs x.
Definition names_distinct (bs : list cblock) : Prop := NoDup (filter (fun n => negb (list_eqb n [])) (map (fun b => txt (b_name b)) bs)).
Record inv (i : nat) (bs : list cblock) : Prop := {
  iv_order : in_order i bs;
  iv_names : names_distinct bs }.
Lemma cblock_add_inv i j bs b bs' : inv i bs -> b_start b = i -> b_end b = j -> (1 <= i < j)%nat ->
  cblock_add bs b = Ok bs' -> inv j bs' /\ bs' = bs ++ [b].
Proof.
  unfold cblock_add. intros [(O1 & O2) N] Es Ee L.
  destruct (negb (list_eqb (txt (b_name b)) []) && _) eqn:C; [discriminate|]. intros E. injection E as <-. split; auto.
  split.
  - split.
    + clear - O1 O2 Es. induction O1 as [|c bs O1 IH F]; cbn; [repeat constructor|]. inversion O2; subst. constructor; auto.
      apply Forall_app. split; auto. constructor; [lia|constructor].
    + apply Forall_app. split; [eapply Forall_impl; [|exact O2]; cbn; intros; lia|]. repeat constructor; lia.
  - unfold names_distinct in *. rewrite map_app, filter_app. cbn [map filter].
    destruct (list_eqb (txt (b_name b)) []) eqn:Em; cbn [negb].
    + now rewrite app_nil_r.
    + cbn [negb andb] in C. destruct (find_by_name bs (txt (b_name b))) eqn:Fb; [discriminate|].
      apply nodup_snoc; auto. intros I. apply filter_In in I as (I & _). apply in_map_iff in I as (c & Ec & I).
      unfold find_by_name in Fb. apply (find_none _ _ Fb) in I. rewrite Ec, same_refl in I. discriminate.
Qed.
Lemma covered_app bs bs' k x : covered bs k x -> covered (bs ++ bs') k x.
Proof.
  intros [(b & I & C)|[L|(T & b & g & I & L)]].
  - left. exists b. split; auto. apply in_or_app; auto.
  - right. now left.
  - right. right. split; auto. exists b, g. split; [apply in_or_app; auto|auto].
Qed.
Lemma cover_new bs b k x : covers b k -> covered (bs ++ [b]) k x.
Proof. intros C. left. exists b. split; auto. apply in_or_app. simpl; auto. Qed.

(** What one round of the loop does.  [ls] are the lines from [i] on. *)
Lemma one_block_spec a i bs x r u v bs' : inv i bs -> (1 <= i)%nat -> ~ In 10 (l_text x) -> one_block a i bs x r = Ok (u, v, bs') ->
  u <> [] /\ inv (i + length u) bs'
  /\ exists w, x :: r = w ++ v /\ Forall2 kept w u
  /\ (forall k y, nth_error w k = Some y -> covered bs' (i + k) y)
  /\ (forall k y, covered bs k y -> covered bs' k y).
Proof.
  intros I Hi Nl H. unfold one_block in H.
  destruct (list_eqb (l_text x) []) eqn:Ex.
  { injection H as <- <- <-. apply list_eqb_eq in Ex. split; [discriminate|]. cbn [length].
    split; [|exists [x]; repeat split; auto; [constructor; [now left|constructor]|]].
    - destruct I as [(O1 & O2) N]. split; auto. split; auto. eapply Forall_impl; [|exact O2]. cbn. intros; lia.
    - intros k y Ek. right. left. destruct k as [|k]; [injection Ek as <-; auto|destruct k; discriminate]. }
  destruct (is_function_start a (x :: r)) as [[f nm]| | |] eqn:F; cbn [rbind] in H; try discriminate. cbn [fst snd] in H.
  destruct f.
  { destruct (func_lines a (txt nm) 0 false false (x :: r)) as [[[[u' v'] g] ad]| | |] eqn:E; cbn [rbind] in H; try discriminate.
    destruct (cblock_add bs _) as [bs''| | |] eqn:A; cbn [rbind] in H; try discriminate. injection H as <- <- <-.
    apply func_lines_shape in E as (Nu & w & Ew & K); [|discriminate]. split; auto.
    assert (Lu : (0 < length u')%nat) by (destruct u'; [congruence|cbn; lia]).
    assert (Lw : length w = length u') by (clear - K; induction K; cbn; auto).
    eapply (cblock_add_inv i (i + length u')) in A; [|exact I|destruct ad; reflexivity|destruct ad; reflexivity|lia].
    destruct A as (A & ->). split; auto. exists w. repeat split; auto.
    - intros k y Ek. assert (k < length w)%nat by (apply nth_error_Some; congruence).
      apply cover_new. unfold covers. destruct ad; cbn; lia.
    - intros k y C. now apply covered_app. }
  destruct (is_variable_start a (x :: r)) as [vs| | |] eqn:V; cbn [rbind] in H; try discriminate.
  assert (Cut : forall n b bs0, (0 < n <= length (x :: r))%nat -> b_start b = i -> b_end b = (i + n)%nat ->
            cblock_add bs b = Ok bs0 -> u = firstn n (x :: r) -> v = skipn n (x :: r) -> bs' = bs0 ->
            u <> [] /\ inv (i + length u) bs'
            /\ exists w, x :: r = w ++ v /\ Forall2 kept w u
            /\ (forall k y, nth_error w k = Some y -> covered bs' (i + k) y)
            /\ (forall k y, covered bs k y -> covered bs' k y)).
  { intros n b bs0 Ln Bs Be A -> -> ->.
    assert (Lf : length (firstn n (x :: r)) = n) by (rewrite firstn_length; lia).
    split; [intros Z0; rewrite Z0 in Lf; cbn in Lf; lia|]. rewrite Lf.
    eapply (cblock_add_inv i (i + n)) in A; [|exact I|auto|auto|lia]. destruct A as (A & ->). split; auto.
    exists (firstn n (x :: r)). split; [now rewrite firstn_skipn|]. split; [|split].
    - clear. induction (firstn n (x :: r)); constructor; auto. now left.
    - intros k y Ek. assert (k < length (firstn n (x :: r)))%nat by (apply nth_error_Some; congruence).
      apply cover_new. unfold covers. lia.
    - intros k y C. now apply covered_app. }
  destruct vs as [[[e g] nm2]|].
  { destruct (var_lines a (length (x :: r)) (txt nm2) false (x :: r)) as [[n gl]| | |] eqn:E; cbn [rbind] in H; try discriminate.
    destruct (cblock_add bs _) as [bs''| | |] eqn:A; cbn [rbind fst snd] in H, A; try discriminate.
    assert (Pos : (0 < n)%nat).
    { cbn [length var_lines] in E. rewrite V in E. cbn [rbind] in E. rewrite same_refl in E. cbn [negb] in E.
      apply variable_start_len in V.
      destruct (var_lines a (length r) (txt nm2) _ (skipn e (x :: r))) as [[k g']| | |]; cbn [rbind] in E; try discriminate.
      injection E as <- _. cbn [fst]. lia. }
    injection H as <- <- <-. apply var_lines_le in E. eapply (Cut n); try exact A; auto. }
  assert (SB : starts_block a (x :: r) = Ok false).
  { unfold starts_block. rewrite F. cbn [rbind fst]. rewrite V. reflexivity. }
  destruct (dir_beq (l_type x) DSet).
  { destruct (cblock_add bs _) as [bs''| | |] eqn:A; cbn [rbind] in H; try discriminate.
    injection H as <- <- <-. eapply (Cut 1%nat); try exact A; auto; try reflexivity; cbn; lia. }
  destruct (dir_beq (l_type x) DWeak || dir_beq (l_type x) DGlobl) eqn:W.
  { destruct (get_token (Some (l_text x))) as [t e] eqn:Et. cbn [fst] in H.
    destruct (find_by_name bs (txt (KStr (txt t ++ rest t) []))) as [b|] eqn:Fb.
    - injection H as <- <- <-. split; [discriminate|]. cbn [length].
      split; [|exists [x]; repeat split; auto; [constructor; [now left|constructor]|]].
      + destruct I as [(O1 & O2) N]. split; auto. split; auto. eapply Forall_impl; [|exact O2]. cbn. intros; lia.
      + intros k y Ek. destruct k as [|k]; [injection Ek as <-|destruct k; discriminate].
        right. right. split.
        { rewrite orb_true_iff in W. destruct W as [W|W]; apply internal_dir_dec_bl in W; rewrite W; simpl; auto. }
        unfold find_by_name in Fb. apply find_some in Fb as (Ib & Sb). apply same_spec in Sb. cbn [txt] in Sb.
        exists b, (blanks (l_text x)). split; auto. split.
        { clear. induction (l_text x) as [|c s IH]; cbn; [constructor|]. unfold isblank. 
          destruct (Z.eqb_spec c 32); [constructor; auto|]. destruct (Z.eqb_spec c 9); [constructor; auto|constructor]. }
        rewrite Sb. rewrite (blanks_split (l_text x)) at 1. f_equal.
        apply get_token_spec in Et as [([Z0|(q & Z0)] & -> & _)|(_ & Z0 & _)]; auto.
        destruct Nl. rewrite (blanks_split (l_text x)), Z0. apply in_or_app. right. now left.
    - destruct (cblock_add bs _) as [bs''| | |] eqn:A; cbn [rbind] in H; try discriminate.
      injection H as <- <- <-. eapply (Cut 1%nat); try exact A; auto; try reflexivity; cbn; lia. }
  destruct (other_lines a _ ENone (x :: r)) as [[n flag]| | |] eqn:O; cbn [rbind] in H; try discriminate.
  pose proof (other_lines_pos _ _ (x :: r) _ _ _ ltac:(discriminate) SB O) as Pos. pose proof (other_lines_le _ _ _ _ _ _ O) as Le.
  destruct flag.
  - cbn [rbind] in H. destruct (cblock_add bs _) as [bs''| | |] eqn:A; cbn [rbind] in H; try discriminate.
    injection H as <- <- <-. eapply (Cut (n + 0)%nat); try exact A; auto; cbn [b_start b_end new_block]; lia.
  - destruct (until_start a (skipn n (x :: r))) as [m| | |] eqn:U; cbn [rbind] in H; try discriminate.
    apply until_start_le in U. rewrite skipn_length in U.
    destruct (cblock_add bs _) as [bs''| | |] eqn:A; cbn [rbind] in H; try discriminate.
    injection H as <- <- <-. eapply (Cut (n + m)%nat); try exact A; auto; cbn [b_start b_end new_block]; lia.
  - destruct (rev bs) as [|b p] eqn:Rv; [discriminate|]. injection H as <- <- <-.
    assert (Eb : bs = rev p ++ [b]) by (rewrite <- (rev_involutive bs), Rv; reflexivity).
    assert (Lf : length (firstn n (x :: r)) = n) by (rewrite firstn_length; lia).
    split; [intros Z0; rewrite Z0 in Lf; cbn in Lf; lia|]. rewrite Lf.
    destruct I as [(O1 & O2) N]. rewrite Eb in O1, O2, N.
    assert (Hb : (1 <= b_start b < b_end b)%nat /\ (b_end b <= i)%nat).
    { apply Forall_app in O2 as (_ & O2). now inversion O2. }
    split; [|exists (firstn n (x :: r)); split; [now rewrite firstn_skipn|]; split; [|split]].
    + split; [split|].
      * clear - O1. induction (rev p) as [|c q IH]; cbn in *; [repeat constructor|]. inversion O1; subst. constructor; auto.
        rewrite Forall_app in *. destruct H2 as (H2 & H3). split; auto. inversion H3; subst. constructor; auto.
      * rewrite Forall_app in *. destruct O2 as (O2 & O3). split.
        -- eapply Forall_impl; [|exact O2]. cbn. intros; lia.
        -- constructor; [|constructor]. cbn. lia.
      * unfold names_distinct in *. rewrite map_app in *. exact N.
    + clear. induction (firstn n (x :: r)); constructor; auto. now left.
    + intros k y Ek. assert (k < length (firstn n (x :: r)))%nat by (apply nth_error_Some; congruence).
      apply cover_new. unfold covers. cbn. lia.
    + rewrite Eb. intros k y [(c & I & C)|[L|(T & c & g & I & L)]].
      * apply in_app_or in I as [I|[<-|[]]].
        -- left. exists c. split; auto. apply in_or_app; auto.
        -- apply cover_new. unfold covers in *. cbn. lia.
      * right. now left.
      * right. right. split; auto. apply in_app_or in I as [I|[<-|[]]].
        -- exists c, g. split; auto. apply in_or_app; auto.
        -- exists (set_end b (i + n)), g. split; [apply in_or_app; simpl; auto|auto].
Qed.

(** ** The whole file *)
Lemma kept_length w u : Forall2 kept w u -> length w = length u.
Proof. induction 1; cbn; auto. Qed.
Lemma blocks_from_spec a : forall n i bs ls ls' bs', inv i bs -> (1 <= i)%nat -> Forall (fun x => ~ In 10 (l_text x)) ls ->
  blocks_from a n i bs ls = Ok (ls', bs') ->
  inv (i + length ls) bs' /\ Forall2 kept ls ls'
  /\ (forall k y, nth_error ls k = Some y -> covered bs' (i + k) y)
  /\ (forall k y, covered bs k y -> covered bs' k y).
Proof.
  induction n as [|n IH]; intros i bs ls ls' bs' I Hi Nl H; cbn [blocks_from] in H; destruct ls as [|x r]; try discriminate.
  1, 2: injection H as <- <-; cbn [length]; rewrite Nat.add_0_r; repeat split; auto; try apply I; intros k y E; destruct k; discriminate.
  destruct (one_block a i bs x r) as [[[u v] bs1]| | |] eqn:O; cbn [rbind] in H; try discriminate.
  destruct (blocks_from a n (i + length u) bs1 v) as [[w bs2]| | |] eqn:B; cbn [rbind] in H; try discriminate.
  cbn [fst snd] in H. injection H as <- <-.
  apply one_block_spec in O as (Nu & I1 & w0 & Ew & K & C1 & C2); auto; [|now inversion Nl].
  rewrite Ew in Nl. apply Forall_app in Nl as (_ & Nl).
  apply IH in B as (I2 & K2 & C3 & C4); auto; [|lia].
  pose proof (kept_length _ _ K) as Lw. rewrite Ew.
  split; [|split; [|split]].
  - rewrite app_length, Lw, Nat.add_assoc. exact I2.
  - now apply Forall2_app.
  - intros k y Ek. destruct (Nat.lt_ge_cases k (length w0)) as [L|L].
    + rewrite nth_error_app1 in Ek by auto. auto.
    + rewrite nth_error_app2 in Ek by auto. apply C3 in Ek. replace (i + k)%nat with (i + length u + (k - length w0))%nat by lia. exact Ek.
  - auto.
Qed.
Theorem cblocks_init_spec a ls ls' bs : Forall (fun x => ~ In 10 (l_text x)) ls -> cblocks_init a ls = Ok (ls', bs) ->
  in_order (length ls) bs /\ names_distinct bs /\ Forall2 kept ls ls'
  /\ (forall k y, (1 <= k)%nat -> nth_error ls k = Some y -> covered bs k y).
Proof.
  intros Nl H. destruct ls as [|x r]; cbn [cblocks_init] in H.
  { injection H as <- <-. split; [repeat split; constructor|]. split; [constructor|]. split; [constructor|].
    intros [|k] y _ E; discriminate. }
  destruct (blocks_from a (length r) 1 [] r) as [[w bs']| | |] eqn:B; cbn [rbind fst snd] in H; try discriminate.
  injection H as <- <-. inversion Nl; subst. apply blocks_from_spec in B as ([I N] & K & C & _); auto.
  - cbn [length]. split; [exact I|]. split; [exact N|]. split; [constructor; auto; now left|].
    intros [|k] y L E; [lia|]. exact (C k y E).
  - repeat split; constructor.
Qed.

(** ** The loops end. *)
Definition ends_well {A} (r : res A) : Prop := match r with Ok _ | Fatal => True | _ => False end.
Lemma ew_bind {A B} (m : res A) (f : A -> res B) : ends_well m -> (forall x, m = Ok x -> ends_well (f x)) -> ends_well (rbind m f).
Proof. destruct m; cbn; intros; auto. Qed.
Lemma get_type_args_ew s : ends_well (get_type_args s).
Proof.
  unfold get_type_args. destruct (get_token (Some s)) as [t s1]. destruct (negb _); [exact I|].
  destruct (get_token s1) as [? s2], (get_token s2) as [? s3], (get_token s3). destruct (negb _); exact I.
Qed.
Lemma function_start_ew a : forall ls first func nm attr, ends_well (function_start_from a first func nm attr ls).
Proof.
  induction ls as [|x r IH]; intros; cbn [function_start_from]; [exact I|].
  destruct (negb first && _); auto. destruct ((_ && _) || _); auto.
  apply ew_bind; [apply get_type_args_ew|]. intros ta _.
  destruct ((_ && _) || _ || _ || _ || _ || _).
  - destruct (negb _ && _); [exact I|auto].
  - destruct (hot_label a x); [auto|exact I].
Qed.
Lemma variable_start_ew a : forall ls n globl nm, ends_well (variable_start_from a n globl nm ls).
Proof.
  induction ls as [|x r IH]; intros; cbn [variable_start_from]; [exact I|].
  destruct (list_eqb (l_text x) [] && negb (Nat.eqb n 0)); auto. destruct (hot_label a x); auto.
  destruct (takes_name (l_type x) && negb (list_eqb (txt nm) []) && _); [exact I|].
  destruct (l_type x); try exact I; auto.
  all: try (apply ew_bind; [apply get_type_args_ew|]; intros [[? ?]|] _; try exact I; destruct (existsb _ _); [auto|exact I]).
  all: try (destruct (Nat.eqb n 0); [exact I|auto]).
  all: try (destruct (sc_exec _); exact I).
  all: try (destruct (pa_set a); exact I).
Qed.
Lemma starts_block_ew a ls : ends_well (starts_block a ls).
Proof.
  unfold starts_block. apply ew_bind; [apply function_start_ew|]. intros [[] ?] _; [exact I|]. cbn [fst].
  apply ew_bind; [apply variable_start_ew|]. intros; exact I.
Qed.
Lemma tokens_fuel_ok (s : option text) : exists ts, tokens_fuel (match s with Some q => S (length q) | None => 0%nat end) s = Ok ts.
Proof.
  destruct s as [q|]; [|exists []; reflexivity]. destruct (tokens_spec q) as (us & _ & _ & H & _). eauto.
Qed.
Lemma tokens_fuel_more : forall n m s ts, tokens_fuel n s = Ok ts -> (n <= m)%nat -> tokens_fuel m s = Ok ts.
Proof.
  induction n as [|n IH]; intros m s ts H L; destruct s as [q|]; cbn [tokens_fuel] in H; try discriminate.
  1, 3: destruct m; exact H.
  destruct m as [|m]; [lia|]. cbn [tokens_fuel].
  destruct (get_token (Some q)) as [t s']. destruct (tokens_fuel n s') as [r| | |] eqn:E; cbn [rbind] in H; try discriminate.
  rewrite (IH m _ _ E) by lia. exact H.
Qed.
Lemma has_adapted_ew s : ends_well (has_adapted s).
Proof.
  unfold has_adapted. destruct (get_token (Some s)) as [t e] eqn:E. cbn [snd].
  destruct (tokens_fuel_ok e) as (ts & T). rewrite (tokens_fuel_more _ (S (length s)) _ _ T); [exact I|].
  destruct e as [q|]; [|lia]. apply get_token_len in E. lia.
Qed.
Lemma recog_ew a x nm : ends_well (recog_func_attr a x nm).
Proof.
  unfold recog_func_attr. destruct (dir_beq _ _); [|exact I]. apply ew_bind; [apply get_type_args_ew|].
  intros [[? ?]|] _; try exact I. destruct (same _ _); exact I.
Qed.
Lemma func_lines_ew a nm : forall ls cnt g ad, ends_well (func_lines a nm cnt g ad ls).
Proof.
  induction ls as [|x r IH]; intros; cbn [func_lines]; [exact I|]. destruct r as [|y r']; [exact I|].
  apply ew_bind; [destruct (dir_beq _ _); [apply has_adapted_ew|exact I]|]. intros f _.
  apply ew_bind; [apply recog_ew|]. intros c _. destruct (_ && _); [exact I|].
  apply ew_bind; [apply IH|]. intros [[[? ?] ?] ?] _. exact I.
Qed.
Lemma var_lines_ew a nm : forall n g ls, (length ls <= n)%nat -> ends_well (var_lines a n nm g ls).
Proof.
  induction n as [|n IH]; intros g ls L; destruct ls as [|x r]; try (cbn in L; lia); cbn [var_lines]; try exact I.
  apply ew_bind; [apply variable_start_ew|]. intros [[[e gl] nm2]|] V.
  - apply variable_start_len in V. destruct (negb _); [exact I|]. apply ew_bind; [|intros; exact I].
    apply IH. rewrite skipn_length. cbn [length] in *. lia.
  - destruct (is_data_def _ _); [|exact I]. apply ew_bind; [|intros; exact I]. apply IH. cbn in L. lia.
Qed.
Lemma other_lines_ew a last : forall ls flag, ends_well (other_lines a last flag ls).
Proof.
  induction ls as [|x r IH]; intros; cbn [other_lines]; [exact I|].
  apply ew_bind; [apply starts_block_ew|]. intros b _. destruct b; [exact I|].
  set (flag' := if dir_beq (l_type x) DSection && _ then EIniarr else flag).
  assert (G : ends_well (do q <- other_lines a last flag' r; Ok (S (fst q), snd q))).
  { apply ew_bind; [apply IH|]. intros; exact I. }
  destruct flag'; auto; destruct (dir_beq _ _ && _); auto; destruct last as [b|]; try exact I; destruct (_ && _); auto; exact I.
Qed.
Lemma until_start_ew a : forall ls, ends_well (until_start a ls).
Proof.
  induction ls as [|x r IH]; cbn [until_start]; [exact I|]. apply ew_bind; [apply starts_block_ew|]. intros [] _; [exact I|].
  apply ew_bind; [apply IH|]. intros; exact I.
Qed.
Lemma cblock_add_ew bs b : ends_well (cblock_add bs b).
Proof. unfold cblock_add. destruct (_ && _); exact I. Qed.
Lemma one_block_ew a i bs x r : ends_well (one_block a i bs x r).
Proof.
  unfold one_block. destruct (list_eqb _ _); [exact I|].
  apply ew_bind; [apply function_start_ew|]. intros [f nm] _. cbn [fst snd]. destruct f.
  { apply ew_bind; [apply func_lines_ew|]. intros [[[? ?] ?] ?] _. apply ew_bind; [apply cblock_add_ew|]. intros; exact I. }
  apply ew_bind; [apply variable_start_ew|]. intros [[[? ?] nm2]|] _.
  { apply ew_bind; [apply var_lines_ew; lia|]. intros q _. apply ew_bind; [apply cblock_add_ew|]. intros; exact I. }
  destruct (dir_beq (l_type x) DSet); [apply ew_bind; [apply cblock_add_ew|]; intros; exact I|].
  destruct (dir_beq _ _ || _).
  { destruct (find_by_name _ _); [exact I|]. apply ew_bind; [apply cblock_add_ew|]. intros; exact I. }
  apply ew_bind; [apply other_lines_ew|]. intros [n flag] O.
  destruct flag; cbn [rbind].
  - apply ew_bind; [apply cblock_add_ew|]. intros; exact I.
  - apply ew_bind; [apply until_start_ew|]. intros m _. apply ew_bind; [apply cblock_add_ew|]. intros; exact I.
  - apply other_update in O as [O|(b & O)]; [discriminate|]. destruct (rev bs); [discriminate|exact I].
Qed.
Lemma one_block_len a i bs x r u v bs' : one_block a i bs x r = Ok (u, v, bs') -> (length v <= length r)%nat.
Proof.
  intros H. unfold one_block in H. destruct (list_eqb _ _); [injection H as _ <- _; lia|].
  destruct (is_function_start a (x :: r)) as [[f nm]| | |] eqn:F; cbn [rbind] in H; try discriminate. cbn [fst snd] in H.
  destruct f.
  { destruct (func_lines a (txt nm) 0 false false (x :: r)) as [[[[u' v'] g] ad]| | |] eqn:E; cbn [rbind] in H; try discriminate.
    destruct (cblock_add bs _) as [bs''| | |]; cbn [rbind] in H; try discriminate. injection H as <- <- <-.
    apply func_lines_shape in E as (Nu & w & Ew & K); [|discriminate]. apply kept_length in K.
    assert (length (x :: r) = length (w ++ v')) by now rewrite Ew. rewrite app_length in H. cbn in H.
    destruct u'; [congruence|]. cbn in K. lia. }
  destruct (is_variable_start a (x :: r)) as [vs| | |] eqn:V; cbn [rbind] in H; try discriminate.
  assert (Sk : forall n, (0 < n)%nat -> (length (skipn n (x :: r)) <= length r)%nat) by (intros n Hn; rewrite skipn_length; cbn [length]; lia).
  destruct vs as [[[e g] nm2]|].
  { destruct (var_lines a (length (x :: r)) (txt nm2) false (x :: r)) as [[n gl]| | |] eqn:E; cbn [rbind] in H; try discriminate.
    destruct (cblock_add bs _) as [bs''| | |] eqn:A; cbn [rbind fst snd] in H, A; try discriminate.
    assert (Pos : (0 < n)%nat).
    { cbn [length var_lines] in E. rewrite V in E. cbn [rbind] in E. rewrite same_refl in E. cbn [negb] in E.
      apply variable_start_len in V.
      destruct (var_lines a (length r) (txt nm2) _ (skipn e (x :: r))) as [[k g']| | |]; cbn [rbind] in E; try discriminate.
      injection E as <- _. cbn [fst]. lia. }
    injection H as <- <- <-. auto. }
  assert (SB : starts_block a (x :: r) = Ok false).
  { unfold starts_block. rewrite F. cbn [rbind fst]. rewrite V. reflexivity. }
  destruct (dir_beq (l_type x) DSet).
  { destruct (cblock_add bs _) as [bs''| | |]; cbn [rbind] in H; try discriminate. injection H as <- <- <-. lia. }
  destruct (dir_beq _ _ || _).
  { destruct (find_by_name _ _); [injection H as <- <- <-; lia|].
    destruct (cblock_add bs _) as [bs''| | |]; cbn [rbind] in H; try discriminate. injection H as <- <- <-. lia. }
  destruct (other_lines a _ ENone (x :: r)) as [[n flag]| | |] eqn:O; cbn [rbind] in H; try discriminate.
  pose proof (other_lines_pos _ _ (x :: r) _ _ _ ltac:(discriminate) SB O) as Pos.
  destruct flag.
  - cbn [rbind] in H. destruct (cblock_add bs _) as [bs''| | |]; cbn [rbind] in H; try discriminate. injection H as <- <- <-.
    apply Sk. lia.
  - destruct (until_start a (skipn n (x :: r))) as [m| | |] eqn:U; cbn [rbind] in H; try discriminate.
    destruct (cblock_add bs _) as [bs''| | |]; cbn [rbind] in H; try discriminate. injection H as <- <- <-. apply Sk. lia.
  - destruct (rev bs); [discriminate|]. injection H as <- <- <-. auto.
Qed.
Lemma blocks_from_ew a : forall n i bs ls, (length ls <= n)%nat -> ends_well (blocks_from a n i bs ls).
Proof.
  induction n as [|n IH]; intros i bs ls L; destruct ls as [|x r]; try (cbn in L; lia); cbn [blocks_from]; try exact I.
  apply ew_bind; [apply one_block_ew|]. intros [[u v] bs'] O. apply one_block_len in O. cbn in L.
  apply ew_bind; [apply IH; lia|]. intros; exact I.
Qed.
Theorem cblocks_init_ew a ls : ends_well (cblocks_init a ls).
Proof.
  destruct ls as [|x r]; cbn [cblocks_init]; [exact I|]. apply ew_bind; [apply blocks_from_ew; lia|]. intros; exact I.
Qed.
