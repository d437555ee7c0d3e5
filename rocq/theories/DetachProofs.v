(** Proofs about giving a process back. *)
From Coq Require Import Lia.
From Verif Require Import Base StorageModel DetachModel.
Open Scope list_scope.

Lemma set_same t s k : k_state (set_state t s k) t = s.
Proof. cbn. now rewrite Z.eqb_refl. Qed.
Lemma set_other t s k u : u <> t -> k_state (set_state t s k) u = k_state k u.
Proof. intro H. cbn. destruct (Z.eqb_spec u t); [contradiction|reflexivity]. Qed.
Lemma set_group t s k : k_group (set_state t s k) = k_group k.
Proof. reflexivity. Qed.

(** The leader may be waited for: every other thread is gone, or its context comes
    before, was stopped, and it is dead. *)
Definition leader_ok (a : list ctx) (t : Z) (k : kern) : Prop :=
  match k_group k with
  | l :: r => t = l -> Forall (fun u => k_state k u = Gone \/
                (exists c h, In c a /\ c_pid c = u /\ c_running c = false /\ k_state k u = Dead h)) r
  | [] => True
  end.
Definition ready (a : list ctx) (p : ctx) (k : kern) : Prop :=
  c_running p = false ->
  match k_state k (c_pid p) with
  | Moving _ => False
  | Dead _ => leader_ok a (c_pid p) k
  | _ => True
  end.
Definition result (cs : list ctx) (k k' : kern) : Prop :=
  k_group k' = k_group k /\
  forall t, 
    (forall p, In p cs -> c_pid p = t -> k_state k t = Held -> k_state k' t = Free) /\
    (forall p h, In p cs -> c_pid p = t -> c_running p = false -> k_state k t = Dead h -> k_state k' t = Gone) /\
    ((forall p, In p cs -> c_pid p = t -> k_state k t <> Held /\ (c_running p = false -> forall h, k_state k t <> Dead h)) ->
     k_state k' t = k_state k t).

Lemma leader_not_delayed t k : leader_ok [] t k -> delayed t k = false.
Proof.
  unfold leader_ok, delayed. destruct (k_group k) as [|l r]; [reflexivity|]. intro H.
  destruct (Z.eqb_spec t l) as [e|e]; [|reflexivity]. specialize (H e).
  replace (forallb _ r) with true; [reflexivity|]. symmetry. apply forallb_forall. intros u I.
  rewrite Forall_forall in H. destruct (H u I) as [->|(c & h & [] & _)]. reflexivity.
Qed.

Lemma wait_dead t k h : k_state k t = Dead h -> delayed t k = false -> wait_exit 3 t k = Done (set_state t Gone k).
Proof.
  intros E D. unfold wait_exit. unfold wait_thread at 1. rewrite E, D.
  assert (W : wait_thread t (set_state t Gone k) = Some (None, set_state t Gone k)) by (unfold wait_thread; now rewrite set_same).
  destruct h; rewrite ?W; reflexivity.
Qed.

(** One context *)
Lemma step_detach p r k :
  c_pid p <> 0 -> ready [] p k ->
  exists k1, process_detach (p :: r) k = process_detach r k1 /\ k_group k1 = k_group k /\
    (forall t, t <> c_pid p -> k_state k1 t = k_state k t) /\
    (k_state k (c_pid p) = Held -> k_state k1 (c_pid p) = Free) /\
    (forall h, c_running p = false -> k_state k (c_pid p) = Dead h -> k_state k1 (c_pid p) = Gone) /\
    (k_state k (c_pid p) <> Held -> (c_running p = false -> forall h, k_state k (c_pid p) <> Dead h) ->
     k_state k1 (c_pid p) = k_state k (c_pid p)).
Proof.
  intros NZ R. cbn [process_detach]. unfold detach_thread.
  destruct (Z.eqb_spec (c_pid p) 0) as [e|_]; [contradiction|]. unfold ptrace_detach.
  destruct (k_state k (c_pid p)) as [| |nx|h|] eqn:E.
  - (* Free *) cbn [negb]. exists k. destruct (c_running p) eqn:Rn; cbn [andb negb].
    + repeat split; try congruence.
    + unfold wait_exit, wait_thread. rewrite E. repeat split; congruence.
  - (* Held *) cbn [negb andb]. exists (set_state (c_pid p) Free k). split; [reflexivity|]. split; [reflexivity|].
    split; [intros; now apply set_other|]. split; [intros _; apply set_same|]. split; [congruence|congruence].
  - (* Moving *) exists k. cbn [negb]. destruct (c_running p) eqn:Rn; cbn [andb negb].
    + repeat split; congruence.
    + exfalso. specialize (R Rn). now rewrite E in R.
  - (* Dead *) cbn [negb]. destruct (c_running p) eqn:Rn; cbn [andb negb].
    + exists k. repeat split; try congruence.
    + specialize (R Rn). rewrite E in R. rewrite (wait_dead _ _ h E (leader_not_delayed _ _ R)).
      exists (set_state (c_pid p) Gone k). split; [reflexivity|]. split; [reflexivity|].
      split; [intros; now apply set_other|]. split; [congruence|]. split; [intros; apply set_same|].
      intros _ H. exfalso. now apply (H eq_refl h).
  - (* Gone *) exists k. cbn [negb]. destruct (c_running p) eqn:Rn; cbn [andb negb].
    + repeat split; congruence.
    + unfold wait_exit, wait_thread. rewrite E. repeat split; congruence.
Qed.

Lemma detach_result : forall cs k,
  Forall (fun p => c_pid p <> 0) cs -> NoDup (map c_pid cs) ->
  (forall a p b, cs = a ++ p :: b -> ready a p k) ->
  exists k', process_detach cs k = Done k' /\ result cs k k'.
Proof.
  induction cs as [|p r IH]; intros k NZ ND RD.
  - exists k. split; [reflexivity|]. split; [reflexivity|]. intro t. repeat split; intros; try contradiction; reflexivity.
  - inversion NZ as [|? ? NZp NZr]; subst. cbn [map] in ND. inversion ND as [|? ? Ni NDr]; subst.
    destruct (step_detach p r k NZp (RD [] p r eq_refl)) as (k1 & E & G & Oth & Hh & Hd & Hk).
    assert (NEQ : forall q, In q r -> c_pid q <> c_pid p) by (intros q I e; apply Ni; rewrite <- e; now apply in_map).
    destruct (IH k1 NZr NDr) as (k' & E' & G' & R').
    { intros a q b ->. intro Rn. specialize (RD (p :: a) q b eq_refl Rn).
      assert (Nq : c_pid q <> c_pid p) by (apply NEQ; apply in_or_app; right; now left).
      rewrite (Oth _ Nq). destruct (k_state k (c_pid q)); try exact RD.
      unfold leader_ok in *. rewrite G. destruct (k_group k) as [|l rest]; [exact I|]. intro e. specialize (RD e).
      eapply Forall_impl; [|exact RD]. cbn. intros u [Hg|(c & h & [<-|I] & Hp & Hr & Hs)].
      - left. destruct (Z.eq_dec u (c_pid p)) as [->|N]; [|now rewrite Oth].
        rewrite Hk; [exact Hg| |]; intros; rewrite Hg; discriminate.
      - left. subst u. now apply (Hd h).
      - right. exists c, h. repeat split; try assumption. rewrite Oth; [exact Hs|]. subst u. apply NEQ. apply in_or_app. now left. }
    exists k'. split; [now rewrite E|]. split; [congruence|]. intro t. destruct (R' t) as (R1 & R2 & R3).
    assert (NOT : t = c_pid p -> k_state k' t = k_state k1 t).
    { intros ->. apply R3. intros q I e. exfalso. now apply (NEQ q I). }
    split; [|split].
    + intros q [<-|I] e S.
      * rewrite NOT by congruence. subst t. now apply Hh.
      * apply (R1 q I e). rewrite Oth; [exact S|]. subst t. now apply NEQ.
    + intros q h [<-|I] e Rn S.
      * rewrite NOT by congruence. subst t. now apply (Hd h).
      * apply (R2 q h I e Rn). rewrite Oth; [exact S|]. subst t. now apply NEQ.
    + intro H. destruct (Z.eq_dec t (c_pid p)) as [e|N].
      * rewrite NOT by exact e. subst t. destruct (H p (or_introl eq_refl) eq_refl) as (A & B). now apply Hk.
      * rewrite R3; [now apply Oth|]. intros q I e. rewrite Oth by exact N. apply (H q); [now right|exact e].
Qed.

(** A leader that is dead while another thread of the process is still to be waited for *)
Lemma detach_leader_hangs p r k l rest h u :
  k_group k = l :: rest -> c_pid p = l -> l <> 0 -> c_running p = false -> k_state k l = Dead h ->
  In u rest -> k_state k u <> Gone -> process_detach (p :: r) k = Hangs.
Proof.
  intros G E NZ Rn S I N. cbn [process_detach]. unfold detach_thread. rewrite E.
  destruct (Z.eqb_spec l 0); [contradiction|]. unfold ptrace_detach. rewrite S. rewrite Rn. cbn [negb andb].
  assert (D : delayed l k = true).
  { unfold delayed. rewrite G, Z.eqb_refl. cbn [andb]. apply Bool.negb_true_iff.
    destruct (forallb _ rest) eqn:F; [|reflexivity]. rewrite forallb_forall in F. specialize (F u I). cbn in F.
    destruct (k_state k u); try discriminate. now contradiction N. }
  unfold wait_exit, wait_thread. rewrite S, D. reflexivity.
Qed.
(** A context that is thought stopped while the thread moves *)
Lemma detach_moving_hangs p r k s :
  c_pid p <> 0 -> c_running p = false -> k_state k (c_pid p) = Moving (Some (WStopped s)) \/ k_state k (c_pid p) = Moving None ->
  process_detach (p :: r) k = Hangs.
Proof.
  intros NZ Rn H. cbn [process_detach]. unfold detach_thread. destruct (Z.eqb_spec (c_pid p) 0); [contradiction|].
  unfold ptrace_detach. destruct H as [H|H]; rewrite H, Rn; cbn [negb andb].
  - unfold wait_exit. unfold wait_thread at 1. rewrite H. unfold wait_thread. rewrite set_same. reflexivity.
  - unfold wait_exit, wait_thread. rewrite H. reflexivity.
Qed.

(** ** Attaching and giving back *)
Definition att_inv (k0 : kern) (cs : list ctx) (k : kern) : Prop :=
  k_group k = k_group k0 /\ Forall (fun p => c_pid p <> 0) cs /\ NoDup (map c_pid cs) /\
  (forall p, In p cs -> c_running p = true -> k_state k0 (c_pid p) <> Held /\ k_state k (c_pid p) = k_state k0 (c_pid p)) /\
  (forall p, In p cs -> c_running p = false -> k_state k0 (c_pid p) = Free /\ k_state k (c_pid p) = Held) /\
  (forall t, ~ In t (map c_pid cs) -> k_state k t = k_state k0 t).

Lemma NoDup_snoc_ctx (l : list Z) x : NoDup l -> ~ In x l -> NoDup (l ++ [x]).
Proof.
  induction l as [|y l IH]; intros ND NI; cbn; [constructor; [easy|constructor]|].
  inversion ND; subst. constructor.
  - intro I. apply in_app_or in I. destruct I as [I|[<-|[]]]; [contradiction|]. apply NI. now left.
  - apply IH; [assumption|]. intro I. apply NI. now right.
Qed.

Lemma attach_all_inv k0 : forall ts cs k ok cs' k',
  Forall (fun t => t <> 0 /\ k_state k0 t <> Held) ts -> att_inv k0 cs k ->
  attach_all (fun _ => true) ts cs k = (ok, cs', k') ->
  att_inv k0 cs' k' /\ (ok = true -> forall t, In t ts -> In t (map c_pid cs')) /\ incl (map c_pid cs) (map c_pid cs').
Proof.
  induction ts as [|t r IH]; intros cs k ok cs' k' F V E; cbn [attach_all] in E.
  - injection E as <- <- <-. split; [exact V|]. split; [easy|apply incl_refl].
  - inversion F as [|? ? (NZ & NH) Fr]; subst.
    destruct (existsb (fun c => c_pid c =? t) cs) eqn:X.
    + destruct (IH _ _ _ _ _ Fr V E) as (A & B & C). split; [exact A|]. split; [|exact C].
      intros Ho u [<-|I]; [|now apply B]. apply C. apply existsb_exists in X. destruct X as (c & I & e).
      apply Z.eqb_eq in e. rewrite <- e. now apply in_map.
    + assert (NI : ~ In t (map c_pid cs)).
      { intro I. apply in_map_iff in I. destruct I as (c & e & I). rewrite <- Bool.not_true_iff_false in X. apply X.
        apply existsb_exists. exists c. split; [exact I|]. now apply Z.eqb_eq. }
      destruct V as (G & NZs & ND & Vr & Vh & Vo).
      assert (S : k_state k t = k_state k0 t) by now apply Vo.
      assert (OLD : forall p, In p cs -> c_pid p <> t) by (intros p I e; apply NI; rewrite <- e; now apply in_map).
      assert (MK : forall b s, (b = true -> s = k_state k0 t) -> (b = false -> k_state k0 t = Free /\ s = Held) ->
                att_inv k0 (cs ++ [{| c_pid := t; c_running := b |}]) (set_state t s k)).
      { intros b s H1 H2. split; [exact G|]. split; [apply Forall_app; split; [exact NZs|now constructor]|].
        split; [rewrite map_app; now apply NoDup_snoc_ctx|]. split; [|split].
        - intros p I Rn. apply in_app_or in I. destruct I as [I|[<-|[]]].
          + rewrite set_other by now apply OLD. now apply Vr.
          + cbn [c_pid c_running] in *. rewrite set_same. split; [exact NH|now apply H1].
        - intros p I Rn. apply in_app_or in I. destruct I as [I|[<-|[]]].
          + rewrite set_other by now apply OLD. now apply Vh.
          + cbn [c_pid c_running] in *. rewrite set_same. now apply H2.
        - intros u I. rewrite map_app in I. rewrite set_other; [|intros ->; apply I; apply in_or_app; right; now left].
          apply Vo. intro J. apply I. apply in_or_app. now left. }
      assert (MK' : k_state k0 t <> Free -> att_inv k0 (cs ++ [{| c_pid := t; c_running := true |}]) k).
      { intros _. split; [exact G|]. split; [apply Forall_app; split; [exact NZs|now constructor]|].
        split; [rewrite map_app; now apply NoDup_snoc_ctx|]. split; [|split].
        - intros p I Rn. apply in_app_or in I. destruct I as [I|[<-|[]]]; [now apply Vr|]. cbn [c_pid]. now split.
        - intros p I Rn. apply in_app_or in I. destruct I as [I|[<-|[]]]; [now apply Vh|]. discriminate.
        - intros u I. rewrite map_app in I. apply Vo. intro J. apply I. apply in_or_app. now left. }
      assert (INC : forall b, incl (map c_pid cs) (map c_pid (cs ++ [{| c_pid := t; c_running := b |}])))
        by (intro b; rewrite map_app; apply incl_appl, incl_refl).
      unfold attach_thread in E. rewrite S in E. destruct (k_state k0 t) eqn:K.
      * cbn [fst snd] in E.
        destruct (IH _ _ _ _ _ Fr (MK false Held ltac:(easy) ltac:(easy)) E) as (A & B & C). split; [exact A|]. split.
        -- intros Ho u [<-|I]; [|now apply B]. apply C. rewrite map_app. apply in_or_app. right. now left.
        -- intros u I. apply C. now apply (INC false).
      * contradiction NH; reflexivity.
      * injection E as <- <- <-. split; [apply MK'; congruence|]. split; [discriminate|apply INC].
      * injection E as <- <- <-. split; [apply MK'; congruence|]. split; [discriminate|apply INC].
      * injection E as <- <- <-. split; [apply MK'; congruence|]. split; [discriminate|apply INC].
Qed.

Lemma attach_detach_same k0 ts ok cs k :
  Forall (fun t => t <> 0 /\ k_state k0 t <> Held) ts ->
  attach_all (fun _ => true) ts [] k0 = (ok, cs, k) ->
  (ok = true -> forall t, In t ts -> k_state k0 t = Free -> k_state k t = Held) /\
  exists k', process_detach cs k = Done k' /\ forall t, k_state k' t = k_state k0 t.
Proof.
  intros F E. destruct (attach_all_inv k0 ts [] k0 ok cs k F) with (2 := E) as ((G & NZ & ND & Vr & Vh & Vo) & B & _).
  { split; [reflexivity|]. split; [constructor|]. split; [constructor|]. repeat split; try contradiction; intros; contradiction. }
  split.
  - intros Ho t I Fr. specialize (B Ho t I). apply in_map_iff in B. destruct B as (p & e & Ip).
    destruct (c_running p) eqn:Rn.
    + (* a context left running means the loop had failed there *)
      exfalso. clear - E Ho Ip Rn. subst ok.
      assert (H : forall ts cs0 k0, attach_all (fun _ => true) ts cs0 k0 = (true, cs, k) -> Forall (fun c => c_running c = false) cs0 -> Forall (fun c => c_running c = false) cs).
      { clear. induction ts as [|t r IH]; intros cs0 k0 E F; cbn [attach_all] in E; [injection E as <- <-; exact F|].
        destruct (existsb _ cs0); [now apply (IH _ _ E)|]. unfold attach_thread in E.
        destruct (k_state k0 t); try discriminate E. apply (IH _ _ E). apply Forall_app. split; [exact F|now constructor]. }
      specialize (H _ _ _ E (Forall_nil _)). rewrite Forall_forall in H. specialize (H p Ip). congruence.
    + subst t. now apply (Vh p Ip Rn).
  - destruct (detach_result cs k NZ ND) as (k' & D & _ & R).
    { intros a p b ->. intro Rn. assert (I : In p (a ++ p :: b)) by (apply in_or_app; right; now left).
      destruct (Vh p I Rn) as (_ & ->). exact Logic.I. }
    exists k'. split; [exact D|]. intro t. destruct (R t) as (R1 & _ & R3).
    destruct (in_dec Z.eq_dec t (map c_pid cs)) as [I|NI].
    + apply in_map_iff in I. destruct I as (p & <- & I). destruct (c_running p) eqn:Rn.
      * destruct (Vr p I Rn) as (NH & e). rewrite R3; [exact e|]. intros q Iq eq. rewrite e. split; [exact NH|].
        intro Rq. destruct (Vh q Iq Rq) as (Z1 & Z2). rewrite eq in Z2. congruence.
      * destruct (Vh p I Rn) as (e & H). rewrite e. now apply (R1 p I eq_refl).
    + rewrite R3; [now apply Vo|]. intros p I e. exfalso. apply NI. rewrite <- e. now apply in_map.
Qed.

(** ** Listing threads *)
Definition shown (names : list (list Z)) : list (list Z) :=
  filter (fun d => negb (match d with c :: _ => c =? 46 | [] => false end)) names.

Lemma store_in a i x : (i < a_size a)%nat -> (i <= List.length (a_data a))%nat -> 
  exists a', store a i x = Some a' /\ a_size a' = a_size a /\ firstn (S i) (a_data a') = firstn i (a_data a) ++ [x] /\
             (S i <= List.length (a_data a'))%nat.
Proof.
  intros L D. unfold store. apply Nat.ltb_lt in L. rewrite L. eexists. split; [reflexivity|]. cbn [a_size a_data].
  assert (F : List.length (firstn i (a_data a)) = i) by (rewrite firstn_length; lia).
  split; [reflexivity|]. split.
  - rewrite firstn_app, F. replace (S i - i)%nat with 1%nat by lia. rewrite firstn_all2 by lia. reflexivity.
  - rewrite app_length, F. cbn [List.length]. lia.
Qed.

Lemma list_loop_spec : forall names alive a n alloc,
  a_size a = alloc -> (n <= alloc)%nat -> (n <= List.length (a_data a))%nat ->
  match list_loop names alive a n alloc with
  | LOk a' n' alloc' =>
      a_size a' = alloc' /\ n' = (n + List.length (shown names))%nat /\ (n' <= alloc')%nat /\
      firstn n' (a_data a') = firstn n (a_data a) ++ map atoi (shown names) /\
      (alloc' <= Nat.max alloc (2 * n'))%nat
  | LFail => In false alive
  | LOutside => False
  end.
Proof.
  induction names as [|d r IH]; intros alive a n alloc A N D; cbn [list_loop].
  - cbn. rewrite Nat.add_0_r, app_nil_r. repeat split; try assumption. lia.
  - unfold shown. cbn [filter]. destruct (match d with c :: _ => c =? 46 | [] => false end); cbn [negb]; [now apply IH|].
    fold (shown r). cbn [map List.length].
    assert (STEP : forall a1 alive1 alloc1, a_size a1 = alloc1 -> a_data a1 = a_data a -> (n < alloc1)%nat -> (alloc1 <= Nat.max alloc (2 * S n))%nat ->
              (In false alive1 -> In false alive) ->
              match (match store a1 n (atoi d) with Some a'' => list_loop r alive1 a'' (S n) alloc1 | None => LOutside end) with
              | LOk a' n' alloc' =>
                  a_size a' = alloc' /\ n' = (n + S (List.length (shown r)))%nat /\ (n' <= alloc')%nat /\
                  firstn n' (a_data a') = firstn n (a_data a) ++ atoi d :: map atoi (shown r) /\
                  (alloc' <= Nat.max alloc (2 * n'))%nat
              | LFail => In false alive
              | LOutside => False
              end).
    { intros a1 alive1 alloc1 S1 D1 L1 M1 V1.
      destruct (store_in a1 n (atoi d)) as (a2 & E2 & S2 & F2 & L2); [lia|rewrite D1; lia|]. rewrite E2.
      specialize (IH alive1 a2 (S n) alloc1 ltac:(congruence) ltac:(lia) L2).
      destruct (list_loop r alive1 a2 (S n) alloc1) as [a' n' al'| |]; [|now apply V1|exact IH].
      destruct IH as (I1 & I2 & I3 & I4 & I5). split; [exact I1|]. split; [lia|]. split; [exact I3|]. split; [|lia].
      rewrite I4, F2, D1, <- app_assoc. reflexivity. }
    destruct (Nat.leb_spec alloc n) as [L|L].
    + assert (n = alloc) by lia. subst n.
      assert (G : (alloc < match alloc with O => 1 | _ => alloc * 2 end)%nat) by (destruct alloc; lia).
      assert (G' : (match alloc with O => 1 | _ => alloc * 2 end <= Nat.max alloc (2 * S alloc))%nat) by (destruct alloc; lia).
      destruct alive as [|[] v].
      * apply STEP; try reflexivity; try assumption. easy.
      * apply STEP; try reflexivity; try assumption. intro. now right.
      * now left.
    + apply STEP; try assumption; try reflexivity; [lia|easy].
Qed.

(** Three turns of the loop around waitpid are enough. *)
Lemma wait_exit_turns n t k : wait_exit (3 + n) t k = wait_exit 3 t k.
Proof.
  assert (W : forall s m, (s = Free \/ s = Gone) -> wait_exit (S m) t (set_state t s k) = Done (set_state t s k)).
  { intros s m H. cbn [wait_exit]. unfold wait_thread. rewrite set_same. now destruct H; subst s. }
  assert (H : forall m, wait_exit (S m) t (set_state t Held k) = Hangs).
  { intro m. cbn [wait_exit]. unfold wait_thread. now rewrite set_same. }
  change (3 + n)%nat with (S (S (S n))). unfold wait_exit at 2. change 3%nat with (S (S 1)).
  remember (S n) as n1. remember 1%nat as m1. cbn [wait_exit]. subst n1 m1.
  unfold wait_thread. destruct (k_state k t) as [| |[[]|]|[]|]; try reflexivity;
    try (destruct (delayed t k); [reflexivity|]); cbn -[set_state]; rewrite ?set_same; reflexivity.
Qed.

Lemma attach_all_free : forall ts cs k,
  NoDup ts -> Forall (fun t => k_state k t = Free) ts -> (forall t, In t ts -> ~ In t (map c_pid cs)) ->
  exists k', attach_all (fun _ => true) ts cs k =
     (true, cs ++ map (fun t => {| c_pid := t; c_running := false |}) ts, k') /\ k_group k' = k_group k /\
     (forall t, In t ts -> k_state k' t = Held) /\ (forall t, ~ In t ts -> k_state k' t = k_state k t).
Proof.
  induction ts as [|t r IH]; intros cs k ND F NI; cbn [attach_all map].
  - exists k. rewrite app_nil_r. repeat split; easy.
  - inversion ND as [|? ? Nt NDr]; subst. inversion F as [|? ? Ft Fr]; subst.
    replace (existsb _ cs) with false.
    2:{ symmetry. apply Bool.not_true_iff_false. intro X. apply existsb_exists in X. destruct X as (c & I & e).
        apply Z.eqb_eq in e. apply (NI t (or_introl eq_refl)). rewrite <- e. now apply in_map. }
    unfold attach_thread. rewrite Ft.
    destruct (IH (cs ++ [{| c_pid := t; c_running := false |}]) (set_state t Held k)) as (k' & E & G & H1 & H2).
    + exact NDr.
    + rewrite Forall_forall in *. intros u I. rewrite set_other; [now apply Fr|]. intros ->. contradiction.
    + intros u I J. rewrite map_app in J. apply in_app_or in J. destruct J as [J|[J|[]]].
      * apply (NI u); [now right|exact J].
      * cbn in J. subst u. contradiction.
    + exists k'. rewrite E, <- app_assoc. split; [reflexivity|]. split; [rewrite G; reflexivity|]. split.
      * intros u [<-|I]; [|now apply H1]. rewrite H2 by exact Nt. apply set_same.
      * intros u N. rewrite H2 by (intro; apply N; now right). apply set_other. intros ->. apply N. now left.
Qed.

Lemma killed_held_hangs k0 l u rest :
  k_group k0 = l :: u :: rest -> NoDup (l :: u :: rest) -> l <> 0 ->
  Forall (fun t => k_state k0 t = Free) (l :: u :: rest) ->
  exists cs k, attach_all (fun _ => true) (l :: u :: rest) [] k0 = (true, cs, k) /\ process_detach cs (killed k) = Hangs.
Proof.
  intros G ND NZ F. destruct (attach_all_free (l :: u :: rest) [] k0 ND F ltac:(easy)) as (k & E & G' & H & _).
  eexists _, k. split; [exact E|]. cbn [app map].
  assert (K : forall t, In t (l :: u :: rest) -> k_state (killed k) t = Dead (WSignaled 9)).
  { intros t I. unfold killed. cbn [k_state]. rewrite G', G. rewrite (H t I).
    replace (existsb (Z.eqb t) _) with true; [reflexivity|]. symmetry. apply existsb_exists. exists t. split; [exact I|apply Z.eqb_refl]. }
  apply (detach_leader_hangs _ _ _ l (u :: rest) (WSignaled 9) u); try reflexivity; try assumption.
  - cbn. now rewrite G'.
  - apply K. now left.
  - now left.
  - rewrite K by (right; now left). discriminate.
Qed.
