From Verif Require Import Base BaseProofs ServModel ServSpec.

Definition bholds (b : msgbuf) (a : Z) (bs : list Z) : Prop :=
  forall i x, nth_error bs i = Some x -> b (a + Z.of_nat i) = Some x.

Lemma bholds_app b a xs ys : bholds b a (xs ++ ys) <-> bholds b a xs /\ bholds b (a + zlen xs) ys.
Proof.
  unfold bholds. split.
  - intros H. split; intros i x E.
    + apply H. rewrite nth_error_app1; [exact E|]. apply nth_error_Some. congruence.
    + replace (a + zlen xs + Z.of_nat i) with (a + Z.of_nat (length xs + i)) by (unfold zlen; lia).
      apply H. rewrite nth_error_app2 by lia. replace (length xs + i - length xs)%nat with i by lia.
      exact E.
  - intros [H1 H2] i x E. destruct (Nat.lt_ge_cases i (length xs)) as [L|L].
    + apply H1. rewrite nth_error_app1 in E by exact L. exact E.
    + rewrite nth_error_app2 in E by exact L. specialize (H2 _ _ E).
      replace (a + zlen xs + Z.of_nat (i - length xs)) with (a + Z.of_nat i) in H2
        by (unfold zlen; lia).
      exact H2.
Qed.
Lemma bholds_cons b a x xs : bholds b a (x :: xs) <-> b a = Some x /\ bholds b (a + 1) xs.
Proof.
  change (x :: xs) with ([x] ++ xs). rewrite bholds_app. change (zlen [x]) with 1.
  split; intros [H1 H2]; (split; [|exact H2]).
  - specialize (H1 0%nat x eq_refl). cbn in H1. rewrite Z.add_0_r in H1. exact H1.
  - intros [|[|i]] y E; try discriminate. injection E as <-. cbn. rewrite Z.add_0_r. exact H1.
Qed.
Lemma store_same b a xs : bholds (msg_store b a xs) a xs.
Proof.
  intros i x E. assert (L : (i < length xs)%nat) by (apply nth_error_Some; congruence).
  unfold msg_store. replace ((a <=? a + Z.of_nat i) && (a + Z.of_nat i <? a + zlen xs)) with true
    by (unfold zlen; lia).
  replace (Z.to_nat (a + Z.of_nat i - a)) with i by lia. f_equal. apply nth_error_nth, E.
Qed.
Lemma store_other b a xs c ys : bholds b c ys -> c + zlen ys <= a -> bholds (msg_store b a xs) c ys.
Proof.
  intros H L i y E. assert (Li : (i < length ys)%nat) by (apply nth_error_Some; congruence).
  unfold msg_store. unfold zlen in *.
  destruct (Z.leb_spec a (c + Z.of_nat i)); [lia|]. cbn [andb]. apply H, E.
Qed.

(** ** The end of a message *)

Lemma encode_cons a args : encode (a :: args) = a ++ 0 :: encode args.
Proof. unfold encode. cbn [flat_map]. rewrite <- !app_assoc. reflexivity. Qed.

Lemma encode_zz args x y : Forall arg_ok args -> encode args = x ++ 0 :: 0 :: y -> y = [].
Proof.
  revert x. induction args as [|a args IH]; intros x F E.
  - destruct x as [|? [|]]; discriminate.
  - inversion F as [|? ? [N P] F']; subst. rewrite encode_cons in E.
    assert (G : forall a x, Forall (fun v => 0 < v) a -> a ++ 0 :: encode args = x ++ 0 :: 0 :: y ->
                exists x', encode args = x' ++ 0 :: 0 :: y \/ (x' = [] /\ encode args = 0 :: y)).
    { clear. induction a as [|c a IHa]; intros x Fa E.
      - destruct x as [|d x]; cbn [app] in E.
        + injection E as E. exists []. right. auto.
        + injection E as _ E. exists x. left. exact E.
      - inversion Fa; subst. destruct x as [|d x]; cbn [app] in E.
        + injection E as E _. lia.
        + injection E as _ E. exact (IHa x H2 E). }
    destruct (G a x P E) as [x' [E'|[_ E']]]; [exact (IH x' F' E')|].
    destruct args as [|a2 args]; [cbn in E'; congruence|]. exfalso.
    inversion F' as [|? ? [N2 P2] _]; subst. rewrite encode_cons in E'.
    destruct a2 as [|c a2]; [congruence|]. cbn [app] in E'. injection E' as Ec _.
    inversion P2; subst. lia.
Qed.

Lemma encode_len args : Forall arg_ok args -> args <> [] -> 3 <= zlen (encode args).
Proof.
  intros F N. destruct args as [|a args]; [congruence|]. rewrite encode_cons.
  inversion F as [|? ? [Na _] _]; subst. destruct a as [|c a]; [congruence|].
  unfold encode. rewrite !zlen_app, !zlen_cons, zlen_app. change (zlen [0]) with 1.
  pose proof (zlen_nonneg a). pose proof (zlen_nonneg (flat_map (fun a => a ++ [0]) args)). lia.
Qed.

Lemma encode_end args : Forall arg_ok args -> args <> [] -> exists x, encode args = x ++ [0; 0].
Proof.
  intros _ N. unfold encode. destruct (@exists_last _ args N) as (l & a & ->).
  rewrite flat_map_app. cbn [flat_map app]. rewrite app_nil_r. exists (flat_map (fun a => a ++ [0]) l ++ a).
  rewrite <- !app_assoc. reflexivity.
Qed.

(** ** The receiving loop *)

Lemma again_prefix b got : bholds b 0 got -> zlen got < MSG_SIZE ->
  again b (zlen got) = Some (negb (match rev got with 0 :: 0 :: _ => true | _ => false end)).
Proof.
  intros H L. pose proof (zlen_nonneg got). unfold again. unfold MSG_SIZE in *.
  rewrite u64_small by lia. replace (zlen got <? 4096) with true by lia. cbn [negb].
  destruct (Z.ltb_spec (zlen got) 2) as [L2|L2].
  - destruct (rev got) as [|z [|z2 r]] eqn:E; [reflexivity|destruct z; reflexivity|].
    exfalso. apply (f_equal (@length Z)) in E. rewrite rev_length in E. unfold zlen in L2.
    cbn [length] in E. lia.
  - destruct (rev got) as [|y [|x r]] eqn:E;
      try (apply (f_equal (@length Z)) in E; rewrite rev_length in E; unfold zlen in L2;
           cbn [length] in E; lia).
    assert (Eg : got = rev r ++ [x; y]).
    { rewrite <- (rev_involutive got), E. cbn [rev]. rewrite <- app_assoc. reflexivity. }
    rewrite Eg in H |- *. apply bholds_app in H as [_ H]. cbn [Z.add] in H.
    rewrite zlen_app. change (zlen [x; y]) with 2.
    rewrite !bholds_cons in H. destruct H as (Hx & Hy & _).
    replace (zlen (rev r) + 2 - 2) with (zlen (rev r)) by lia.
    replace (zlen (rev r) + 2 - 1) with (zlen (rev r) + 1) by lia.
    rewrite Hx, Hy. f_equal. destruct (Z.eqb_spec x 0) as [->|Nx];
      destruct (Z.eqb_spec y 0) as [->|Ny]; try reflexivity; cbn.
    + destruct y; try reflexivity. congruence.
    + destruct x; try reflexivity. congruence.
    + destruct y; try reflexivity. congruence.
Qed.

Lemma recv_spec args : Forall arg_ok args -> args <> [] -> zlen (encode args) < MSG_SIZE ->
  forall s evs, arrives s evs -> s <> [] -> forall got b rest, encode args = got ++ s ->
  bholds b 0 got ->
  exists b', recv_loop (evs ++ rest) b (zlen got) = LDone b' (zlen (encode args)) /\
             bholds b' 0 (encode args).
Proof.
  intros F N L s evs A. induction A as [|s evs A IH|bs s evs Nb A IH]; intros Ns got b rest E H.
  - congruence.
  - cbn [app recv_loop].
    assert (Lg : zlen got < MSG_SIZE).
    { rewrite E, zlen_app in L. pose proof (zlen_nonneg s). lia. }
    rewrite (again_prefix b got H Lg).
    destruct (rev got) as [|y [|x r]] eqn:Er; [| |destruct y as [|y|y]; [destruct x as [|x|x]|..]];
      try (cbn [negb]; apply (IH Ns got b rest E H));
      try (destruct y; cbn [negb]; apply (IH Ns got b rest E H)).
    exfalso. assert (Eg : got = rev r ++ [0; 0]).
    { rewrite <- (rev_involutive got), Er. cbn [rev]. rewrite <- app_assoc. reflexivity. }
    rewrite Eg, <- app_assoc in E. apply (encode_zz args (rev r) s F) in E. congruence.
  - assert (Lb : zlen got + zlen bs < MSG_SIZE).
    { rewrite E, !zlen_app in L. pose proof (zlen_nonneg s). lia. }
    assert (Fb : firstn (Z.to_nat (MSG_SIZE - zlen got)) bs = bs).
    { apply firstn_all2. unfold zlen in *. lia. }
    pose proof (zlen_nonneg got) as Ng. pose proof (zlen_nonneg bs) as Nbs.
    cbn [app recv_loop]. destruct bs as [|b0 bs0]; [congruence|]. set (bs := b0 :: bs0) in *.
    rewrite Fb. replace ((zlen got <? 0) || (MSG_SIZE <? zlen got + zlen bs)) with false by lia.
    assert (H' : bholds (msg_store b (zlen got) bs) 0 (got ++ bs)).
    { apply bholds_app. split; [apply store_other; [exact H|lia]|]. cbn. apply store_same. }
    rewrite <- zlen_app in Lb |- *. rewrite (again_prefix _ _ H' Lb).
    destruct (list_eq_dec Z.eq_dec s []) as [->|Ns'].
    + rewrite app_nil_r in E. destruct (encode_end args F N) as [x Ex].
      rewrite <- E, Ex, rev_app_distr. cbn [rev app negb]. eexists. split; [reflexivity|].
      rewrite <- Ex, E. exact H'.
    + rewrite app_assoc in E.
      assert (Z : (match rev (got ++ bs) with 0 :: 0 :: _ => true | _ => false end) = false).
      { destruct (rev (got ++ bs)) as [|y [|x r]] eqn:Er; try reflexivity;
          try (destruct y; reflexivity).
        destruct y; try reflexivity. destruct x; try reflexivity. exfalso.
        assert (Eg : got ++ bs = rev r ++ [0; 0]).
        { rewrite <- (rev_involutive (got ++ bs)), Er. cbn [rev]. rewrite <- app_assoc. reflexivity. }
        rewrite Eg, <- app_assoc in E. apply (encode_zz args (rev r) s F) in E. congruence. }
      rewrite Z. cbn [negb]. exact (IH Ns' (got ++ bs) _ rest E H').
Qed.

(** ** Splitting *)

(** Positions of the arguments that follow one ending before [p]. *)
Fixpoint starts (p : Z) (args : list (list Z)) : list Z :=
  match args with [] => [] | a :: r => p :: starts (p + zlen a + 1) r end.

Lemma scan_spec b off : forall f t p args argv,
  Forall (fun x => 0 < x) t -> Forall arg_ok args ->
  bholds b p (t ++ 0 :: encode args) -> p + zlen t + 1 + zlen (encode args) = off ->
  (Z.to_nat (off - p) < f)%nat -> zlen argv + zlen args <= ARGV_SIZE ->
  scan f b off p argv = Some (Some (argv ++ starts (p + zlen t + 1) args)).
Proof.
  induction f as [|f IH]; intros t p args argv Ft Fa H Off Fu Ar; [lia|].
  cbn [scan]. pose proof (zlen_nonneg t) as Nt. pose proof (zlen_nonneg (encode args)) as Ne.
  replace (p <? off) with true by lia. cbn [andb].
  destruct (Z.ltb_spec (zlen argv) ARGV_SIZE) as [La|La].
  2:{ pose proof (zlen_nonneg args). destruct args as [|a0 args]; [cbn [starts]; rewrite app_nil_r; reflexivity|].
      rewrite zlen_cons in Ar. pose proof (zlen_nonneg args). lia. }
  destruct t as [|c t].
  - cbn [app] in H. apply bholds_cons in H as [H0 H]. rewrite H0. cbn [Z.eqb negb].
    replace (ARGV_SIZE <=? zlen argv) with false by lia.
    change (zlen (@nil Z)) with 0 in *.
    destruct args as [|a args].
    + cbn in H. apply bholds_cons in H as [H1 _]. rewrite H1. cbn [Z.eqb starts].
      rewrite app_nil_r. reflexivity.
    + inversion Fa as [|? ? [Na Pa] Fa']; subst. destruct a as [|c a]; [congruence|].
      rewrite encode_cons in H. cbn [app] in H. apply bholds_cons in H as [H1 H].
      inversion Pa as [|? ? Pc Pa']; subst. rewrite H1. replace (c =? 0) with false by lia.
      rewrite encode_cons, zlen_app, !zlen_cons in *.
      rewrite (IH a (p + 2) args (argv ++ [p + 1])); try assumption.
      * rewrite <- app_assoc. cbn [app starts]. rewrite zlen_cons.
        replace (p + 0 + 1) with (p + 1) by lia.
        replace (p + 1 + (1 + zlen a) + 1) with (p + 2 + zlen a + 1) by lia. reflexivity.
      * replace (p + 2) with (p + 1 + 1) by lia. exact H.
      * lia.
      * lia.
      * rewrite zlen_app. change (zlen [p + 1]) with 1. lia.
  - inversion Ft as [|? ? Pc Ft']; subst. cbn [app] in H. apply bholds_cons in H as [H0 H].
    rewrite H0. replace (c =? 0) with false by lia. cbn [negb].
    rewrite zlen_cons in *. rewrite (IH t (p + 1) args argv); try assumption; try lia.
    do 3 f_equal. f_equal. lia.
Qed.

Lemma msg_str_spec b a : forall f p r, Forall (fun x => 0 < x) a -> bholds b p (a ++ 0 :: r) ->
  (length a < f)%nat -> msg_str f b p = Some a.
Proof.
  induction a as [|c a IH]; intros f p r F H L; destruct f as [|f]; cbn [length] in L; try lia.
  - cbn [app] in H. apply bholds_cons in H as [H _]. cbn [msg_str]. rewrite H. reflexivity.
  - inversion F; subst. cbn [app] in H. apply bholds_cons in H as [H0 H]. cbn [msg_str].
    rewrite H0. replace (c =? 0) with false by lia. rewrite (IH f (p + 1) r); auto. lia.
Qed.

Lemma msg_strs_spec b : forall args p, Forall arg_ok args -> bholds b p (encode args) -> 0 <= p ->
  p + zlen (encode args) <= MSG_SIZE -> msg_strs b (starts p args) = Some args.
Proof.
  induction args as [|a args IH]; intros p F H P0 L; [reflexivity|].
  inversion F as [|? ? [Na Pa] F']; subst. rewrite encode_cons in H, L.
  pose proof (zlen_nonneg a). pose proof (zlen_nonneg (encode args)).
  rewrite zlen_app, zlen_cons in L. cbn [starts msg_strs].
  rewrite (msg_str_spec b a _ p (encode args) Pa H) by (unfold zlen in *; lia).
  apply bholds_app in H as [_ H]. apply bholds_cons in H as [_ H].
  rewrite (IH (p + zlen a + 1) F' H) by lia. reflexivity.
Qed.

Lemma delivered args evs rest : Forall arg_ok args -> args <> [] ->
  zlen args <= ARGV_SIZE -> zlen (encode args) < MSG_SIZE -> arrives (encode args) evs ->
  handle_client (evs ++ rest) = HExec args.
Proof.
  intros F N A L Ar. unfold handle_client.
  assert (Ne : encode args <> []).
  { intros E. pose proof (encode_len args F N). rewrite E in H. cbn in H. lia. }
  destruct (recv_spec args F N L _ _ Ar Ne [] (fun _ => None) rest eq_refl) as (b & E & H).
  { intros i x Ex. destruct i; discriminate. }
  change (zlen (@nil Z)) with 0 in E. rewrite E.
  replace (zlen (encode args) =? MSG_SIZE) with false by lia.
  destruct args as [|a args]; [congruence|]. inversion F as [|? ? [Na Pa] F']; subst.
  pose proof (zlen_nonneg (encode (a :: args))).
  rewrite (scan_spec b _ 4097 a 0 args [0]); try assumption.
  - cbn [app Z.add]. change (0 :: starts (zlen a + 1) args) with (starts 0 (a :: args)).
    rewrite (msg_strs_spec b (a :: args) 0 F H) by lia. reflexivity.
  - rewrite <- encode_cons. exact H.
  - rewrite encode_cons, zlen_app, zlen_cons. lia.
  - unfold MSG_SIZE in L. lia.
  - rewrite zlen_cons in A. exact A.
Qed.

(** ** Every stream *)

Lemma scan_in_bounds : forall f b off p argv, scan f b off p argv <> Some None.
Proof.
  induction f as [|f IH]; intros b off p argv; cbn [scan]; [discriminate|].
  destruct (Z.ltb_spec (zlen argv) ARGV_SIZE) as [L|L].
  - destruct (p <? off); cbn [andb]; [|discriminate].
    destruct (b p) as [c|]; [|discriminate]. destruct (negb (c =? 0)); [apply IH|].
    destruct (Z.leb_spec ARGV_SIZE (zlen argv)) as [C|C]; [lia|].
    destruct (b (p + 1)) as [d|]; [|discriminate]. destruct (d =? 0); [discriminate|apply IH].
  - rewrite Bool.andb_false_r. discriminate.
Qed.

Lemma recv_no_overrun : forall evs b off, 0 <= off < MSG_SIZE -> recv_loop evs b off <> LOverrun.
Proof.
  induction evs as [|e evs IH]; intros b off O; cbn [recv_loop]; [discriminate|].
  assert (G : forall b off', -1 <= off' <= MSG_SIZE ->
    (match again b off' with None => LUndef | Some true => recv_loop evs b off'
     | Some false => LDone b off' end) <> LOverrun).
  { intros b' off' O'. unfold again. destruct (Z.ltb_spec (u64 off') MSG_SIZE) as [L|L]; cbn [negb]; [|discriminate].
    assert (0 <= off' < MSG_SIZE).
    { unfold u64, MSG_SIZE in *. destruct (Z.eq_dec off' (-1)) as [->|N].
      - change ((-1) mod 2 ^ 64) with 18446744073709551615 in L. lia.
      - rewrite Z.mod_small in L by lia. lia. }
    destruct (off' <? 2); [apply IH; assumption|].
    destruct (b' (off' - 2)), (b' (off' - 1)); try discriminate.
    destruct (negb (z =? 0) || negb (z0 =? 0)); [apply IH; assumption|discriminate]. }
  destruct e as [bs| | |].
  - destruct bs as [|x bs]; [discriminate|].
    set (got := firstn (Z.to_nat (MSG_SIZE - off)) (x :: bs)).
    assert (Lg : 0 <= zlen got <= MSG_SIZE - off).
    { split; [apply zlen_nonneg|]. unfold got, zlen. rewrite firstn_length. lia. }
    replace ((off <? 0) || (MSG_SIZE <? off + zlen got)) with false by lia.
    apply G. lia.
  - discriminate.
  - apply G. lia.
  - apply G. lia.
Qed.

Lemma no_overrun evs : handle_client evs <> HOverrun.
Proof.
  unfold handle_client. pose proof (recv_no_overrun evs (fun _ => None) 0) as R.
  destruct (recv_loop evs (fun _ => None) 0) as [b off| | | |] eqn:E; try discriminate.
  - destruct (off =? MSG_SIZE); [discriminate|].
    pose proof (scan_in_bounds 4097 b off 0 [0]) as S.
    destruct (scan 4097 b off 0 [0]) as [[ps|]|]; try discriminate.
    + destruct (msg_strs b ps); discriminate.
    + congruence.
  - exfalso. apply R; [unfold MSG_SIZE; lia|reflexivity].
Qed.

(** Nothing is read that was not received, unless recv fails. *)
Definition initd (b : msgbuf) (off : Z) : Prop := forall i, 0 <= i < off -> exists c, b i = Some c.

Lemma recv_initd : forall evs b off, ~ In Rerr evs -> 0 <= off < MSG_SIZE -> initd b off ->
  match recv_loop evs b off with
  | LDone b' off' => initd b' off' /\ 0 <= off' <= MSG_SIZE /\
      (off' = MSG_SIZE \/ (2 <= off' /\ b' (off' - 2) = Some 0 /\ b' (off' - 1) = Some 0))
  | LUndef => False
  | _ => True
  end.
Proof.
  induction evs as [|e evs IH]; intros b off N O I; cbn [recv_loop]; [exact Logic.I|].
  assert (G : forall b off', 0 <= off' <= MSG_SIZE -> initd b off' ->
    match (match again b off' with None => LUndef | Some true => recv_loop evs b off'
     | Some false => LDone b off' end) with
    | LDone b' off' => initd b' off' /\ 0 <= off' <= MSG_SIZE /\
        (off' = MSG_SIZE \/ (2 <= off' /\ b' (off' - 2) = Some 0 /\ b' (off' - 1) = Some 0))
    | LUndef => False
    | _ => True
    end).
  { intros b' off' O' I'. unfold again. rewrite u64_small by (unfold MSG_SIZE in *; lia).
    destruct (Z.ltb_spec off' MSG_SIZE) as [L|L]; cbn [negb].
    2:{ split; [exact I'|]. split; [lia|]. left. lia. }
    assert (N' : ~ In Rerr evs) by (intros C; apply N; right; exact C).
    destruct (Z.ltb_spec off' 2) as [L2|L2]; [apply IH; auto; lia|].
    destruct (I' (off' - 2)) as [x Ex]; [lia|]. destruct (I' (off' - 1)) as [y Ey]; [lia|].
    rewrite Ex, Ey. destruct (Z.eqb_spec x 0) as [->|Nx]; destruct (Z.eqb_spec y 0) as [->|Ny];
      cbn [negb orb]; try (apply IH; auto; lia).
    split; [exact I'|]. split; [lia|]. right. auto. }
  destruct e as [bs| | |].
  - destruct bs as [|x bs]; [exact Logic.I|].
    set (got := firstn (Z.to_nat (MSG_SIZE - off)) (x :: bs)).
    assert (Lg : 0 <= zlen got <= MSG_SIZE - off).
    { split; [apply zlen_nonneg|]. unfold got, zlen. rewrite firstn_length. lia. }
    replace ((off <? 0) || (MSG_SIZE <? off + zlen got)) with false by lia.
    apply G; [lia|]. intros i Hi. unfold msg_store.
    destruct ((off <=? i) && (i <? off + zlen got)) eqn:C; [eauto|]. apply I. lia.
  - exact Logic.I.
  - apply G; [lia|exact I].
  - exfalso. apply N. left. reflexivity.
Qed.

Lemma scan_initd b off : initd b off -> 2 <= off -> b (off - 2) = Some 0 -> b (off - 1) = Some 0 ->
  forall f p argv, 0 <= p <= off - 2 -> (Z.to_nat (off - p) < f)%nat ->
  Forall (fun q => 0 <= q <= off - 2) argv ->
  exists ps, scan f b off p argv = Some (Some ps) /\ Forall (fun q => 0 <= q <= off - 2) ps.
Proof.
  intros I O Z2 Z1. induction f as [|f IH]; intros p argv P F A; [lia|]. cbn [scan].
  destruct (Z.ltb_spec (zlen argv) ARGV_SIZE) as [L|L].
  2:{ rewrite Bool.andb_false_r. eauto. }
  replace (p <? off) with true by lia. cbn [andb].
  destruct (I p) as [c Ec]; [lia|]. rewrite Ec. destruct (Z.eqb_spec c 0) as [->|Nc]; cbn [negb].
  - replace (ARGV_SIZE <=? zlen argv) with false by lia.
    destruct (I (p + 1)) as [d Ed]; [lia|]. rewrite Ed.
    destruct (Z.eqb_spec d 0) as [->|Nd]; [eauto|].
    assert (p + 1 <> off - 2) by congruence. assert (p + 1 <> off - 1) by congruence.
    apply IH; [lia|lia|]. apply Forall_app. split; [exact A|]. constructor; [lia|constructor].
  - assert (p <> off - 2) by congruence. apply IH; [lia|lia|exact A].
Qed.

Lemma msg_str_initd b off : initd b off -> 2 <= off -> b (off - 2) = Some 0 ->
  forall f p, 0 <= p <= off - 2 -> (Z.to_nat (off - 2 - p) < f)%nat ->
  exists s, msg_str f b p = Some s.
Proof.
  intros I O Z2. induction f as [|f IH]; intros p P F; [lia|]. cbn [msg_str].
  destruct (I p) as [c Ec]; [lia|]. rewrite Ec. destruct (Z.eqb_spec c 0) as [->|Nc]; [eauto|].
  assert (p <> off - 2) by congruence. destruct (IH (p + 1)) as [s Es]; [lia|lia|].
  rewrite Es. eauto.
Qed.

Lemma no_undef evs : ~ In Rerr evs -> handle_client evs <> HUndef.
Proof.
  intros N. unfold handle_client.
  pose proof (recv_initd evs (fun _ => None) 0 N) as R.
  destruct (recv_loop evs (fun _ => None) 0) as [b off| | | |] eqn:E; try discriminate.
  2:{ exfalso. apply R; [unfold MSG_SIZE; lia|]. intros i Hi. lia. }
  destruct R as (I & O & R); [unfold MSG_SIZE; lia|intros i Hi; lia|].
  destruct (Z.eqb_spec off MSG_SIZE) as [->|Ne]; [discriminate|].
  destruct R as [R|(O2 & Z2 & Z1)]; [contradiction|].
  destruct (scan_initd b off I O2 Z2 Z1 4097 0 [0]) as (ps & Es & Fs).
  - lia.
  - unfold MSG_SIZE in *. lia.
  - constructor; [lia|constructor].
  - rewrite Es. clear Es. assert (G : exists l, msg_strs b ps = Some l).
    { induction ps as [|p ps IHp]; cbn [msg_strs]; [eauto|].
      inversion Fs as [|? ? Fp Fs']; subst. destruct (IHp Fs') as [l El]. rewrite El.
      destruct (msg_str_initd b off I O2 Z2 (Z.to_nat (MSG_SIZE - p)) p) as [s Ess]; [lia|lia|].
      rewrite Ess. eauto. }
    destruct G as [l El]. rewrite El. discriminate.
Qed.

(** ** Nothing is executed early *)

Lemma recv_prefix args : Forall arg_ok args -> args <> [] -> zlen (encode args) < MSG_SIZE ->
  forall s evs, arrives s evs -> forall t, t <> [] -> forall got b rest,
  encode args = got ++ s ++ t -> bholds b 0 got ->
  exists b', recv_loop (evs ++ rest) b (zlen got) = recv_loop rest b' (zlen (got ++ s)).
Proof.
  intros F N L s evs A. induction A as [|s evs A IH|bs s evs Nb A IH]; intros t Nt got b rest E H.
  - cbn [app]. rewrite app_nil_r. eauto.
  - cbn [app recv_loop].
    assert (Lg : zlen got < MSG_SIZE).
    { rewrite E, zlen_app in L. pose proof (zlen_nonneg (s ++ t)). lia. }
    rewrite (again_prefix b got H Lg).
    assert (Zr : (match rev got with 0 :: 0 :: _ => true | _ => false end) = false).
    { destruct (rev got) as [|y [|x r]] eqn:Er; try reflexivity; try (destruct y; reflexivity).
      destruct y; try reflexivity. destruct x; try reflexivity. exfalso.
      assert (Eg : got = rev r ++ [0; 0]).
      { rewrite <- (rev_involutive got), Er. cbn [rev]. rewrite <- app_assoc. reflexivity. }
      rewrite Eg, <- app_assoc in E. apply (encode_zz args (rev r) (s ++ t) F) in E.
      apply app_eq_nil in E as [_ E]. congruence. }
    rewrite Zr. cbn [negb]. exact (IH t Nt got b rest E H).
  - assert (Lb : zlen got + zlen bs < MSG_SIZE).
    { rewrite E, !zlen_app in L. pose proof (zlen_nonneg s). pose proof (zlen_nonneg t). lia. }
    assert (Fb : firstn (Z.to_nat (MSG_SIZE - zlen got)) bs = bs).
    { apply firstn_all2. unfold zlen in *. lia. }
    pose proof (zlen_nonneg got) as Ng. pose proof (zlen_nonneg bs) as Nbs.
    cbn [app recv_loop]. destruct bs as [|b0 bs0]; [congruence|]. set (bs := b0 :: bs0) in *.
    rewrite Fb. replace ((zlen got <? 0) || (MSG_SIZE <? zlen got + zlen bs)) with false by lia.
    assert (H' : bholds (msg_store b (zlen got) bs) 0 (got ++ bs)).
    { apply bholds_app. split; [apply store_other; [exact H|lia]|]. cbn. apply store_same. }
    rewrite <- zlen_app in Lb |- *. rewrite (again_prefix _ _ H' Lb).
    rewrite <- app_assoc, app_assoc in E.
    assert (Zr : (match rev (got ++ bs) with 0 :: 0 :: _ => true | _ => false end) = false).
    { destruct (rev (got ++ bs)) as [|y [|x r]] eqn:Er; try reflexivity;
        try (destruct y; reflexivity).
      destruct y; try reflexivity. destruct x; try reflexivity. exfalso.
      assert (Eg : got ++ bs = rev r ++ [0; 0]).
      { rewrite <- (rev_involutive (got ++ bs)), Er. cbn [rev]. rewrite <- app_assoc. reflexivity. }
      rewrite Eg, <- app_assoc in E. apply (encode_zz args (rev r) (s ++ t) F) in E.
      apply app_eq_nil in E as [_ E]. congruence. }
    rewrite Zr. cbn [negb]. destruct (IH t Nt (got ++ bs) _ rest E H') as [b' E']. exists b'.
    rewrite E'. rewrite <- app_assoc. reflexivity.
Qed.

Lemma not_early args s t evs : Forall arg_ok args -> args <> [] ->
  zlen (encode args) < MSG_SIZE -> encode args = s ++ t -> t <> [] -> arrives s evs ->
  handle_client evs = HWait /\ forall rest, handle_client (evs ++ Eof :: rest) = HClosed.
Proof.
  intros F N L E Nt A.
  assert (H : bholds (fun _ => None) 0 []) by (intros i x Ex; destruct i; discriminate).
  split; [|intros rest]; unfold handle_client.
  - destruct (recv_prefix args F N L s evs A t Nt [] (fun _ => None) [] E H) as [b' R].
    rewrite app_nil_r in R. change (zlen (@nil Z)) with 0 in R. rewrite R. reflexivity.
  - destruct (recv_prefix args F N L s evs A t Nt [] (fun _ => None) (Eof :: rest) E H) as [b' R].
    change (zlen (@nil Z)) with 0 in R. rewrite R. reflexivity.
Qed.

(** ** What is executed was received *)

Definition bexact (b : msgbuf) (got : list Z) : Prop :=
  forall i, 0 <= i -> b i = nth_error got (Z.to_nat i).

Lemma recv_exact : forall evs b got, ~ In Rerr evs -> bexact b got -> zlen got < MSG_SIZE ->
  match recv_loop evs b (zlen got) with
  | LDone b' off' => exists got' rest, bexact b' got' /\ got' ++ rest = got ++ received evs
  | _ => True
  end.
Proof.
  induction evs as [|e evs IH]; intros b got N H L; cbn [recv_loop]; [exact Logic.I|].
  assert (N' : ~ In Rerr evs) by (intros C; apply N; right; exact C).
  assert (G : forall b got', bexact b got' -> zlen got' <= MSG_SIZE ->
    forall tail, (zlen got' < MSG_SIZE -> tail = []) -> 
    match (match again b (zlen got') with None => LUndef | Some true => recv_loop evs b (zlen got')
     | Some false => LDone b (zlen got') end) with
    | LDone b' off' => exists g rest, bexact b' g /\ g ++ rest = got' ++ tail ++ received evs
    | _ => True
    end).
  { intros b' got' H' L' tail T. unfold again. pose proof (zlen_nonneg got').
    rewrite u64_small by (unfold MSG_SIZE in *; lia).
    destruct (Z.ltb_spec (zlen got') MSG_SIZE) as [L1|L1]; cbn [negb].
    2:{ exists got', (tail ++ received evs). auto. }
    rewrite (T L1). cbn [app].
    destruct (zlen got' <? 2); [apply (IH b' got' N' H' L1)|].
    destruct (b' (zlen got' - 2)), (b' (zlen got' - 1)); try exact Logic.I.
    destruct (negb (z =? 0) || negb (z0 =? 0)); [apply (IH b' got' N' H' L1)|].
    exists got', (received evs). auto. }
  destruct e as [bs| | |].
  - destruct bs as [|x bs]; [exact Logic.I|]. set (bs' := x :: bs).
    set (g := firstn (Z.to_nat (MSG_SIZE - zlen got)) bs').
    pose proof (zlen_nonneg got) as Ng.
    assert (Lg : 0 <= zlen g <= MSG_SIZE - zlen got).
    { split; [apply zlen_nonneg|]. unfold g, zlen in *. rewrite firstn_length. lia. }
    destruct ((zlen got <? 0) || (MSG_SIZE <? zlen got + zlen g)); [exact Logic.I|].
    rewrite <- zlen_app. cbn [received]. fold bs'.
    assert (Hx : bexact (msg_store b (zlen got) g) (got ++ g)).
    { intros i Hi. unfold msg_store. pose proof (H i Hi) as Hb.
      destruct (Z.leb_spec (zlen got) i) as [C1|C1]; cbn [andb].
      - rewrite nth_error_app2 by (unfold zlen in *; lia).
        replace (Z.to_nat i - length got)%nat with (Z.to_nat (i - zlen got)) by (unfold zlen; lia).
        destruct (Z.ltb_spec i (zlen got + zlen g)) as [C2|C2].
        + symmetry. apply nth_error_nth'. unfold zlen in *. lia.
        + rewrite Hb. transitivity (@None Z); [|symmetry]; apply nth_error_None; unfold zlen in *; lia.
      - rewrite nth_error_app1 by (unfold zlen in *; lia). exact Hb. }
    specialize (G _ _ Hx). specialize (G ltac:(rewrite zlen_app; lia)).
    specialize (G (skipn (Z.to_nat (MSG_SIZE - zlen got)) bs')).
    assert (Es : got ++ bs' ++ received evs =
      (got ++ g) ++ skipn (Z.to_nat (MSG_SIZE - zlen got)) bs' ++ received evs).
    { unfold g. rewrite <- (firstn_skipn (Z.to_nat (MSG_SIZE - zlen got)) bs') at 1.
      rewrite <- !app_assoc. reflexivity. }
    rewrite Es. apply G. intros C. rewrite zlen_app in C. apply skipn_all2.
    unfold g, zlen in C. rewrite firstn_length in C. unfold zlen in *. lia.
  - exact Logic.I.
  - cbn [received]. apply (G b got H ltac:(lia) []). auto.
  - exfalso. apply N. left. reflexivity.
Qed.

Lemma msg_str_holds b : forall f p s, msg_str f b p = Some s -> bholds b p (s ++ [0]) /\ Forall (fun c => c <> 0) s.
Proof.
  induction f as [|f IH]; intros p s E; cbn [msg_str] in E; [discriminate|].
  destruct (b p) as [c|] eqn:Eb; [|discriminate].
  destruct (Z.eqb_spec c 0) as [->|Nc].
  - injection E as <-. split; [|constructor]. cbn [app]. apply bholds_cons. split; [exact Eb|].
    intros i x Ex. destruct i; discriminate.
  - destruct (msg_str f b (p + 1)) as [s'|] eqn:E'; [|discriminate]. injection E as <-.
    destruct (IH _ _ E') as [H F]. split; [|constructor; assumption].
    cbn [app]. apply bholds_cons. auto.
Qed.

Lemma scan_sound b off : forall f q p argv ps strs, q <= p ->
  (forall i, q <= i < p -> exists c, b i = Some c /\ c <> 0) ->
  scan f b off p (argv ++ [q]) = Some (Some ps) -> msg_strs b ps = Some strs ->
  exists qs strs1 strs2, ps = argv ++ q :: qs /\ strs = strs1 ++ strs2 /\
    length strs1 = length argv /\ bholds b q (flat_map (fun a => a ++ [0]) strs2) /\
    (length ps <= 32 \/ length ps <= length argv + 1)%nat.
Proof.
  assert (Split : forall ps1 ps2 strs, msg_strs b (ps1 ++ ps2) = Some strs ->
    exists s1 s2, strs = s1 ++ s2 /\ length s1 = length ps1 /\ msg_strs b ps2 = Some s2).
  { induction ps1 as [|p ps1 IH]; intros ps2 strs E; cbn [app msg_strs] in E.
    - exists [], strs. auto.
    - destruct (msg_str (Z.to_nat (MSG_SIZE - p)) b p) as [s|]; [|discriminate].
      destruct (msg_strs b (ps1 ++ ps2)) as [l|] eqn:El; [|discriminate]. injection E as <-.
      destruct (IH _ _ El) as (s1 & s2 & -> & L & E2). exists (s :: s1), s2. cbn. auto. }
  assert (Stop : forall q argv ps strs, ps = argv ++ [q] -> msg_strs b ps = Some strs ->
    exists qs strs1 strs2, ps = argv ++ q :: qs /\ strs = strs1 ++ strs2 /\
    length strs1 = length argv /\ bholds b q (flat_map (fun a => a ++ [0]) strs2) /\
    (length ps <= 32 \/ length ps <= length argv + 1)%nat).
  { intros q argv ps strs -> M. destruct (Split _ _ _ M) as (s1 & s2 & -> & L & M2).
    cbn [msg_strs] in M2. destruct (msg_str (Z.to_nat (MSG_SIZE - q)) b q) as [s|] eqn:Es; [|discriminate].
    injection M2 as <-. exists [], s1, [s]. repeat split; auto.
    - cbn [flat_map]. rewrite app_nil_r. exact (proj1 (msg_str_holds _ _ _ _ Es)).
    - right. rewrite app_length. cbn. lia. }
  induction f as [|f IH]; intros q p argv ps strs Q Z E M; cbn [scan] in E; [discriminate|].
  destruct ((p <? off) && (zlen (argv ++ [q]) <? ARGV_SIZE)) eqn:C.
  2:{ injection E as <-. exact (Stop q argv _ strs eq_refl M). }
  destruct (b p) as [c|] eqn:Eb; [|discriminate].
  destruct (Z.eqb_spec c 0) as [->|Nc]; cbn [negb] in E.
  - destruct (Z.leb_spec ARGV_SIZE (zlen (argv ++ [q]))) as [C2|C2]; [discriminate|].
    destruct (b (p + 1)) as [d|] eqn:Ed; [|discriminate].
    destruct (Z.eqb_spec d 0) as [->|Nd].
    + injection E as <-. exact (Stop q argv _ strs eq_refl M).
    + destruct (IH (p + 1) (p + 2) (argv ++ [q]) ps strs) as (qs & s1 & s2 & -> & -> & L & H & Len); auto.
      * lia.
      * intros i Hi. replace i with (p + 1) by lia. eauto.
      * exists (p + 1 :: qs).
        assert (Es : exists s1' s, s1 = s1' ++ [s]).
        { destruct (@exists_last _ s1) as (s1' & s & ->); [|eauto].
          intros ->. rewrite app_length in L. cbn in L. lia. }
        destruct Es as (s1' & s & ->). exists s1', (s :: s2).
        rewrite !app_length in L. cbn [length] in L.
        repeat split.
        -- rewrite <- app_assoc. reflexivity.
        -- rewrite <- app_assoc. reflexivity.
        -- lia.
        -- rewrite <- !app_assoc in M. cbn [app] in M.
           destruct (Split _ _ _ M) as (u1 & u2 & Eu & Lu & Mu). cbn [msg_strs] in Mu.
           destruct (msg_str (Z.to_nat (MSG_SIZE - q)) b q) as [a|] eqn:Ea; [|discriminate].
           change (msg_strs b ([p + 1] ++ qs)) with (msg_strs b (p + 1 :: qs)) in Mu.
           destruct (msg_str (Z.to_nat (MSG_SIZE - (p + 1))) b (p + 1)) as [a2|]; [|discriminate].
           destruct (msg_strs b qs) as [l|]; [|discriminate]. injection Mu as <-.
           assert (s1' = u1 /\ s = a) as [-> ->].
           { assert (Eu' : firstn (length s1') (s1' ++ s :: s2) = firstn (length s1') (u1 ++ a :: a2 :: l))
               by (rewrite Eu; reflexivity).
             rewrite firstn_app, Nat.sub_diag, firstn_all in Eu'. cbn [firstn] in Eu'.
             rewrite app_nil_r in Eu'. replace (length s1') with (length u1) in Eu' by lia.
             rewrite firstn_app, Nat.sub_diag, firstn_all in Eu'. cbn [firstn] in Eu'.
             rewrite app_nil_r in Eu'. split; [exact Eu'|]. rewrite Eu' in Eu.
             apply app_inv_head in Eu. congruence. }
           destruct (msg_str_holds _ _ _ _ Ea) as [Ha Fa].
           assert (La : zlen a = p - q).
           { apply bholds_app in Ha as [Ha Hz]. apply bholds_cons in Hz as [Hz _].
             destruct (Z_lt_ge_dec (zlen a) (p - q)) as [C1|C1].
             - pose proof (zlen_nonneg a).
               destruct (Z (q + zlen a)) as (c & Ec & Nc); [lia|]. congruence.
             - destruct (Z.eq_dec (zlen a) (p - q)) as [|Ne]; [assumption|].
               assert (In0 : nth_error a (Z.to_nat (p - q)) <> None).
               { apply nth_error_Some. unfold zlen in *. lia. }
               destruct (nth_error a (Z.to_nat (p - q))) as [c|] eqn:En; [|congruence].
               pose proof (Ha _ _ En) as Hc. replace (q + Z.of_nat (Z.to_nat (p - q))) with p in Hc by lia.
               rewrite Forall_forall in Fa. pose proof (Fa c (nth_error_In _ _ En)). congruence. }
           cbn [flat_map]. apply bholds_app. split; [exact Ha|].
           rewrite zlen_app. change (zlen [0]) with 1. rewrite La.
           replace (q + (p - q + 1)) with (p + 1) by lia. exact H.
        -- left. destruct Len as [Len|Len]; [exact Len|].
           unfold ARGV_SIZE, zlen in C2. rewrite (app_length (argv ++ [q])) in Len |- *.
           rewrite (app_length argv [q]) in Len, C2 |- *. cbn [length] in Len, C2 |- *. lia.
  - apply (IH q (p + 1) argv ps strs); auto; [lia|].
    intros i Hi. destruct (Z.eq_dec i p) as [->|]; [eauto|]. apply Z. lia.
Qed.

Lemma executed_was_received evs argv : ~ In Rerr evs -> handle_client evs = HExec argv ->
  (1 <= length argv <= 32)%nat /\
  exists rest, received evs = flat_map (fun a => a ++ [0]) argv ++ rest.
Proof.
  intros N E. unfold handle_client in E.
  pose proof (recv_exact evs (fun _ => None) [] N) as R. change (zlen (@nil Z)) with 0 in R.
  destruct (recv_loop evs (fun _ => None) 0) as [b off| | | |]; try discriminate.
  destruct R as (got & rest & Hx & Er).
  { intros i Hi. destruct (Z.to_nat i); reflexivity. }
  { unfold MSG_SIZE. lia. }
  cbn [app] in Er. rewrite <- Er. clear Er.
  destruct (off =? MSG_SIZE); [discriminate|].
  destruct (scan 4097 b off 0 [0]) as [[ps|]|] eqn:Es; try discriminate.
  destruct (msg_strs b ps) as [l|] eqn:El; [|discriminate]. injection E as <-.
  destruct (scan_sound b off 4097 0 0 [] ps l) as (qs & s1 & s2 & Ep & -> & L & H & Len); auto.
  { lia. } { intros i Hi. lia. }
  destruct s1; [|discriminate]. cbn [app] in *. clear L.
  assert (Lp : forall ps l, msg_strs b ps = Some l -> length l = length ps).
  { clear. induction ps as [|p ps IH]; intros l E; cbn [msg_strs] in E.
    - injection E as <-. reflexivity.
    - destruct (msg_str _ b p); [|discriminate]. destruct (msg_strs b ps); [|discriminate].
      injection E as <-. cbn. f_equal. auto. }
  rewrite (Lp _ _ El). split.
  - subst ps. cbn [length] in *. lia.
  - assert (P : forall xs g : list Z, (forall i x, nth_error xs i = Some x -> nth_error g i = Some x) ->
      exists r, g = xs ++ r).
    { clear. induction xs as [|x xs IH]; intros g Hg; [exists g; reflexivity|].
      destruct g as [|y g]; [discriminate (Hg 0%nat x eq_refl)|].
      pose proof (Hg 0%nat x eq_refl) as E0. cbn in E0. injection E0 as ->.
      destruct (IH g) as [r ->]; [|exists r; reflexivity].
      intros i z Ez. exact (Hg (Datatypes.S i) z Ez). }
    destruct (P (flat_map (fun a => a ++ [0]) s2) got) as [r ->].
    { intros i x Ex. rewrite <- (H i x Ex). rewrite Hx by lia. f_equal. lia. }
    exists (r ++ rest). rewrite app_assoc. reflexivity.
Qed.
