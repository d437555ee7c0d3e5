From Verif Require Import Base RbModel RbSpec RbProofs RbHeapModel RbHeapSpec RbHeapProofs.

(** * Taking a node out *)
Fixpoint size (t : tree Z) : nat := match t with Leaf => 0 | Node _ l _ r => S (size l + size r) end.
Fixpoint sizez (z : list (frame Z)) : nat := match z with [] => 0 | (_, _, _, o) :: z' => S (size o + sizez z') end.
Lemma size_plug z : forall t, size (plug z t) = (sizez z + size t)%nat.
Proof. induction z as [|[[[s c] x] o] z IH]; intros t; cbn [plug sizez]; [reflexivity|]. rewrite IH. destruct s; cbn [mk size]; lia. Qed.
Lemma sizez_len z : (length z <= sizez z)%nat.
Proof. induction z as [|[[[s c] x] o] z IH]; cbn [length sizez]; lia. Qed.
Lemma sizez_app z1 z2 : sizez (z1 ++ z2) = (sizez z1 + sizez z2)%nat.
Proof. induction z1 as [|[[[s c] x] o] z IH]; cbn [app sizez]; lia. Qed.
Lemma leftmost_plug : forall (l : tree Z) c x r z cs xs ch zin, leftmost c l x r z = (cs, xs, ch, zin) -> plug zin (Node cs Leaf xs ch) = plug z (Node c l x r).
Proof.
  induction l as [|cl ll IH xl rl _]; intros c x r z cs xs ch zin E; cbn [leftmost] in E; [injection E as <- <- <- <-; reflexivity|].
  rewrite (IH _ _ _ _ _ _ _ _ E). reflexivity.
Qed.
Lemma leftmost_left : forall (l : tree Z) c x r z cs xs ch zin, leftmost c l x r z = (cs, xs, ch, zin) ->
  Forall (fun f => fst (fst (fst f)) = L) z -> Forall (fun f => fst (fst (fst f)) = L) zin.
Proof.
  induction l as [|cl ll IH xl rl _]; intros c x r z cs xs ch zin E F; cbn [leftmost] in E; [injection E as <- <- <- <-; exact F|].
  apply (IH _ _ _ _ _ _ _ _ E). constructor; [reflexivity|exact F].
Qed.
Lemma down_left_ok : forall (l : tree Z) c x r z cs xs ch zin h p fuel d, leftmost c l x r z = (cs, xs, ch, zin) -> holds (at_ h) p (Node c l x r) -> (size l < fuel)%nat ->
  down_left fuel (up z d) x (ptr l) h = Done (up zin d, xs).
Proof.
  induction l as [|cl ll IH xl rl _]; intros c x r z cs xs ch zin h p fuel d E H Lf; cbn [leftmost] in E; (destruct fuel as [|fuel]; [lia|]); cbn [down_left ptr].
  - injection E as <- <- <- <-. reflexivity.
  - destruct H as (_ & _ & (P & C & D) & _). rewrite (proj2 (Z.eqb_neq _ _) (proj1 P)). rewrite (ld_ok _ _ _ C). red1.
    apply (IH _ _ _ _ _ _ _ _ h x fuel d) in E; [exact E| |cbn [size] in Lf; lia]. cbn [holds]. tauto.
Qed.
Lemma leftmost_nil c l x r cs xs ch zin : leftmost c l x r [] = (cs, xs, ch, zin) -> (l = Leaf /\ zin = [] /\ cs = c /\ xs = x /\ ch = r) \/ (l <> Leaf /\ zin <> [] /\ forall hole, rootp zin hole = x).
Proof.
  destruct l as [|cl ll xl rl]; [intros E; cbn in E; injection E as <- <- <- <-; left; auto|]. intros E. right. split; [discriminate|].
  assert (G : forall l c x r z, z <> [] -> (forall hole, rootp z hole = rootp z 0) -> leftmost c l x r z = (cs, xs, ch, zin) -> zin <> [] /\ forall hole, rootp zin hole = rootp z 0).
  { clear. induction l as [|cl ll IH xl rl _]; intros c x r z N F E; cbn [leftmost] in E; [injection E as <- <- <- <-; auto|].
    destruct (IH _ _ _ ((L, c, x, r) :: z) ltac:(discriminate) ltac:(intros hole; reflexivity) E) as [A B]. split; [exact A|]. intros hole. rewrite B. cbn [rootp]. apply F. }
  cbn [leftmost] in E. destruct (G _ _ _ _ [(L, c, x, r)] ltac:(discriminate) ltac:(reflexivity) E) as [A B]. split; [exact A|]. intros hole. rewrite B. reflexivity.
Qed.
Lemma retop top' top : forall z m hole, z <> [] -> (forall a, timesz a z <= 1) -> holdz m hole z top ->
  exists k a b, m (rootp z hole) = Some (Cell (top + bit k) a b) /\ place (rootp z hole) /\ 1 <= timesz (rootp z hole) z /\
    holdz (upd m (rootp z hole) (Some (Cell (top' + bit k) a b))) hole z top'.
Proof.
  induction z as [|[[[s c] x] o] z IH]; intros m hole N U H; [congruence|]. cbn [holdz rootp timesz] in *. destruct H as (P & C & D & E).
  destruct z as [|f z].
  - cbn [rootp up timesz] in *. destruct s; cbn [cellz] in *; (do 3 eexists; split; [exact C|]; split; [exact P|]; split; [rewrite one_refl; nn2; lia|];
      split; [exact P|]; split; [apply upd_eq|]; split; [apply holds_upd; [generalize (U x); clear; count; nn2; lia|exact D]|exact I]).
  - destruct (IH m x ltac:(discriminate) ltac:(intros a; generalize (U a); nn2; lia) E) as (k & a & b & A1 & A2 & A3 & A4).
    exists k, a, b. split; [exact A1|]. split; [exact A2|]. split; [nn2; lia|]. split; [exact P|].
    assert (X : rootp (f :: z) x <> x). { intros X. generalize (U x). rewrite X in A3. rewrite one_refl. nn2. lia. }
    split; [rewrite upd_ne by congruence; exact C|]. split; [apply holds_upd; [generalize (U (rootp (f :: z) x)); nn2; lia|exact D]|exact A4].
Qed.
Lemma rootp_app z2 : forall z1 hole, rootp (z1 ++ z2) hole = rootp z2 (rootp z1 hole).
Proof. induction z1 as [|[[[s c] x] o] z IH]; intros hole; cbn [app rootp]; [reflexivity|apply IH]. Qed.
Lemma succeed_ok h x xs c cs q l zin ch z P :
  root h = rootp z x -> holdz (at_ h) x z 0 -> place x -> place xs -> q mod 4 = 0 -> l <> Leaf ->
  at_ h x = Some (Cell (up z 0 + bit c) (ptr l) P) -> at_ h xs = Some (Cell (q + bit cs) 0 (rootp zin (ptr ch))) ->
  holds (at_ h) x l -> holdz (at_ h) (ptr ch) zin xs -> holds (at_ h) xs ch -> up zin xs mod 4 = 0 ->
  (forall a, timesz a z + one x a + times a l + timesz a zin + one xs a + times a ch <= 1) ->
  exists m', rb_succeed x (up zin xs) xs (ptr ch) h = Done ((match ch with Leaf => match cs with Black => up zin xs | Red => 0 end | _ => 0 end), Heap (rootp z xs) m') /\
    zst (Heap (rootp z xs) m') (zin ++ (R, c, xs, l) :: z) (recolor Black ch) /\
    forall a, timesz a z + times a l + timesz a zin + one xs a + times a ch = 0 -> m' a = at_ h a.
Proof.
  intros Rt Hz Px Ps Q4 NL Cx Cs Hl Hzin Hch Up4 U. unfold rb_succeed. rewrite (ld_ok _ _ _ Cx). red1.
  destruct l as [|cl ll xl rl]; [congruence|]. destruct Hl as (Pl & Cl & Dl1 & Dl2). cbn [ptr] in *.
  erewrite set_l_ok by look U. red1. erewrite (set_parent_ok xl xs x cl) by first [four|look U]. red1.
  erewrite ld_ok by look U. red1. rewrite parent_bit by four.
  edestruct (change_child_ok x xs z) as (m' & E & F & G); [|..|rewrite E; clear E]; [cbn [at_]; frame U|dis U|dis U|apply Px|cbn [root]; exact Rt|]. red1. cbn [at_] in G.
  assert (Kz : forall m, (forall a, 0 < timesz a zin -> m a = at_ h a) -> holdz m (ptr ch) zin xs) by (intros m Hm; eapply holdz_ext; [exact Hzin|exact Hm]).
  destruct ch as [|cc lc xc rc].
  - cbn [ptr]. change (0 =? 0) with true. cbn iota. erewrite ld_ok by (cbn [at_]; rewrite G by dis U; look U). red1.
    erewrite set_pc_ok by (cbn [at_]; rewrite G by dis U; look U). red1. rewrite black_bit by four.
    eexists. split; [destruct cs; reflexivity|]. split.
    + cbn [recolor]. split; [cbn [root ptr]; rewrite rootp_app; reflexivity|]. cbn [at_]. split.
      * apply holdz_app. split; [cbn [up]; apply Kz; intros a Ha; rewrite upd_ne by (intros ->; generalize (U xs); revert Ha; clear; count; nn2; lia); rewrite G by (generalize (U a); revert Ha; clear; count; nn2; lia);
          rewrite !upd_ne; [reflexivity|..]; intros ->; (generalize (U xs); generalize (U xl); revert Ha; clear; count; nn2; lia)|].
        cbn [holdz]. split; [exact Ps|]. split; [cbn [cellz ptr]; look U|]. split; [|eapply holdz_upd; [dis U|exact F]].
        apply hn; [exact Pl|rewrite upd_ne by dis U; rewrite G by dis U; look U|..]; (eapply holds_upd; [dis U|]; sub2 U G).
      * split; [exact I|]. intros a. generalize (U a). clear. rewrite timesz_app. count. nn2. lia.
    + intros a. count. intros Ha. rewrite upd_ne by (apply not_eq_sym, one_ne; nn2; lia). rewrite G by (nn2; lia). rewrite !upd_ne by (apply not_eq_sym, one_ne; nn2; lia). reflexivity.
  - destruct Hch as (Pc & Cc & Dc1 & Dc2). cbn [ptr]. rewrite (proj2 (Z.eqb_neq _ _) (proj1 Pc)).
    erewrite set_pc_ok by (cbn [at_]; rewrite G by dis U; look U). red1. change RB_BLACK with (bit Black).
    erewrite spc_ok; [|exact Up4|cbn [at_]; rewrite upd_ne by dis U; rewrite G by dis U; look U]. red1.
    eexists. split; [reflexivity|]. split.
    + cbn [recolor]. split; [cbn [root ptr]; rewrite rootp_app; reflexivity|]. cbn [at_]. split.
      * apply holdz_app. split; [cbn [up ptr]; apply Kz; intros a Ha; rewrite !upd_ne by (intros ->; generalize (U xs); generalize (U xc); revert Ha; clear; count; nn2; lia); rewrite G by (generalize (U a); revert Ha; clear; count; nn2; lia);
          rewrite !upd_ne; [reflexivity|..]; intros ->; (generalize (U xs); generalize (U xl); revert Ha; clear; count; nn2; lia)|].
        cbn [holdz]. split; [exact Ps|]. split; [cbn [cellz ptr]; look U|]. split; [|eapply holdz_upd; [dis U|]; eapply holdz_upd; [dis U|exact F]].
        apply hn; [exact Pl|rewrite !upd_ne by dis U; rewrite G by dis U; look U|..]; (eapply holds_upd; [dis U|]; eapply holds_upd; [dis U|]; sub2 U G).
      * split; [|intros a; generalize (U a); clear; rewrite timesz_app; count; nn2; lia].
        assert (E : up (zin ++ (R, c, xs, Node cl ll xl rl) :: z) 0 = up zin xs) by (destruct zin; reflexivity). rewrite E.
        apply hn; [exact Pc|look U|..]; (eapply holds_upd; [dis U|]; eapply holds_upd; [dis U|]; sub2 U G).
    + intros a. count. intros Ha. rewrite !upd_ne by (apply not_eq_sym, one_ne; nn2; lia). rewrite G by (nn2; lia). rewrite !upd_ne by (apply not_eq_sym, one_ne; nn2; lia). reflexivity.
Qed.
Lemma up_ne m hole z : z <> [] -> holdz m hole z 0 -> up z 0 <> 0.
Proof. destruct z as [|[[[s c] x] o] z]; [congruence|]. intros _ (P & _). exact (proj1 P). Qed.
Lemma finish fuel z k h : zst h z Leaf -> (length z < fuel)%nat -> forall t', match k with Black => erase_color Leaf z | Red => Some (plug z Leaf) end = Some t' ->
  exists h', (if match k with Black => up z 0 | Red => 0 end =? 0 then Done h else rb_erase_color fuel 0 (match k with Black => up z 0 | Red => 0 end) h) = Done h' /\
    stored h' t' /\ forall a, timesz a z = 0 -> at_ h' a = at_ h a.
Proof.
  intros H Lf t' E. destruct k.
  - injection E as <-. exists h. split; [reflexivity|]. split; [apply stored_plug; exact H|reflexivity].
  - destruct z as [|f z].
    + cbn in E. injection E as <-. exists h. split; [reflexivity|]. split; [apply (stored_plug h [] Leaf); exact H|reflexivity].
    + pose proof (up_ne _ _ (f :: z) ltac:(discriminate) (proj1 (proj2 H))) as N. rewrite (proj2 (Z.eqb_neq _ _) N).
      destruct (rb_erase_color_ok fuel (f :: z) Leaf t' h ltac:(discriminate) Lf H E) as (h' & A & B & C).
      exists h'. split; [exact A|]. split; [exact B|]. intros a Ha. apply C. rewrite times_leaf. lia.
Qed.
Theorem rb_erase_ok fuel c l x r z t' h : zst h z (Node c l x r) -> (size (plug z (Node c l x r)) < fuel)%nat -> erase_node c l x r z = Some t' ->
  exists h', rb_erase fuel x h = Done h' /\ stored h' t' /\ forall a, timesz a z + times a l + times a r = 0 -> at_ h' a = at_ h a.
Proof.
  intros (Rt & Hz & (Px & Cx & Dl & Dr) & U) Lf E. rewrite size_plug in Lf. cbn [size] in Lf. pose proof (sizez_len z) as Lz.
  unfold rb_erase, rb_unlink. rewrite (ld_ok _ _ _ Cx). red1. cbn [ptr] in *.
  destruct l as [|cl ll xl rl].
  - cbn [ptr]. change (0 =? 0) with true. cbn iota. rewrite parent_bit by four.
    edestruct (change_child_ok x (ptr r) z) as (m' & E1 & F & G); [..|rewrite E1; clear E1]; [exact Hz|dis U|dis U|apply Px|exact Rt|]. red1.
    destruct r as [|cr lr xr rr].
    + cbn [ptr]. change (0 =? 0) with true. cbn iota. red1. rewrite black_bit by four. cbn [ptr] in F.
      destruct (finish fuel z c (Heap (rootp z 0) m')) with (t' := t') as (h' & A & B & C); [|lia|destruct c; exact E|].
      * split; [reflexivity|]. split; [exact F|]. split; [exact I|]. intros a. generalize (U a). clear. count. nn2. lia.
      * exists h'. split; [destruct c; exact A|]. split; [exact B|]. intros a. count. intros Ha. rewrite C by (nn2; lia). apply G. nn2. lia.
    + destruct Dr as (Pr & Cr & Dr1 & Dr2). cbn [ptr]. rewrite (proj2 (Z.eqb_neq _ _) (proj1 Pr)).
      erewrite set_pc_ok by (cbn [at_]; rewrite G by dis U; look U). red1. change (0 =? 0) with true. cbn iota.
      cbn [erase_node] in E. injection E as <-. eexists. split; [reflexivity|]. split.
      * apply stored_plug. split; [reflexivity|]. cbn [at_ recolor]. split; [eapply holdz_upd; [dis U|exact F]|]. split; [|intros a; generalize (U a); clear; count; nn2; lia].
        apply hn; [exact Pr|apply upd_eq|..]; (eapply holds_upd; [dis U|]; sub2 U G).
      * intros a. count. intros Ha. cbn [at_]. rewrite !upd_ne by (apply not_eq_sym, one_ne; nn2; lia). apply G. nn2. lia.
  - destruct Dl as (Pl & Cl & Dl1 & Dl2). cbn [ptr]. rewrite (proj2 (Z.eqb_neq _ _) (proj1 Pl)).
    destruct r as [|cr lr xr rr].
    + cbn [ptr]. change (0 =? 0) with true. cbn iota. erewrite set_pc_ok by look U. red1. rewrite parent_bit by four.
      edestruct (change_child_ok x xl z) as (m' & E1 & F & G); [..|rewrite E1; clear E1]; [cbn [at_]; frame U|dis U|dis U|apply Px|cbn [root]; exact Rt|]. red1. cbn [at_] in G.
      change (0 =? 0) with true. cbn iota. cbn [erase_node] in E. injection E as <-. eexists. split; [reflexivity|]. split.
      * apply stored_plug. split; [reflexivity|]. cbn [at_ recolor]. split; [exact F|]. split; [|intros a; generalize (U a); clear; count; nn2; lia].
        apply hn; [exact Pl|rewrite G by dis U; apply upd_eq|..]; sub2 U G.
      * intros a. count. intros Ha. cbn [at_]. rewrite G by (nn2; lia). rewrite !upd_ne by (apply not_eq_sym, one_ne; nn2; lia). reflexivity.
    + pose proof Dr as (Pr & Cr & Dr1 & Dr2). cbn [ptr]. rewrite (proj2 (Z.eqb_neq _ _) (proj1 Pr)). rewrite (ld_ok _ _ _ Cr). red1.
      cbn [erase_node] in E. destruct (leftmost cr lr xr rr []) as [[[cs xs] ch] zin] eqn:EL.
      pose proof (leftmost_plug _ _ _ _ _ _ _ _ _ EL) as PL. cbn [plug] in PL.
      assert (LL := leftmost_left _ _ _ _ _ _ _ _ _ EL (Forall_nil _)).
      assert (SZ : (sizez zin + S (size ch) = S (size lr + size rr))%nat). { pose proof (f_equal size PL) as S1. rewrite size_plug in S1. cbn [size] in S1. lia. }
      assert (UT : forall a, one xr a + times a lr + times a rr = timesz a zin + one xs a + times a ch).
      { intros a. pose proof (f_equal (times a) PL) as S1. rewrite times_plug, !times_node, times_leaf in S1. lia. }
      assert (Dl : holds (at_ h) x (Node cl ll xl rl)) by (apply hn; assumption).
      assert (HZ : holdz (at_ h) xs zin x /\ holds (at_ h) (up zin x) (Node cs Leaf xs ch)) by (rewrite <- PL in Dr; apply holds_plug in Dr; exact Dr).
      destruct HZ as [Hzin (Ps & Cs & _ & Dch)]. cbn [ptr] in Cs.
      assert (U2 : forall a, timesz a z + one x a + times a (Node cl ll xl rl) + timesz a zin + one xs a + times a ch <= 1) by (intros a; generalize (U a) (UT a); count; lia).
      assert (FIN : forall h1 q P, root h1 = root h -> q mod 4 = 0 -> (forall a, timesz a z + times a (Node cl ll xl rl) + times a ch + one x a >= 1 -> at_ h1 a = at_ h a) ->
        at_ h1 x = Some (Cell (up z 0 + bit c) xl P) -> at_ h1 xs = Some (Cell (q + bit cs) 0 (rootp zin (ptr ch))) -> holdz (at_ h1) (ptr ch) zin xs -> up zin xs mod 4 = 0 ->
        (forall a, timesz a zin + one xs a = 0 -> at_ h1 a = at_ h a) ->
        exists h', (do (rebalance, h) <- rb_succeed x (up zin xs) xs (ptr ch) h1; if rebalance =? 0 then Done h else rb_erase_color fuel 0 rebalance h) = Done h' /\ stored h' t' /\
          forall a, timesz a z + times a (Node cl ll xl rl) + times a (Node cr lr xr rr) = 0 -> at_ h' a = at_ h a).
      { intros h1 q P R1 Q4 K1 K2 K3 K4 K5 K6.
        destruct (succeed_ok h1 x xs c cs q (Node cl ll xl rl) zin ch z P) as (m' & A & B & C); try assumption; try discriminate.
        - congruence.
        - eapply holdz_ext; [exact Hz|]. intros a Ha. apply K1. nn2. lia.
        - eapply holds_ext; [exact Dl|]. intros a Ha. apply K1. pose proof (timesz_nn a z). pose proof (times_nn a ch). pose proof (one_nn x a). lia.
        - eapply holds_ext; [exact Dch|]. intros a Ha. apply K1. pose proof (timesz_nn a z). pose proof (times_nn a (Node cl ll xl rl)). pose proof (one_nn x a). lia.
        - rewrite A. red1. destruct ch as [|cc lc xc rc].
          + destruct (finish fuel (zin ++ (R, c, xs, Node cl ll xl rl) :: z) cs _ B) with (t' := t') as (h' & A' & B' & C').
            { rewrite app_length. pose proof (sizez_len zin). cbn [length]. cbn [size] in Lf. lia. }
            { exact E. }
            assert (EU : up (zin ++ (R, c, xs, Node cl ll xl rl) :: z) 0 = up zin xs) by (destruct zin; reflexivity). rewrite EU in A'.
            exists h'. split; [exact A'|]. split; [exact B'|]. intros a Ha. rewrite C', C, K6; [reflexivity|..]; generalize (UT a); revert Ha; clear; count; nn2; lia.
          + change (0 =? 0) with true. cbn iota. injection E as <-. eexists. split; [reflexivity|]. split; [apply stored_plug; exact B|].
            intros a Ha. cbn [at_]. rewrite C, K6; [reflexivity|..]; generalize (UT a); revert Ha; clear; count; nn2; lia. }
      destruct (leftmost_nil _ _ _ _ _ _ _ _ EL) as [(-> & -> & -> & -> & ->)|(NL & NZ & RZ)].
      * cbn [ptr]. change (0 =? 0) with true. cbn iota. apply (FIN h x xr); auto; [eapply place4; exact Px|eapply place4; exact Ps].
      * assert (PLR : ptr lr <> 0) by (destruct lr; [congruence|cbn [ptr]; apply Dr1]). rewrite (proj2 (Z.eqb_neq _ _) PLR).
        erewrite down_left_ok with (z := @nil (frame Z)) (d := xr); [|exact EL|exact Dr|cbn [size] in Lf; lia]. red1. rewrite (ld_ok _ _ _ Cs). red1.
        destruct zin as [|[[[s ck] xk] ok] zin]; [congruence|]. inversion LL as [|? ? Hs _ ]; subst. cbn in Hs. subst s.
        cbn [up]. pose proof Hzin as (Pk & Ck & Dk & Hz'). cbn [cellz] in Ck. rewrite (set_l_ok _ _ _ _ Ck). red1.
        assert (Nks : xk <> xs) by (intros ->; generalize (U2 xs); clear; count; nn2; lia).
        erewrite set_r_ok by (cbn [at_]; rewrite upd_ne by congruence; exact Cs). red1.
        set (m1 := upd (upd (at_ h) xk _) xs _).
        assert (Hz1 : holdz m1 (ptr ch) ((L, ck, xk, ok) :: zin) x).
        { unfold m1. cbn [holdz cellz]. split; [exact Pk|]. split; [rewrite upd_ne by exact Nks; apply upd_eq|].
          split; [apply holds_upd; [dis U2|]; apply holds_upd; [dis U2|exact Dk]|]. apply holdz_upd; [dis U2|]. apply holdz_upd; [dis U2|exact Hz']. }
        destruct (retop xs x _ m1 (ptr ch) NZ ltac:(intros a; generalize (U2 a); clear; count; nn2; lia) Hz1) as (k & u & v & A1 & A2 & A3 & A4).
        rewrite RZ in A1, A2, A3, A4.
        assert (Nrs : xr <> xs). { intros ->. generalize (U2 xs). revert A3. clear. rewrite one_refl. nn2. lia. }
        assert (Nrx : xr <> x). { intros ->. generalize (U2 x). revert A3. clear. rewrite one_refl. nn2. lia. }
        erewrite (set_parent_ok xr xs x k); [|eapply place4; exact Ps|eapply place4; exact Px|exact A1]. red1.
        apply (FIN _ xk xr); cbn [root at_].
        -- reflexivity.
        -- eapply place4; exact Pk.
        -- intros a Ha. rewrite upd_ne by (intros ->; generalize (U2 xr); revert A3 Ha; clear; count; nn2; lia). unfold m1. rewrite !upd_ne; [reflexivity|..]; intros ->; [generalize (U2 xk)|generalize (U2 xs)]; revert Ha; clear; count; nn2; lia.
        -- rewrite upd_ne by congruence. unfold m1. rewrite !upd_ne; [exact Cx|..]; dis U2.
        -- rewrite upd_ne by congruence. unfold m1. rewrite upd_eq. rewrite RZ. cbn [up]. reflexivity.
        -- exact A4.
        -- cbn [up]. eapply place4; exact Pk.
        -- intros a Ha. rewrite upd_ne by (intros ->; revert A3 Ha; clear; count; nn2; lia). unfold m1. rewrite !upd_ne; [reflexivity|..]; intros ->; revert Ha; clear; count; nn2; lia.
Qed.
