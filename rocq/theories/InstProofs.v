(** Proofs about installing and comparing programs. *)
From Coq Require Import String Permutation.
From Verif Require Import Base BaseProofs StorageModel PkgModel PkgProofs InstModel InstSpec.
Open Scope list_scope.

Lemma prefixb_iff p : forall s, prefixb p s = true <-> prefix p s.
Proof.
  induction p as [|a p IH]; intros [|b s]; cbn [prefixb].
  - split; [intros _; exists []; reflexivity|reflexivity].
  - split; [intros _; exists (b :: s); reflexivity|reflexivity].
  - split; [discriminate|intros (x & E); discriminate E].
  - rewrite andb_true_iff, IH, Z.eqb_eq. split.
    + intros (-> & x & ->). exists x. reflexivity.
    + intros (x & E). injection E as -> ->. split; [reflexivity|exists x; reflexivity].
Qed.
Lemma contains_iff p s : contains p s = true <-> infix p s.
Proof.
  induction s as [|c s IH]; cbn [contains]; rewrite orb_true_iff, prefixb_iff.
  - split.
    + intros [(b & E)|E]; [exists [], b; exact E|discriminate E].
    + intros (a & b & E). left. destruct a; [exists b; exact E|discriminate E].
  - rewrite IH. split.
    + intros [(b & E)|(a & b & ->)]; [exists [], b; exact E|exists (c :: a), b; reflexivity].
    + intros (a & b & E). destruct a as [|d a]; [left; exists b; exact E|]. injection E as -> ->. right. exists a, b. reflexivity.
Qed.

(** ** Words. *)
Lemma ws_false c : c <> 32 /\ c <> 9 /\ c <> 10 -> ws c = false.
Proof. intros (A & B & C). unfold ws. destruct (Z.eqb_spec c 32), (Z.eqb_spec c 9), (Z.eqb_spec c 10); try contradiction; reflexivity. Qed.
Lemma split_word w : forall cur c r, (forall x, In x w -> x <> 32 /\ x <> 9 /\ x <> 10) -> cur ++ w <> [] -> ws c = true ->
  split_words cur (w ++ c :: r) = (cur ++ w) :: split_words [] r.
Proof.
  induction w as [|x w IH]; intros cur c r H N C.
  - cbn [app split_words]. rewrite C, app_nil_r in *. destruct cur; [contradiction|reflexivity].
  - cbn [app split_words]. rewrite (ws_false x (H x (or_introl eq_refl))).
    rewrite IH; [rewrite <- app_assoc; reflexivity|intros y Hy; apply H; right; exact Hy| |exact C].
    intro E. apply app_eq_nil in E. destruct E as [E _]. destruct cur; discriminate E.
Qed.
Lemma split_pairs l : pairs_ok l -> split_words [] (files_text l) = concat (map (fun e => [fst e; snd e]) l).
Proof.
  intro H. unfold files_text. cbn [split_words]. change (ws 10) with true. cbv iota.
  induction l as [|[b i] l IH]; [reflexivity|]. cbn [map concat pair_text fst snd app].
  destruct (H b i (or_introl eq_refl)) as ((Nb & Hb) & (Ni & Hi)).
  rewrite <- !app_assoc. cbn [app]. rewrite split_word; [|exact Hb|exact Nb|reflexivity].
  cbn [app]. f_equal. rewrite <- app_assoc. cbn [app]. rewrite split_word; [|exact Hi|exact Ni|reflexivity].
  cbn [app]. f_equal. apply IH. intros b' i' H'. apply H. right; exact H'.
Qed.

(** ** Installing. *)
Lemma install_spec src l : forall dest r, NoDup (map fst dest) ->
  install_files src (concat (map (fun e => [fst e; snd e]) l)) dest = Some r ->
  NoDup (map fst r) /\
  (forall n c, get n r = Some c -> get n dest = Some c \/ exists b i, installs l b i /\ n = no_slashes i /\ src (no_slashes b) = Some c) /\
  (forall b i, installs l b i -> exists c, src (no_slashes b) = Some c /\
     ((forall b' i', installs l b' i' -> no_slashes i' = no_slashes i -> b' = b) -> get (no_slashes i) r = Some c)) /\
  (forall n, (forall b i, installs l b i -> no_slashes i <> n) -> get n r = get n dest).
Proof.
  induction l as [|[b i] l IH]; intros dest r N H; cbn [map concat app install_files fst snd] in H.
  - apply some_inj in H. subst. split; [exact N|]. split; [auto|]. split; [intros b i ([] & _)|reflexivity].
  - destruct (list_eqb i (str "IGNORE")) eqn:E.
    + apply list_eqb_eq in E. destruct (IH dest r N H) as (R1 & R2 & R3 & R4).
      assert (U : forall b' i', installs ((b, i) :: l) b' i' -> installs l b' i').
      { intros b' i' ([E'|Hi] & Ni); [injection E' as <- <-; contradiction|split; assumption]. }
      split; [exact R1|]. split.
      { intros n c G. destruct (R2 n c G) as [G'|(b' & i' & (Hi & Ni) & G')]; [left; exact G'|right].
        exists b', i'. split; [split; [right; exact Hi|exact Ni]|exact G']. }
      split.
      * intros b' i' I'. destruct (R3 b' i' (U _ _ I')) as (c & S & G). exists c. split; [exact S|]. intro Q. apply G.
        intros b2 i2 (I2 & N2) E2. apply (Q b2 i2); [split; [right; exact I2|exact N2]|exact E2].
      * intros n Q. apply R4. intros b' i' (I' & N'). apply (Q b' i'). split; [right; exact I'|exact N'].
    + assert (Ni : i <> str "IGNORE") by (intros ->; rewrite eqb_self in E; discriminate E).
      destruct (src (no_slashes b)) as [c0|] eqn:S0; [|discriminate H].
      destruct (IH _ r (put_nodup (no_slashes i) c0 dest N) H) as (R1 & R2 & R3 & R4).
      split; [exact R1|]. split; [|split].
      * intros n c G. destruct (R2 n c G) as [G'|(b' & i' & (Hi & Ni') & G')].
        { rewrite get_put in G'. destruct (list_eqb (no_slashes i) n) eqn:En; [|left; exact G'].
          apply list_eqb_eq in En. injection G' as <-. right. exists b, i.
          split; [split; [left; reflexivity|exact Ni]|split; [symmetry; exact En|exact S0]]. }
        right. exists b', i'. split; [split; [right; exact Hi|exact Ni']|exact G'].
      * intros b' i' (I' & N').
        assert (D : (exists b2 i2, installs l b2 i2 /\ no_slashes i2 = no_slashes i') \/ (forall b2 i2, installs l b2 i2 -> no_slashes i2 <> no_slashes i')).
        { clear. induction l as [|[b2 i2] l IH]; [right; intros b2 i2 ([] & _)|].
          destruct (list_eq_dec Z.eq_dec i2 (str "IGNORE")) as [Ei|Ei].
          - destruct IH as [(b3 & i3 & (I3 & N3) & E3)|IH]; [left; exists b3, i3; split; [split; [right; exact I3|exact N3]|exact E3]|right].
            intros b3 i3 ([E3|I3] & N3); [injection E3 as <- <-; contradiction|apply (IH b3); split; assumption].
          - destruct (list_eq_dec Z.eq_dec (no_slashes i2) (no_slashes i')) as [Eq|Nq].
            + left. exists b2, i2. split; [split; [left; reflexivity|exact Ei]|exact Eq].
            + destruct IH as [(b3 & i3 & (I3 & N3) & E3)|IH]; [left; exists b3, i3; split; [split; [right; exact I3|exact N3]|exact E3]|right].
              intros b3 i3 ([E3|I3] & N3); [injection E3 as <- <-; exact Nq|apply (IH b3); split; assumption]. }
        destruct I' as [E'|I'].
        { injection E' as <- <-. exists c0. split; [exact S0|]. intro Q.
          destruct D as [(b2 & i2 & I2 & E2)|D].
          - assert (b2 = b) by (apply (Q b2 i2); [destruct I2; split; [right; assumption|assumption]|exact E2]). subst b2.
            destruct (R3 b i2 I2) as (c & S & G). assert (c = c0) by congruence. subst c. rewrite <- E2. apply G.
            intros b3 i3 (I3 & N3) E3. apply (Q b3 i3); [split; [right; exact I3|exact N3]|congruence].
          - rewrite (R4 (no_slashes i) D), get_put, eqb_self. reflexivity. }
        destruct (R3 b' i' (conj I' N')) as (c & S & G). exists c. split; [exact S|]. intro Q. apply G.
        intros b2 i2 (I2 & N2) E2. apply (Q b2 i2); [split; [right; exact I2|exact N2]|exact E2].
      * intros n Q. rewrite R4; [|intros b' i' (I' & N'); apply (Q b' i'); split; [right; exact I'|exact N']].
        rewrite get_put. destruct (list_eqb (no_slashes i) n) eqn:En; [|reflexivity].
        apply list_eqb_eq in En. destruct (Q b i (conj (or_introl eq_refl) Ni) En).
Qed.

(** ** Where a word followed by a blank can be. *)
Lemma mid (a : Z) : forall s1 t1 u post, s1 ++ a :: t1 = u ++ post ->
  (exists v, post = v ++ a :: t1 /\ s1 = u ++ v) \/ (exists u', u = s1 ++ a :: u' /\ t1 = u' ++ post).
Proof.
  induction s1 as [|x s1 IH]; intros t1 u post E.
  - destruct u as [|y u]; cbn in E; [left; exists []; split; [symmetry; exact E|reflexivity]|].
    injection E as <- E. right. exists u. split; [reflexivity|exact E].
  - destruct u as [|y u]; cbn in E; [left; exists (x :: s1); split; [symmetry; exact E|reflexivity]|].
    injection E as <- E. destruct (IH t1 u post E) as [(v & -> & ->)|(u' & -> & ->)].
    + left. exists v. split; reflexivity.
    + right. exists u'. split; reflexivity.
Qed.
Lemma listed l : forall pre w post, pairs_ok l -> plain_word w -> concat (map pair_text l) = pre ++ w ++ 32 :: post ->
  exists b i x, In (b, i) l /\ b = x ++ w.
Proof.
  induction l as [|[b i] l IH]; intros pre w post H W E.
  - cbn in E. destruct pre; [destruct w; discriminate E|discriminate E].
  - destruct (H b i (or_introl eq_refl)) as ((Nb & Hb) & (Ni & Hi)). destruct W as (Nw & Hw).
    cbn [map concat] in E. unfold pair_text at 1 in E. cbn [fst snd] in E. rewrite <- app_assoc in E. cbn [app] in E.
    rewrite app_assoc in E. destruct (mid 32 b _ (pre ++ w) (32 :: post) E) as [(v & Ev & Eb)|(u' & Eu & Et)].
    + destruct v as [|x v].
      * rewrite app_nil_r in Eb. exists b, i, pre. split; [left; reflexivity|exact Eb].
      * cbn in Ev. injection Ev as <- Ev. destruct (Hb 32) as (C & _); [rewrite Eb; apply in_or_app; right; left; reflexivity|contradiction].
    + symmetry in Eu. destruct (mid 32 b u' pre w Eu) as [(v & -> & ->)|(p' & -> & Eu')] .
      { destruct (Hw 32) as (C & _); [apply in_or_app; right; left; reflexivity|contradiction]. }
      rewrite Eu' in Et. rewrite <- app_assoc in Et. cbn [app] in Et.
      destruct (mid 10 i _ (p' ++ w) (32 :: post) Et) as [(v & Ev & Ei)|(u2 & Eu2 & Et2)].
      * destruct v as [|x v]; [discriminate Ev|]. cbn in Ev. injection Ev as <- Ev.
        destruct (Hi 32) as (C & _); [rewrite Ei; apply in_or_app; right; left; reflexivity|contradiction].
      * symmetry in Eu2. destruct (mid 10 i u2 p' w Eu2) as [(v & -> & ->)|(p2 & -> & E2)].
        { destruct (Hw 10) as (_ & _ & C); [apply in_or_app; right; left; reflexivity|contradiction]. }
        rewrite E2, <- app_assoc in Et2.
        destruct (IH p2 w post (fun b' i' H' => H b' i' (or_intror H')) (conj Nw Hw) Et2) as (b' & i' & x & Hb' & Eb').
        exists b', i', x. split; [right; exact Hb'|exact Eb'].
Qed.

(** ** Symbols. *)
Lemma digit_iff c : digit c = true <-> 48 <= c <= 57.
Proof. unfold digit. rewrite andb_true_iff, !Z.leb_le. reflexivity. Qed.
Lemma alnum_iff c : alnum c = true <-> is_alnum c.
Proof. unfold alnum, is_alnum. rewrite !orb_true_iff, digit_iff, !andb_true_iff, !Z.leb_le. tauto. Qed.
Lemma word_dot_iff s : forall b, word_dot b s = true <->
  exists w d, s = w ++ 46 :: d /\ (b = true \/ w <> []) /\ d <> [] /\ (forall c, In c w -> is_alnum c \/ c = 95) /\ (forall c, In c d -> 48 <= c <= 57).
Proof.
  induction s as [|c s IH]; intro b; cbn [word_dot].
  - split; [discriminate|intros (w & d & E & _); destruct w; discriminate E].
  - destruct (alnum c || (c =? 95)) eqn:A.
    + rewrite IH. assert (Ac : is_alnum c \/ c = 95) by (apply orb_true_iff in A; destruct A as [A|A]; [left; apply alnum_iff; exact A|right; apply Z.eqb_eq; exact A]).
      split.
      * intros (w & d & -> & _ & Nd & Hw & Hd). exists (c :: w), d. split; [reflexivity|]. split; [right; discriminate|]. split; [exact Nd|].
        split; [intros x [<-|Hx]; [exact Ac|apply Hw; exact Hx]|exact Hd].
      * intros (w & d & E & _ & Nd & Hw & Hd). destruct w as [|x w].
        { cbn in E. injection E as -> ->. destruct Ac as [Ac|Ac]; [unfold is_alnum in Ac; lia|lia]. }
        cbn in E. injection E as -> ->. exists w, d. split; [reflexivity|]. split; [left; reflexivity|]. split; [exact Nd|].
        split; [intros y Hy; apply Hw; right; exact Hy|exact Hd].
    + rewrite !andb_true_iff. split.
      * intros ((-> & E) & D). apply Z.eqb_eq in E. subst c. exists [], s. split; [reflexivity|]. split; [left; reflexivity|].
        destruct s as [|x s]; [discriminate D|]. split; [discriminate|]. split; [intros y []|].
        rewrite forallb_forall in D. intros y Hy. apply digit_iff, D, Hy.
      * intros (w & d & E & Hb & Nd & Hw & Hd). destruct w as [|x w].
        { cbn in E. injection E as -> ->. destruct Hb as [-> |Hb]; [|contradiction]. split; [split; reflexivity|].
          destruct d; [contradiction|]. apply forallb_forall. intros y Hy. apply digit_iff, Hd, Hy. }
        cbn in E. injection E as -> ->. destruct (Hw x (or_introl eq_refl)) as [Hx|Hx].
        { apply alnum_iff in Hx. rewrite Hx in A. discriminate A. }
        { subst x. rewrite Z.eqb_refl, orb_true_r in A. discriminate A. }
Qed.
Lemma skip_opt_iff p s t : In t (skip_opt p s) <-> exists o, optional p o /\ s = o ++ t.
Proof.
  unfold skip_opt. destruct (prefixb p s) eqn:E.
  - apply prefixb_iff in E. destruct E as (b & ->). rewrite skipn_app, skipn_all, Nat.sub_diag. cbn [skipn app]. split.
    + intros [<-|[<-|[]]]; [exists p; split; [left; reflexivity|reflexivity]|exists []; split; [right; reflexivity|reflexivity]].
    + intros (o & [-> | ->] & H); [left; apply app_inv_head in H; exact H|right; left; exact H].
  - split.
    + intros [<-|[]]. exists []. split; [right; reflexivity|reflexivity].
    + intros (o & [-> | ->] & ->); [|left; reflexivity].
      exfalso. assert (X : prefixb p (p ++ t) = true) by (apply prefixb_iff; exists t; reflexivity). congruence.
Qed.
Lemma lock_iff s : lock_name s = true <-> exists r c t u z, optional (str "robust_") r /\ optional (str "cond_") c /\ optional (str "timed") t /\
  optional (str "un") u /\ s = str "_L_" ++ r ++ c ++ t ++ u ++ str "lock" ++ z.
Proof.
  unfold lock_name. rewrite andb_true_iff, prefixb_iff, existsb_exists. split.
  - intros ((b & ->) & x & Hx & L). apply prefixb_iff in L. destruct L as (z & ->).
    change (skipn 3 (str "_L_" ++ b)) with b in Hx.
    apply in_flat_map in Hx. destruct Hx as (x1 & Hx & U). apply in_flat_map in Hx. destruct Hx as (x2 & Hx & T).
    apply in_flat_map in Hx. destruct Hx as (x3 & R & C).
    apply skip_opt_iff in U, T, C, R. destruct U as (u & U & ->), T as (t & T & ->), C as (c & C & ->), R as (r & R & ->).
    exists r, c, t, u, z. repeat (split; [assumption|]). reflexivity.
  - intros (r & c & t & u & z & R & C & T & U & ->). split; [eexists; reflexivity|].
    exists (str "lock" ++ z). split; [|apply prefixb_iff; exists z; reflexivity].
    change (skipn 3 (str "_L_" ++ r ++ c ++ t ++ u ++ str "lock" ++ z)) with (r ++ c ++ t ++ u ++ str "lock" ++ z).
    apply in_flat_map. exists (u ++ str "lock" ++ z). split; [|apply skip_opt_iff; exists u; auto].
    apply in_flat_map. exists (t ++ u ++ str "lock" ++ z). split; [|apply skip_opt_iff; exists t; auto].
    apply in_flat_map. exists (c ++ t ++ u ++ str "lock" ++ z). split; [|apply skip_opt_iff; exists c; auto].
    apply skip_opt_iff. exists r. auto.
Qed.
Lemma skip_iff s : skip_symbol s = true <-> left_out s.
Proof.
  unfold skip_symbol. rewrite !orb_true_iff, !prefixb_iff, word_dot_iff, lock_iff. split.
  - intros [[[H|(w & d & -> & [Hf|Nw] & Nd & Hw & Hd)]|(r & c & t & u & z & R & C & T & U & ->)]|H].
    + apply lo_reserved; exact H.
    + discriminate Hf.
    + apply lo_numbered; assumption.
    + apply lo_lock; assumption.
    + apply lo_local; exact H.
  - intros [s' H|s' H|w d Nw Nd Hw Hd|r c t u z R C T U].
    + auto.
    + auto.
    + left. left. right. exists w, d. split; [reflexivity|]. split; [right; exact Nw|]. split; [exact Nd|]. split; [exact Hw|exact Hd].
    + left. right. exists r, c, t, u, z. repeat (split; [assumption|]). reflexivity.
Qed.

Lemma sect_in l r : NoDup (map r_num l) -> In r l -> sect_of l (r_num r) = Some r.
Proof.
  intros N Hi. unfold sect_of. apply in_rev in Hi. assert (N' : NoDup (map r_num (rev l))) by (rewrite map_rev; apply NoDup_rev; exact N).
  revert N' Hi. generalize (rev l). clear. induction l as [|x l IH]; intros N Hi; [destruct Hi|]. cbn [find].
  inversion N as [|? ? N1 N2]; subst. destruct Hi as [->|Hi]; [rewrite Z.eqb_refl; reflexivity|].
  destruct (Z.eqb_spec (r_num x) (r_num r)) as [E|_]; [|exact (IH N2 Hi)].
  destruct N1. rewrite E. apply in_map. exact Hi.
Qed.
Lemma in_sect x n r : listing_ok x -> In r (fst x) -> r_num r = n ->
  addr_of (fst x) (Some n) = (if contains (str "kpatch") (r_name r) then -1 else r_addr r) /\ name_of (fst x) (Some n) = r_name r.
Proof.
  intros (N & P & _) Hr En. cbn [addr_of name_of]. rewrite <- En, (sect_in _ _ N Hr).
  destruct (P r Hr) as [P1 _]. replace (r_num r =? 0) with false by (symmetry; apply Z.eqb_neq; lia). split; reflexivity.
Qed.
Lemma contains_false p s : contains p s = false <-> ~ infix p s.
Proof. rewrite <- contains_iff. destruct (contains p s); split; intro H; [discriminate H|destruct (H eq_refl)|discriminate|reflexivity]. Qed.

Lemma line_iff x ln : listing_ok x -> In ln (de_offset x) <-> compared x (l_name ln) (l_size ln) (l_sect ln) (l_off ln).
Proof.
  intro OK. unfold de_offset. rewrite in_flat_map. split.
  - intros (y & Hy & Hl).
    destruct (negb (y_value y =? 0) && (list_eqb (y_type y) (str "FUNC") || list_eqb (y_type y) (str "OBJECT")) &&
      negb (skip_symbol (y_name y)) && negb (addr_of (fst x) (y_shndx y) =? -1)) eqn:C; [|destruct Hl].
    destruct Hl as [<-|[]]. cbn [l_name l_size l_sect l_off].
    rewrite !andb_true_iff, !negb_true_iff, orb_true_iff, !Z.eqb_neq, !list_eqb_eq in C. destruct C as (((C1 & C2) & C3) & C4).
    exists y, (addr_of (fst x) (y_shndx y)). split; [exact Hy|]. split; [exact C1|]. split; [exact C2|].
    split; [intro L; apply skip_iff in L; congruence|]. split; [|auto].
    unfold placed. destruct (y_shndx y) as [n|] eqn:En; [|split; reflexivity].
    destruct OK as (N & P & R). pose proof (R y n Hy En) as Hn. apply in_map_iff in Hn. destruct Hn as (r & Er & Hr).
    destruct (in_sect x n r (conj N (conj P R)) Hr Er) as [A B]. rewrite A in *. rewrite B.
    destruct (contains (str "kpatch") (r_name r)) eqn:K; [contradiction|].
    exists r. split; [exact Hr|]. split; [exact Er|]. split; [reflexivity|]. split; [reflexivity|apply contains_false; exact K].
  - intros (y & addr & Hy & V & T & L & P & En & Es & Eo). exists y. split; [exact Hy|].
    assert (A : addr_of (fst x) (y_shndx y) = addr /\ name_of (fst x) (y_shndx y) = l_sect ln /\ addr <> -1).
    { unfold placed in P. destruct (y_shndx y) as [n|] eqn:Ey.
      - destruct P as (r & Hr & Er & Sn & Ad & K). destruct (in_sect x n r OK Hr Er) as [A B]. rewrite A, B.
        rewrite Sn in K. apply contains_false in K. rewrite K. subst addr. split; [reflexivity|]. split; [symmetry; exact Sn|].
        destruct OK as (_ & Q & _). destruct (Q r Hr). lia.
      - destruct P as (P1 & P2). cbn. split; [symmetry; exact P2|]. split; [symmetry; exact P1|lia]. }
    destruct A as (A1 & A2 & A3). rewrite A1, A2.
    replace (negb (y_value y =? 0) && (list_eqb (y_type y) (str "FUNC") || list_eqb (y_type y) (str "OBJECT")) &&
      negb (skip_symbol (y_name y)) && negb (addr =? -1)) with true.
    + left. destruct ln as [o s z n]. cbn in *. subst. reflexivity.
    + symmetry. rewrite !andb_true_iff, !negb_true_iff, orb_true_iff, !Z.eqb_neq, !list_eqb_eq.
      split; [split; [split; [exact V|exact T]|]|exact A3].
      destruct (skip_symbol (y_name y)) eqn:K; [apply skip_iff in K; contradiction|reflexivity].
Qed.

Lemma line_eqb_eq a b : line_eqb a b = true <-> a = b.
Proof.
  unfold line_eqb. rewrite !andb_true_iff, !Z.eqb_eq, !list_eqb_eq. destruct a, b; cbn. split.
  - intros (((-> & ->) & ->) & ->). reflexivity.
  - intro H. injection H as -> -> -> ->. auto.
Qed.
Lemma count_pos a l : In a l <-> (0 < count a l)%nat.
Proof.
  unfold count. induction l as [|x l IH]; cbn [filter In length]; [split; [intros []|lia]|].
  destruct (line_eqb a x) eqn:E.
  - apply line_eqb_eq in E. subst x. cbn [length]. split; [lia|left; reflexivity].
  - rewrite <- IH. split; [intros [->|H]; [|exact H]|auto].
    assert (X : line_eqb a a = true) by (apply line_eqb_eq; reflexivity). congruence.
Qed.
Lemma same_in l1 l2 : same_lines l1 l2 = true -> forall a, In a l1 <-> In a l2.
Proof.
  intros H a. unfold same_lines in H. rewrite forallb_forall in H.
  split; intro Hi; [assert (E := H a (in_or_app _ _ _ (or_introl Hi)))|assert (E := H a (in_or_app _ _ _ (or_intror Hi)))];
  apply Nat.eqb_eq in E; apply count_pos in Hi; apply count_pos; lia.
Qed.
Lemma perm_count l1 l2 : Permutation l1 l2 -> forall a, count a l1 = count a l2.
Proof.
  induction 1; intro a; unfold count in *; cbn [filter]; try reflexivity.
  - destruct (line_eqb a x); cbn; congruence.
  - destruct (line_eqb a y), (line_eqb a x); reflexivity.
  - rewrite IHPermutation1. apply IHPermutation2.
Qed.
Lemma perm_same l1 l2 : Permutation l1 l2 -> same_lines l1 l2 = true.
Proof. intro P. unfold same_lines. apply forallb_forall. intros a _. apply Nat.eqb_eq. apply perm_count. exact P. Qed.
Lemma count_remove a : forall l1 l2, count a (l1 ++ l2) = (count a l1 + count a l2)%nat.
Proof. intros. unfold count. rewrite filter_app, app_length. reflexivity. Qed.
Lemma same_perm l1 : forall l2, (forall a, count a l1 = count a l2) -> Permutation l1 l2.
Proof.
  induction l1 as [|x l1 IH]; intros l2 H.
  - destruct l2 as [|y l2]; [constructor|]. specialize (H y). unfold count in H. cbn [filter] in H.
    replace (line_eqb y y) with true in H by (symmetry; apply line_eqb_eq; reflexivity). discriminate H.
  - assert (Hi : In x l2). { apply count_pos. rewrite <- H. apply count_pos. left; reflexivity. }
    apply in_split in Hi. destruct Hi as (a & b & ->). apply Permutation_cons_app. apply IH. intro z.
    specialize (H z). rewrite count_remove in *. unfold count in *. cbn [filter] in H. destruct (line_eqb z x); cbn in H; lia.
Qed.
Lemma same_iff l1 l2 : same_lines l1 l2 = true <-> Permutation l1 l2.
Proof.
  split; [|apply perm_same]. intro H. apply same_perm. intro a.
  destruct (count a l1) as [|n] eqn:E1.
  - destruct (count a l2) as [|m] eqn:E2; [reflexivity|].
    assert (Hi : In a l1) by (apply (same_in l1 l2 H), count_pos; lia). apply count_pos in Hi. lia.
  - assert (Hi : In a l1) by (apply count_pos; lia). unfold same_lines in H. rewrite forallb_forall in H.
    specialize (H a (in_or_app _ _ _ (or_introl Hi))). apply Nat.eqb_eq in H. lia.
Qed.

(** Moving sections. *)
Lemma shift_ok d x : listing_ok x -> (forall r, In r (fst x) -> 0 <= r_addr r + d (r_num r)) -> listing_ok (shift d x).
Proof.
  intros (N & P & R) A. unfold shift, listing_ok. cbn [fst snd].
  assert (E : map r_num (map (shift_sect d) (fst x)) = map r_num (fst x)) by (rewrite map_map; reflexivity).
  rewrite E. split; [exact N|]. split.
  - intros r Hr. apply in_map_iff in Hr. destruct Hr as (q & <- & Hq). cbn. split; [apply P; exact Hq|apply A; exact Hq].
  - intros y n Hy Ey. apply in_map_iff in Hy. destruct Hy as (q & <- & Hq). exact (R q n Hq Ey).
Qed.
Lemma sect_shift d l n : sect_of (map (shift_sect d) l) n = option_map (shift_sect d) (sect_of l n).
Proof.
  unfold sect_of. rewrite <- map_rev. induction (rev l) as [|r q IH]; [reflexivity|]. cbn [map find]. cbn [r_num shift_sect].
  destruct (r_num r =? n); [reflexivity|exact IH].
Qed.
Lemma de_offset_shift d x : listing_ok x -> (forall r, In r (fst x) -> 0 <= r_addr r + d (r_num r)) ->
  (forall y n, In y (snd x) -> y_shndx y = Some n -> (y_value y + d n = 0 <-> y_value y = 0)) ->
  de_offset (shift d x) = de_offset x.
Proof.
  intros OK A V. unfold de_offset, shift. cbn [fst snd].
  assert (G : forall ys, (forall y, In y ys -> In y (snd x)) ->
    flat_map (fun y => if negb (y_value y =? 0) && (list_eqb (y_type y) (str "FUNC") || list_eqb (y_type y) (str "OBJECT"))
       && negb (skip_symbol (y_name y)) && negb (addr_of (map (shift_sect d) (fst x)) (y_shndx y) =? -1)
     then [{| l_off := y_value y - addr_of (map (shift_sect d) (fst x)) (y_shndx y); l_sect := name_of (map (shift_sect d) (fst x)) (y_shndx y);
             l_size := y_size y; l_name := y_name y |}] else []) (map (shift_sym d) ys)
    = flat_map (fun y => if negb (y_value y =? 0) && (list_eqb (y_type y) (str "FUNC") || list_eqb (y_type y) (str "OBJECT"))
       && negb (skip_symbol (y_name y)) && negb (addr_of (fst x) (y_shndx y) =? -1)
     then [{| l_off := y_value y - addr_of (fst x) (y_shndx y); l_sect := name_of (fst x) (y_shndx y);
             l_size := y_size y; l_name := y_name y |}] else []) ys); [|apply G; auto].
  induction ys as [|y ys IH]; intro S; [reflexivity|]. cbn [map flat_map]. rewrite IH by (intros z Hz; apply S; right; exact Hz). f_equal.
  cbn [y_value y_type y_name y_shndx y_size shift_sym]. pose proof (S y (or_introl eq_refl)) as Hy.
  destruct (y_shndx y) as [n|] eqn:Ey; [|cbn [addr_of name_of]; reflexivity].
  destruct OK as (N & P & R). pose proof (R y n Hy Ey) as Hn. apply in_map_iff in Hn. destruct Hn as (r & Er & Hr).
  destruct (in_sect x n r (conj N (conj P R)) Hr Er) as [A1 B1].
  assert (Hr' : In (shift_sect d r) (fst (shift d x))) by (cbn; apply in_map; exact Hr).
  destruct (in_sect (shift d x) n (shift_sect d r) (shift_ok d x (conj N (conj P R)) A) Hr' Er) as [A2 B2].
  cbn [fst shift] in A2, B2. rewrite A1, B1, A2, B2. cbn [r_name shift_sect r_addr].
  replace (y_value y + d n =? 0) with (y_value y =? 0).
  2: { specialize (V y n Hy Ey). destruct (Z.eqb_spec (y_value y) 0), (Z.eqb_spec (y_value y + d n) 0); tauto || reflexivity. }
  destruct (contains (str "kpatch") (r_name r)).
  - rewrite !Z.eqb_refl. cbn [negb]. rewrite !andb_false_r. reflexivity.
  - pose proof (proj2 (P r Hr)). pose proof (A r Hr). rewrite Er in *.
    replace (r_addr r + d n =? -1) with false by (symmetry; apply Z.eqb_neq; lia).
    replace (r_addr r =? -1) with false by (symmetry; apply Z.eqb_neq; lia).
    replace (y_value y + d n - (r_addr r + d n)) with (y_value y - r_addr r) by lia. reflexivity.
Qed.
