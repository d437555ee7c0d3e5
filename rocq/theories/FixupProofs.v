(** Proofs about kpatch_strip --rel-fixup. *)
From Coq Require Import ZArith List Bool Lia ZifyBool ZifyNat String.
From Verif Require Import Base BaseProofs RelocModel RelocSpec RelocProofs TextModel TextProofs StorageModel StripModel StripSpec StripProofs FixupModel FixupSpec.
Import ListNotations.
Open Scope list_scope.
Open Scope Z_scope.

Lemma find_section_sym_spec sh ys : forall i k, 0 <= i -> find_section_sym sh ys i = Some k ->
  i <= k /\ exists y, nth_error ys (Z.to_nat (k - i)) = Some y /\ y_type y = STT_SECTION /\ y_shndx y = sh.
Proof.
  induction ys as [|y ys IH]; intros i k Hi H; cbn [find_section_sym] in H; [discriminate|].
  destruct (_ && _) eqn:E.
  - injection H as <-. split; [lia|]. exists y. rewrite Z.sub_diag. split; [reflexivity|]. lia.
  - destruct (IH (i + 1) k ltac:(lia) H) as (L & z & N & T & S'). split; [lia|]. exists z. split; [|auto].
    replace (Z.to_nat (k - i)) with (S (Z.to_nat (k - (i + 1)))) by lia. exact N.
Qed.
Lemma local_loc_spec p ys y i o : local_loc p ys y = Some (i, o) -> y_type y <> STT_TLS ->
  0 <= i /\ (exists z, nth_error ys (Z.to_nat i) = Some z /\ y_type z = STT_SECTION /\ y_shndx z = y_shndx y) /\
  exists s, nth_error (o_secs p) (Z.to_nat (y_shndx y)) = Some s /\ o = y_value y - s_addr s /\ 0 <= o.
Proof.
  unfold local_loc. destruct (find_section_sym _ _ _) as [k|] eqn:F; [|discriminate].
  destruct (sym_loc _ _) as [[o' n]|] eqn:L; [|discriminate]. intros H T. injection H as E1 E2. subst k o'.
  destruct (find_section_sym_spec _ _ 0 i (Z.le_refl 0) F) as (P & z & N & Z1 & Z2). rewrite Z.sub_0_r in N.
  split; [exact P|]. split; [exists z; auto|]. unfold sym_loc in L. rewrite (proj2 (Z.eqb_neq _ _) T) in L.
  destruct (nth_error (o_secs p) _) as [s|]; [|discriminate]. destruct (_ <? _) eqn:V; [discriminate|]. injection L as <- <-.
  exists s. split; [reflexivity|]. lia.
Qed.
Lemma plt_pc_spec r : r_offset (plt_pc r) = r_offset r /\ r_sym (plt_pc r) = r_sym r /\ r_addend (plt_pc r) = r_addend r /\ retyped (r_type r) (r_type (plt_pc r)).
Proof.
  unfold plt_pc, retyped. destruct (r_type r =? R_X86_64_PLT32) eqn:E; cbn [with_info r_offset r_sym r_addend r_type];
    [|auto]. repeat split; auto. right. unfold R_X86_64_PLT32, R_X86_64_PC32 in *. lia.
Qed.
Lemma is_gotpcrel_iff t : is_gotpcrel t = true <-> got_type t.
Proof.
  unfold is_gotpcrel, got_type, R_X86_64_GOTPCREL, R_X86_64_REX_GOTPCRELX, R_X86_64_GOTPCRELX. rewrite !orb_true_iff, !Z.eqb_eq.
  cbn [In]. intuition.
Qed.
(** Bytes change only from MOV to LEA, two before the field of a reference to the table *)
Definition leaed (bs bs' : list Z) (off : Z) : Prop :=
  bs' = bs /\ ~ slice bs off 1 = Some [0x8b] \/ slice bs off 1 = Some [0x8b] /\ splice bs off [0x8d] = Some bs'.
Lemma mov_lea_spec bs off bs' : mov_lea bs off = FOk bs' -> leaed bs bs' off.
Proof.
  unfold mov_lea, leaed. destruct (slice bs off 1) as [[|b [|]]|] eqn:E; try discriminate. destruct (b =? 0x8b) eqn:B.
  - destruct (splice bs off [0x8d]) as [x|]; [|discriminate]. intros H. injection H as <-. right. replace b with 0x8b by lia. auto.
  - intros H. injection H as <-. left. split; [reflexivity|]. intros X. injection X as ->. discriminate.
Qed.

(** One relocation against an ordinary symbol *)
Lemma fixup_one_plain A dyn orig patch syms r y addr bs r' oy bs' :
  fixup_one A dyn orig patch syms r y addr bs = FOk (r', oy, bs') -> y_type y <> STT_TLS ->
  r_offset r' = r_offset r /\ retyped (r_type r) (r_type r') /\
  (r_sym r' = r_sym r /\ r_addend r' = r_addend r \/
   y_type y <> STT_SECTION /\ y_bind y = STB_LOCAL /\ exists n, y_name y = DOT :: n /\ exists i o, local_loc patch syms y = Some (i, o) /\ r_sym r' = i /\ r_addend r' = u64 (r_addend r + o)) /\
  (oy = None \/ oy = Some (undefine y) /\ f_copy A = true /\ In AT (y_name y)) /\
  (bs' = bs \/ got_type (r_type r) /\ y_shndx y <> 0 /\ leaed bs bs' (u64 (r_offset r - addr - 2))).
Proof.
  intros H T. unfold fixup_one in H. destruct (y_type y =? STT_SECTION) eqn:Sec.
  { injection H as <- <- <-. split; [reflexivity|]. split; [left; reflexivity|]. split; [left; auto|]. split; left; reflexivity. }
  rewrite (proj2 (Z.eqb_neq _ _) T) in H. destruct (our_section _ _).
  { injection H as <- <- <-. destruct (plt_pc_spec r) as (P1 & P2 & P3 & P4). split; [exact P1|]. split; [exact P4|]. split; [left; auto|]. split; left; reflexivity. }
  destruct (_ && _ && _ && _); [discriminate|].
  set (r1 := if _ && _ then _ else Some r) in H.
  assert (R1 : match r1 with None => True | Some q => r_offset q = r_offset r /\ r_type q = r_type r /\
    (r_sym q = r_sym r /\ r_addend q = r_addend r \/
     y_type y <> STT_SECTION /\ y_bind y = STB_LOCAL /\ exists n, y_name y = DOT :: n /\ exists i o, local_loc patch syms y = Some (i, o) /\ r_sym q = i /\ r_addend q = u64 (r_addend r + o)) end).
  { subst r1. destruct ((y_bind y =? STB_LOCAL) && _) eqn:L.
    - apply andb_true_iff in L as [L1 L2]. destruct (y_name y) as [|c n] eqn:N; [discriminate|].
      destruct (local_loc patch syms y) as [[i o]|]; [|exact Logic.I]. cbn [with_addend with_info r_offset r_type r_sym r_addend].
      split; [reflexivity|]. split; [reflexivity|]. right. split; [lia|]. split; [lia|]. exists n. split; [f_equal; lia|]. exists i, o. auto.
    - split; [reflexivity|]. split; [reflexivity|]. left. auto. }
  clearbody r1. destruct r1 as [q|]; [|discriminate]. destruct R1 as (Q1 & Q2 & Q3).
  destruct (plt_pc_spec q) as (P1 & P2 & P3 & P4). rewrite Q2 in P4. rewrite Q1 in P1. rewrite <- P2, <- P3 in Q3.
  destruct (y_shndx y =? SHN_UNDEF) eqn:U.
  { injection H as <- <- <-. split; [exact P1|]. split; [exact P4|]. split; [exact Q3|]. split; left; reflexivity. }
  assert (X : exists b1, (if is_gotpcrel (r_type q) then mov_lea bs (u64 (r_offset q - addr - 2)) else FOk bs) = FOk b1 /\
     r' = plt_pc q /\ bs' = b1 /\ (oy = None \/ oy = Some (undefine y) /\ f_copy A = true /\ In AT (y_name y))).
  { destruct (if is_gotpcrel (r_type q) then _ else FOk bs) as [b1| | |]; try discriminate. exists b1. split; [reflexivity|].
    destruct (f_copy A && _ && _) eqn:C; injection H as <- <- <-; [|auto]. rewrite !andb_true_iff in C. destruct C as [[C1 C2] _].
    split; [reflexivity|]. split; [reflexivity|]. right. split; [reflexivity|]. split; [exact C1|]. apply existsb_exists in C2 as (x & C2 & C3).
    replace AT with x by lia. exact C2. }
  clear H. destruct X as (b1 & B & -> & -> & O). split; [exact P1|]. split; [exact P4|]. split; [exact Q3|]. split; [exact O|].
  destruct (is_gotpcrel (r_type q)) eqn:G; [|injection B as <-; left; reflexivity]. right. rewrite Q2 in G. apply is_gotpcrel_iff in G.
  split; [exact G|]. split; [unfold SHN_UNDEF in U; lia|]. rewrite <- Q1. exact (mov_lea_spec _ _ _ B).
Qed.
Lemma mod_shift a b c d : (a - b + c) mod d = (c + (a - b)) mod d.
Proof. f_equal. lia. Qed.
Lemma fixup_points A dyn orig patch syms r y addr bs r' oy bs' :
  fixup_one A dyn orig patch syms r y addr bs = FOk (r', oy, bs') -> y_type y <> STT_TLS -> nth_error syms (Z.to_nat (r_sym r)) = Some y ->
  forall sh o, points (o_secs patch) syms r sh o -> points (o_secs patch) syms r' sh o.
Proof.
  intros H T N sh o P. destruct (fixup_one_plain _ _ _ _ _ _ _ _ _ _ _ _ H T) as (_ & _ & [(E1 & E2)|(NS & B & n & Nm & i & k & L & E1 & E2)] & _).
  - destruct P as [z Z1 Z2|z s Z1 Z2 Z3 Z4]; rewrite <- E2; rewrite <- E1 in Z1; econstructor; eauto.
  - destruct (local_loc_spec _ _ _ _ _ L T) as (Hi & (z & Z1 & Z2 & Z3) & s & S1 & S2 & S3).
    destruct P as [w W1 W2|w t W1 W2 W3 W4]; assert (w = y) by congruence; subst w.
    + contradiction.
    + assert (t = s) by congruence. subst t. rewrite <- Z3. replace ((y_value y - s_addr s + r_addend r) mod 2 ^ 64) with (r_addend r' mod 2 ^ 64).
      * constructor; [rewrite E1; exact Z1|exact Z2].
      * rewrite E2, S2. unfold u64. rewrite Zmod_mod. f_equal. lia.
Qed.
Lemma slice1_nth bs off b : slice bs off 1 = Some [b] -> 0 <= off /\ nth_error bs (Z.to_nat off) = Some b.
Proof.
  unfold slice. destruct (_ && _ && _) eqn:E; [|discriminate]. intros H. split; [lia|].
  change (Z.to_nat 1) with 1%nat in H. destruct (skipn (Z.to_nat off) bs) as [|x l] eqn:K; [discriminate|]. cbn [firstn] in H. injection H as ->.
  rewrite <- (Nat.add_0_r (Z.to_nat off)), <- skipn_nth, K. reflexivity.
Qed.
Lemma leaed_nth bs bs' off : leaed bs bs' off -> length bs' = length bs /\ forall j, nth_error bs' j = nth_error bs j \/
  (nth_error bs j = Some 0x8b /\ nth_error bs' j = Some 0x8d /\ Z.of_nat j = off).
Proof.
  intros [[-> _]|[H1 H2]]; [split; [reflexivity|]; left; reflexivity|]. pose proof (splice_only _ _ _ _ H2) as [L O]. split; [exact L|].
  intros j. destruct (slice1_nth _ _ _ H1) as [P N]. destruct (Nat.eq_dec j (Z.to_nat off)) as [->|D].
  - right. split; [exact N|]. split; [|lia]. pose proof (slice_splice_same _ _ _ _ H2) as S1. exact (proj2 (slice1_nth _ _ _ S1)).
  - left. specialize (O (Z.of_nat j) ltac:(lia)). rewrite Nat2Z.id in O. apply O. unfold in_range, zlen. cbn [length]. lia.
Qed.
Definition bytes_kept (addr : Z) (rs : list rela) (bs bs' : list Z) : Prop :=
  length bs' = length bs /\ forall j, nth_error bs' j = nth_error bs j \/
    (nth_error bs j = Some 0x8b /\ nth_error bs' j = Some 0x8d /\
     exists r, In r rs /\ got_type (r_type r) /\ Z.of_nat j = (r_offset r - addr - 2) mod 2 ^ 64).
Definition tls_keeps (A : farch) : Prop := forall dyn orig patch r y addr bs r', f_tls A dyn orig patch r y addr bs = FOk r' -> r_offset r' = r_offset r.
Lemma tls_got_inv t1 t2 miss dyn orig r y r' : tls_got t1 t2 miss dyn orig r y = FOk r' -> exists g, r' = with_addend r g.
Proof. unfold tls_got. set (got := if _ || _ then _ else _). clearbody got. destruct got as [g| | |]; intros H; try discriminate. injection H as <-. exists g. reflexivity. Qed.
Lemma tls_keeps_x86 : tls_keeps fx86.
Proof.
  intros dyn orig patch r y addr bs r' H. cbn [f_tls fx86] in H. unfold x86_tls in H. destruct (_ =? _).
  - destruct (orig_tls_loc _ _) as [o| | |]; try discriminate. destruct (_ =? _); [|discriminate]. injection H as <-. reflexivity.
  - destruct (_ =? _); [|discriminate]. destruct (tls_got_inv _ _ _ _ _ _ _ _ H) as [g ->]. reflexivity.
Qed.
Lemma tls_keeps_a64 : tls_keeps fa64.
Proof.
  intros dyn orig patch r y addr bs r' H. cbn [f_tls fa64] in H. unfold a64_tls in H. destruct (_ =? _); [injection H as <-; reflexivity|].
  destruct (_ =? _); [destruct (slice _ _ _); [injection H as <-; reflexivity|discriminate]|].
  destruct (_ =? _); [injection H as <-; reflexivity|discriminate].
Qed.
Lemma fixup_relas_spec A dyn orig patch syms rs addr : forall bs rs' ys bs', f_copy A = false -> tls_keeps A ->
  fixup_relas A dyn orig patch syms rs addr bs = FOk (rs', ys, bs') ->
  ys = syms /\ bytes_kept addr rs bs bs' /\
  Forall2 (fun r r' => r_offset r' = r_offset r /\ exists y, nth_error syms (Z.to_nat (r_sym r)) = Some y /\
     (y_type y <> STT_TLS -> retyped (r_type r) (r_type r') /\ forall sh o, points (o_secs patch) syms r sh o -> points (o_secs patch) syms r' sh o)) rs rs'.
Proof.
  induction rs as [|r rs IH]; intros bs rs' ys bs' C K H; cbn [fixup_relas] in H.
  - injection H as <- <- <-. split; [reflexivity|]. split; [|constructor]. split; [reflexivity|]. left. reflexivity.
  - destruct (nth_error syms _) as [y|] eqn:N; [|discriminate].
    destruct (fixup_one A dyn orig patch syms r y addr bs) as [[[r1 oy] b1]| | |] eqn:F; try discriminate.
    assert (O : oy = None /\ r_offset r1 = r_offset r /\ bytes_kept addr [r] bs b1).
    { destruct (Z.eq_dec (y_type y) STT_TLS) as [T|T].
      - unfold fixup_one in F. rewrite T in F. change (STT_TLS =? STT_SECTION) with false in F. rewrite Z.eqb_refl in F. cbn iota in F.
        destruct (f_tls A _ _ _ _ _ _ _) as [q| | |] eqn:Q; try discriminate. injection F as <- <- <-. split; [reflexivity|].
        split; [exact (K _ _ _ _ _ _ _ _ Q)|]. split; [reflexivity|]. left. reflexivity.
      - destruct (fixup_one_plain _ _ _ _ _ _ _ _ _ _ _ _ F T) as (F1 & _ & _ & F4 & F5). split; [destruct F4 as [|(_ & X & _)]; [assumption|congruence]|].
        split; [exact F1|]. destruct F5 as [->|(G & _ & L)]; [split; [reflexivity|left; reflexivity]|].
        destruct (leaed_nth _ _ _ L) as [L1 L2]. split; [exact L1|]. intros j. destruct (L2 j) as [|(A1 & A2 & A3)]; [left; assumption|].
        right. split; [exact A1|]. split; [exact A2|]. exists r. split; [left; reflexivity|]. split; [exact G|exact A3]. }
    destruct O as (-> & Of & B1).
    destruct (fixup_relas A dyn orig patch syms rs addr b1) as [[[rs1 ys1] b2]| | |] eqn:F2; try discriminate. injection H as <- <- <-.
    destruct (IH _ _ _ _ C K F2) as (-> & B2 & R). split; [reflexivity|]. split.
    { destruct B1 as [B1 B1'], B2 as [B2 B2']. split; [congruence|]. intros j.
      destruct (B2' j) as [E2|(X1 & X2 & q & X3 & X4 & X5)], (B1' j) as [E1|(Y1 & Y2 & q' & Y3 & Y4 & Y5)].
      - left. congruence.
      - right. split; [exact Y1|]. split; [congruence|]. exists q'. destruct Y3 as [<-|[]]. split; [left; reflexivity|]. auto.
      - right. split; [congruence|]. split; [exact X2|]. exists q. split; [right; exact X3|]. auto.
      - congruence. }
    constructor; [|exact R]. split; [exact Of|]. exists y. split; [exact N|]. intros T.
    destruct (fixup_one_plain _ _ _ _ _ _ _ _ _ _ _ _ F T) as (_ & F2' & _). split; [exact F2'|].
    exact (fixup_points _ _ _ _ _ _ _ _ _ _ _ _ F T N).
Qed.

(** ** Thread-local storage *)
Lemma find_scn_spec n ss s : find_scn n ss = Some s <-> exists pre suf, ss = pre ++ s :: suf /\ Forall (fun t => s_name t <> n) pre /\ s_name s = n.
Proof.
  induction ss as [|a ss IH]; cbn [find_scn].
  - split; [discriminate|]. intros ([|] & suf & H & _); discriminate.
  - destruct (same n (s_name a)) eqn:E.
    + apply same_spec in E. split.
      * intros H. injection H as <-. exists [], ss. auto.
      * intros ([|x pre] & suf & H & F & N); injection H as -> ->; [reflexivity|]. inversion F; congruence.
    + assert (E' : s_name a <> n) by (intros X; rewrite <- X, (proj2 (same_spec _ _) eq_refl) in E; discriminate).
      rewrite IH. split.
      * intros (pre & suf & -> & F & N). exists (a :: pre), suf. split; [reflexivity|]. auto.
      * intros ([|x pre] & suf & H & F & N); injection H as -> ->; [congruence|]. inversion F; subst. exists pre, suf. auto.
Qed.
Lemma drop_to_app f rs : exists pre, rs = pre ++ drop_to f rs /\ Forall (fun r => f r = false) pre.
Proof.
  induction rs as [|r rs (pre & E & F)]; cbn [drop_to]; [exists []; auto|]. destruct (f r) eqn:Fr; [exists []; auto|].
  exists (r :: pre). cbn [app]. split; [congruence|]. constructor; auto.
Qed.
Lemma got_skip f pre rs off : Forall (fun r => f r = false) pre -> got_by_offset f (pre ++ rs) off = got_by_offset f rs off.
Proof. induction 1 as [|r pre Hr F IH]; [reflexivity|]. cbn [app got_by_offset]. rewrite Hr. exact IH. Qed.
Lemma got_none f rs off : Forall (fun r => f r = false) rs -> got_by_offset f rs off = None.
Proof. induction 1 as [|r pre Hr F IH]; [reflexivity|]. cbn [got_by_offset]. rewrite Hr. exact IH. Qed.
Lemma got_tail f rs suf off : Forall (fun r => f r = false) suf -> got_by_offset f (rs ++ suf) off = got_by_offset f rs off.
Proof. intros F. induction rs as [|r rs IH]; cbn [app got_by_offset]; [apply got_none, F|]. rewrite IH. reflexivity. Qed.
(** The entries cut off are not TLS entries. *)
Lemma tls_reladyn_spec f o rs : tls_reladyn f o = Some rs -> exists s all pre suf, find_scn (str ".rela.dyn") (tl (o_secs o)) = Some s /\
  s_data s = CRelas all /\ all = pre ++ rs ++ suf /\ Forall (fun r => f r = false) pre /\ Forall (fun r => f r = false) suf.
Proof.
  unfold tls_reladyn. destruct (find_scn _ _) as [s|]; [|discriminate]. destruct (s_data s) as [|all] eqn:D; [discriminate|].
  destruct (existsb _ _); [|discriminate]. intros H. assert (rs = rev (drop_to f (rev (drop_to f all)))) as -> by congruence.
  destruct (drop_to_app f all) as (pre & E & F). destruct (drop_to_app f (rev (drop_to f all))) as (su & E2 & F2).
  exists s, all, pre, (rev su). split; [reflexivity|]. split; [exact D|]. split.
  - rewrite E at 1. f_equal. rewrite <- (rev_involutive (drop_to f all)) at 1. rewrite E2 at 1. rewrite rev_app_distr. reflexivity.
  - split; [exact F|]. apply Forall_rev, F2.
Qed.
Lemma tls_reladyn_some f o e : dynrela o e -> f e = true -> exists rs, tls_reladyn f o = Some rs.
Proof.
  intros (pre & s & suf & all & T & F & N & D & I) E.
  assert (X : find_scn (str ".rela.dyn") (tl (o_secs o)) = Some s) by (apply find_scn_spec; exists pre, suf; auto).
  unfold tls_reladyn. rewrite X, D. assert (Ex : existsb f (drop_to f all) = true).
  { clear - I E. induction all as [|a all IH]; [destruct I|]. cbn [drop_to]. destruct (f a) eqn:Fa; [cbn [existsb]; rewrite Fa; reflexivity|].
    destruct I as [->|I]; [congruence|exact (IH I)]. }
  rewrite Ex. eexists. reflexivity.
Qed.
Lemma got_by_offset_in f rs off g : got_by_offset f rs off = Some g -> exists e, In e rs /\ f e = true /\ r_sym e = 0 /\ r_addend e = off /\ r_offset e = g.
Proof.
  induction rs as [|r rs IH]; cbn [got_by_offset]; [discriminate|]. destruct (f r && _) eqn:E.
  - intros H. injection H as <-. exists r. split; [left; reflexivity|]. rewrite !andb_true_iff in E. destruct E as [E1 [E2 E3]]. repeat split; auto; lia.
  - intros H. destruct (IH H) as (e & I & R). exists e. split; [right; exact I|exact R].
Qed.
Lemma got_by_offset_some f rs off e : In e rs -> f e = true -> r_sym e = 0 -> r_addend e = off -> exists g, got_by_offset f rs off = Some g.
Proof.
  intros I F S1 A. induction rs as [|r rs IH]; [destruct I|]. cbn [got_by_offset]. destruct (f r && _) eqn:E; [eexists; reflexivity|].
  destruct I as [->|I]; [|exact (IH I)]. rewrite F, S1, A, !Z.eqb_refl in E. discriminate.
Qed.
Lemma dynrela_in o s all e : find_scn (str ".rela.dyn") (tl (o_secs o)) = Some s -> s_data s = CRelas all -> In e all -> dynrela o e.
Proof. intros F D I. apply find_scn_spec in F as (pre & suf & E & F & N). exists pre, s, suf, all. auto. Qed.
Lemma dynrela_all o s all e : find_scn (str ".rela.dyn") (tl (o_secs o)) = Some s -> s_data s = CRelas all -> dynrela o e -> In e all.
Proof.
  intros F D (pre & t & suf & rs & T & P & N & Dt & I).
  assert (X : find_scn (str ".rela.dyn") (tl (o_secs o)) = Some t) by (apply find_scn_spec; exists pre, suf; auto).
  rewrite X in F. injection F as <-. congruence.
Qed.
(** Own variables *)
Lemma tls_got_own tls miss dyn orig r y r' : tls_got tls tls miss dyn orig r y = FOk r' -> miss <> FOk 0 -> (forall g, miss <> FOk g) ->
  y_bind y = STB_LOCAL \/ y_shndx y <> 0 ->
  exists e, dynrela orig e /\ tls e = true /\ r_sym e = 0 /\ r_addend e = y_value y /\ r' = with_addend r (r_offset e).
Proof.
  intros H _ M O. unfold tls_got in H. replace ((y_bind y =? STB_LOCAL) || negb (y_shndx y =? SHN_UNDEF)) with true in H
    by (unfold SHN_UNDEF; destruct O as [O|O]; [rewrite O; reflexivity|rewrite (proj2 (Z.eqb_neq _ _) O), orb_true_r; reflexivity]).
  destruct (tls_reladyn tls orig) as [rs|] eqn:T; [|discriminate]. destruct (got_by_offset tls rs (y_value y)) as [g|] eqn:G.
  - injection H as <-. destruct (got_by_offset_in _ _ _ _ G) as (e & I & E1 & E2 & E3 & E4).
    destruct (tls_reladyn_spec _ _ _ T) as (s & all & pre & suf & F & D & -> & _ & _). exists e.
    split; [apply (dynrela_in _ _ _ _ F D); apply in_or_app; right; apply in_or_app; left; exact I|]. repeat split; auto. congruence.
  - destruct miss as [g| | |]; try discriminate. destruct (M g eq_refl).
Qed.
Lemma tls_got_found tls miss dyn orig r y e : y_bind y = STB_LOCAL \/ y_shndx y <> 0 -> dynrela orig e -> tls e = true -> r_sym e = 0 -> r_addend e = y_value y ->
  exists r', tls_got tls tls miss dyn orig r y = FOk r'.
Proof.
  intros O I E1 E2 E3. unfold tls_got. replace ((y_bind y =? STB_LOCAL) || negb (y_shndx y =? SHN_UNDEF)) with true
    by (unfold SHN_UNDEF; destruct O as [O|O]; [rewrite O; reflexivity|rewrite (proj2 (Z.eqb_neq _ _) O), orb_true_r; reflexivity]).
  destruct (tls_reladyn_some _ _ _ I E1) as [rs T]. rewrite T. destruct (tls_reladyn_spec _ _ _ T) as (s & all & pre & suf & F & D & E & F1 & F2).
  pose proof (dynrela_all _ _ _ _ F D I) as J. rewrite E in J.
  assert (J' : In e rs).
  { apply in_app_or in J as [J|J]; [rewrite Forall_forall in F1; specialize (F1 _ J); congruence|].
    apply in_app_or in J as [J|J]; [exact J|rewrite Forall_forall in F2; specialize (F2 _ J); congruence]. }
  destruct (got_by_offset_some _ _ _ _ J' E1 E2 E3) as [g G]. rewrite G. eexists. reflexivity.
Qed.
(** Others' variables *)
Lemma got_by_name_in f dyn rs n g : got_by_name f dyn rs n = FOk g ->
  exists e, In e rs /\ f e = true /\ r_sym e <> 0 /\ r_addend e = 0 /\ nth_error dyn (Z.to_nat (r_sym e)) = Some n /\ r_offset e = g.
Proof.
  induction rs as [|r rs IH]; cbn [got_by_name]; [discriminate|]. destruct (negb (f r) || _) eqn:E.
  - intros H. destruct (IH H) as (e & I & R). exists e. split; [right; exact I|exact R].
  - destruct (nth_error dyn _) as [d|] eqn:N; [|discriminate]. destruct (same d n) eqn:Sd.
    + intros H. injection H as <-. apply same_spec in Sd. subst d. exists r. split; [left; reflexivity|].
      apply orb_false_iff in E as [E1 E2]. apply orb_false_iff in E2 as [E2 E3]. apply negb_false_iff in E1, E3. repeat split; auto; lia.
    + intros H. destruct (IH H) as (e & I & R). exists e. split; [right; exact I|exact R].
Qed.
Lemma find_sym_spec n ys y : find_sym n ys = Some y <-> exists pre suf, ys = pre ++ y :: suf /\ Forall (fun z => y_name z <> n) pre /\ y_name y = n.
Proof.
  induction ys as [|a ys IH]; cbn [find_sym].
  - split; [discriminate|]. intros ([|] & suf & H & _); discriminate.
  - destruct (same (y_name a) n) eqn:E.
    + apply same_spec in E. split.
      * intros H. injection H as <-. exists [], ys. auto.
      * intros ([|x pre] & suf & H & F & N); injection H as -> ->; [reflexivity|]. inversion F; congruence.
    + assert (E' : y_name a <> n) by (intros X; rewrite X, (proj2 (same_spec _ _) eq_refl) in E; discriminate).
      rewrite IH. split.
      * intros (pre & suf & -> & F & N). exists (a :: pre), suf. split; [reflexivity|]. auto.
      * intros ([|x pre] & suf & H & F & N); injection H as -> ->; [congruence|]. inversion F; subst. exists pre, suf. auto.
Qed.
Lemma orig_tls_loc_ok orig n o : orig_tls_loc orig n = FOk o ->
  exists pre y suf, o_syms orig = pre ++ y :: suf /\ Forall (fun z => y_name z <> n) pre /\ y_name y = n /\ y_type y = STT_TLS /\ y_shndx y <> 0 /\ y_value y = o.
Proof.
  unfold orig_tls_loc. destruct (find_sym _ _) as [y|] eqn:F; [|discriminate]. destruct (_ =? 0) eqn:U; [discriminate|].
  apply find_sym_spec in F as (pre & suf & E & F & N). unfold sym_loc. destruct (y_type y =? STT_TLS) eqn:T.
  - intros H. injection H as <-. exists pre, y, suf. repeat split; auto; lia.
  - destruct (nth_error _ _) as [s|]; [|discriminate]. destruct (_ <? _); discriminate.
Qed.
Lemma lor_add a b k : 0 <= k -> 0 <= b < 2 ^ k -> Z.lor (Z.shiftl a k) b = a * 2 ^ k + b.
Proof.
  intros Hk Hb. rewrite <- Z.shiftl_mul_pow2 by lia.
  rewrite Z.add_nocarry_lxor; [symmetry; apply Z.lxor_lor|].
  all: apply Z.bits_inj'; intros n Hn; rewrite Z.land_spec, Z.bits_0, Z.shiftl_spec by lia;
    destruct (Z.ltb_spec n k); [rewrite (Z.testbit_neg_r a) by lia; reflexivity|];
    rewrite <- (Z.mod_small b (2 ^ k)) by lia; rewrite Z.mod_pow2_bits_high by lia; apply andb_false_r.
Qed.

Lemma land_top x : Z.land x 0xfffff000 = x / 4096 mod 2 ^ 20 * 4096.
Proof.
  rewrite <- Z.land_ones, <- Z.shiftl_mul_pow2 with (n := 12), <- Z.shiftr_div_pow2 with (n := 12) by lia.
  apply Z.bits_inj'. intros n Hn. rewrite Z.land_spec, Z.shiftl_spec by lia. change 0xfffff000 with (Z.shiftl (Z.ones 20) 12). rewrite Z.shiftl_spec by lia.
  destruct (Z.ltb_spec n 12).
  - rewrite !(Z.testbit_neg_r _ (n - 12)) by lia. apply andb_false_r.
  - rewrite Z.land_spec, Z.shiftr_spec by lia. replace (n - 12 + 12) with n by lia. reflexivity.
Qed.
Lemma adrp_got_page w addr pc : pc / 4096 = addr / 4096 -> 0 <= adrp_page w pc < 2 ^ 32 -> adrp_got w addr = adrp_page w pc.
Proof.
  intros Hp R. unfold adrp_got. rewrite land_top, (lor_add _ _ 2); [|lia|].
  2: { change 3 with (Z.ones 2). rewrite Z.land_ones by lia. apply Z.mod_pos_bound. lia. }
  change 0x7ffff with (Z.ones 19). change 3 with (Z.ones 2). rewrite !Z.land_ones, !Z.shiftr_div_pow2, Z.shiftl_mul_pow2 by lia.
  rewrite <- (Z.mod_small (adrp_page w pc) (2 ^ 32)) by lia. unfold adrp_page, u32 in *. rewrite Hp in *. change (2 ^ 2) with 4 in *.
  set (imm := w / 2 ^ 5 mod 2 ^ 19 * 4 + w / 2 ^ 29 mod 4). rewrite Zplus_mod_idemp_l.
  set (p := addr / 4096). pose proof (Z.div_mod p (2 ^ 20) ltac:(lia)) as D.
  set (q := p / 2 ^ 20) in *. set (m := p mod 2 ^ 20) in *.
  set (b := if imm <? 2 ^ 20 then _ else _).
  assert (E : exists j, b = imm + j * 2 ^ 20) by (unfold b; destruct (imm <? 2 ^ 20); [exists 0; lia|exists (-2); lia]).
  destruct E as [j ->]. replace ((p + (imm + j * 2 ^ 20)) * 4096) with (imm * 2 ^ 12 + m * 4096 + (q + j) * 2 ^ 32) by (rewrite D; ring).
  rewrite Z_mod_plus_full. reflexivity.
Qed.
