(** Lemmas about building a package of patches. *)
From Coq Require Import String Permutation.
From Verif Require Import Base BaseProofs RbModel StorageModel StorageSpec StorageProofs PkgModel PkgSpec.
Open Scope list_scope.

(** ** The list of patches. *)
Lemma read_calm l : forall acc r, calm l ->
  read_raw acc (l ++ 10 :: r) = Some (acc ++ map (fun c => (c, false)) l, r).
Proof.
  induction l as [|c l IH]; intros acc r C; cbn [app read_raw map].
  - change (10 =? 10) with true. cbn. rewrite app_nil_r. reflexivity.
  - destruct (C c (or_introl eq_refl)) as [C1 C2].
    destruct (Z.eqb_spec c 10); [contradiction|]. destruct (Z.eqb_spec c 92); [contradiction|].
    rewrite IH by (intros x Hx; apply C; right; exact Hx). rewrite <- app_assoc. reflexivity.
Qed.
Lemma read_shorter s : forall acc raw rest, read_raw acc s = Some (raw, rest) -> (length rest < length s)%nat.
Proof.
  remember (length s) as n eqn:E. revert s E. induction n as [n IH] using lt_wf_ind. intros s E acc raw rest H.
  destruct s as [|c r]; [discriminate H|]. cbn [read_raw] in H. cbn in E.
  destruct (c =? 10); [injection H as <- <-; lia|].
  destruct (c =? 92).
  - destruct r as [|d r']; [discriminate H|]. cbn in E.
    destruct (d =? 10); apply (IH (length r')) in H; try reflexivity; lia.
  - apply (IH (length r)) in H; try reflexivity; lia.
Qed.

Definition plainly (l : list Z) : list (Z * bool) := map (fun c => (c, false)) l.
Lemma drop_front p l : blanks p -> drop_blanks (plainly p ++ l) = drop_blanks l.
Proof.
  induction p as [|c p IH]; intro B; [reflexivity|]. cbn [plainly map app drop_blanks].
  assert (E : blank (c, false) = true) by (unfold blank; cbn; destruct (B c (or_introl eq_refl)) as [->| ->]; reflexivity).
  rewrite E. apply IH. intros x Hx. apply B. right; exact Hx.
Qed.
Lemma drop_stop c l : c <> 32 -> c <> 9 -> drop_blanks ((c, false) :: l) = (c, false) :: l.
Proof.
  intros H1 H2. cbn [drop_blanks]. unfold blank. cbn. destruct (Z.eqb_spec c 32); [contradiction|].
  destruct (Z.eqb_spec c 9); [contradiction|]. reflexivity.
Qed.
Lemma blanks_rev p : blanks p -> blanks (rev p).
Proof. intros B c Hc. apply B. apply in_rev. exact Hc. Qed.
Lemma plainly_rev l : rev (plainly l) = plainly (rev l).
Proof. unfold plainly. symmetry. apply map_rev. Qed.
Lemma plainly_fst l : map fst (plainly l) = l.
Proof. unfold plainly. rewrite map_map. cbn. apply map_id. Qed.
Lemma plainly_app a b : plainly (a ++ b) = plainly a ++ plainly b.
Proof. apply map_app. Qed.

Lemma strip_blank p : blanks p -> strip (plainly p) = [].
Proof.
  intro B. unfold strip. rewrite <- (app_nil_r (plainly p)), drop_front by exact B. reflexivity.
Qed.
(** Blanks around a middle whose ends are not blank. *)
Lemma strip_middle p n q : blanks p -> blanks q -> n <> [] -> (hd 0 n <> 32 /\ hd 0 n <> 9) ->
  (last n 0 <> 32 /\ last n 0 <> 9) -> strip (plainly (p ++ n ++ q)) = n.
Proof.
  intros Bp Bq Hn Hh Hl. unfold strip. rewrite plainly_app, drop_front by exact Bp.
  destruct n as [|c n]; [contradiction|]. cbn [hd] in Hh.
  rewrite plainly_app. change (plainly (c :: n)) with ((c, false) :: plainly n). cbn [app].
  rewrite drop_stop by apply Hh.
  change ((c, false) :: plainly n ++ plainly q) with (plainly (c :: n) ++ plainly q).
  rewrite rev_app_distr, !plainly_rev, drop_front by (apply blanks_rev; exact Bq).
  assert (E : exists a m, c :: n = m ++ [a] /\ a = last (c :: n) 0).
  { exists (last (c :: n) 0), (removelast (c :: n)). split; [apply app_removelast_last; discriminate|reflexivity]. }
  destruct E as (a & m & E & Ea). rewrite <- Ea in Hl. rewrite E, rev_app_distr. cbn [rev app].
  change (plainly (a :: rev m)) with ((a, false) :: plainly (rev m)). rewrite drop_stop by apply Hl.
  change ((a, false) :: plainly (rev m)) with (plainly (a :: rev m)). rewrite plainly_rev, plainly_fst.
  cbn [rev]. rewrite rev_involutive. reflexivity.
Qed.

Lemma name_line n : name_ok n -> line_of n = Name n.
Proof.
  intros (C & B & Hn & H35). unfold line_of. destruct n as [|c n]; [contradiction|].
  destruct (B c (or_introl eq_refl)) as [B1 B2]. destruct (C c (or_introl eq_refl)) as [C1 _].
  assert (F : first_char (c :: n) = Some c).
  { cbn. destruct (Z.eqb_spec c 32); [contradiction|]. destruct (Z.eqb_spec c 9); [contradiction|].
    destruct (Z.eqb_spec c 10); [contradiction|]. reflexivity. }
  rewrite F. cbn in H35.
  assert (HB : has_blank (c :: n) = false).
  { unfold has_blank. destruct (existsb _ (c :: n)) eqn:E; [|reflexivity]. apply existsb_exists in E.
    destruct E as (x & Hx & E). destruct (B x Hx), (C x Hx).
    destruct (Z.eqb_spec x 32); [contradiction|]. destruct (Z.eqb_spec x 9); [contradiction|].
    destruct (Z.eqb_spec x 10); [contradiction|]. discriminate E. }
  rewrite HB. destruct c as [|q|q]; try reflexivity.
  do 6 (destruct q as [q|q|]; try reflexivity). contradiction H35; reflexivity.
Qed.
Lemma comment_line b : line_of (35 :: b) = Skip.
Proof. reflexivity. Qed.

(** The end of the body of a comment that is not blank. *)
Lemma trim_back b : exists m q, b = m ++ q /\ blanks q /\ (m = [] \/ (last m 0 <> 32 /\ last m 0 <> 9)).
Proof.
  induction b as [|c b (m & q & -> & Bq & Hm)] using rev_ind.
  - exists [], []. split; [reflexivity|]. split; [intros c []|left; reflexivity].
  - destruct (Z.eq_dec c 32) as [E|N1]; [|destruct (Z.eq_dec c 9) as [E|N2]].
    + exists m, (q ++ [c]). rewrite app_assoc. split; [reflexivity|]. split; [|exact Hm].
      intros x Hx. apply in_app_or in Hx. destruct Hx as [Hx|[<-|[]]]; [exact (Bq x Hx)|left; exact E].
    + exists m, (q ++ [c]). rewrite app_assoc. split; [reflexivity|]. split; [|exact Hm].
      intros x Hx. apply in_app_or in Hx. destruct Hx as [Hx|[<-|[]]]; [exact (Bq x Hx)|right; exact E].
    + exists ((m ++ q) ++ [c]), []. rewrite app_nil_r. split; [reflexivity|]. split; [intros x []|].
      right. rewrite last_last. split; assumption.
Qed.
Lemma strip_comment p b : blanks p -> line_of (strip (plainly (p ++ 35 :: b))) = Skip.
Proof.
  intro Bp. destruct (trim_back b) as (m & q & -> & Bq & Hm).
  change (p ++ 35 :: m ++ q) with (p ++ (35 :: m) ++ q).
  rewrite strip_middle; [reflexivity|exact Bp|exact Bq|discriminate|cbn; lia|].
  destruct Hm as [->|Hm]; [cbn; lia|]. destruct m as [|a m]; [cbn; lia|].
  change (last (35 :: a :: m) 0) with (last (a :: m) 0). exact Hm.
Qed.
Lemma last_in {X} (d : X) l : l <> [] -> In (last l d) l.
Proof.
  intro H. rewrite (app_removelast_last d H) at 2. apply in_or_app. right. left. reflexivity.
Qed.
Lemma entry_line e : entry_ok e ->
  line_of (strip (plainly (entry_text e))) = match e with Patch _ n _ => Name n | _ => Skip end.
Proof.
  destruct e as [p b|p|p n q]; cbn [entry_ok entry_text].
  - intros [Bp _]. apply strip_comment. exact Bp.
  - intro Bp. rewrite strip_blank by exact Bp. reflexivity.
  - intros (Bp & Hn & Bq). rewrite strip_middle; [apply name_line; exact Hn|exact Bp|exact Bq|apply Hn| |].
    + destruct Hn as (_ & B & Hne & _). destruct n; [contradiction|]. cbn. apply B. left; reflexivity.
    + destruct Hn as (_ & B & Hne & _). apply B. apply last_in. exact Hne.
Qed.
Lemma entry_calm e : entry_ok e -> calm (entry_text e).
Proof.
  assert (BC : forall p, blanks p -> calm p) by (intros p B c Hc; destruct (B c Hc) as [->| ->]; lia).
  destruct e as [p b|p|p n q]; cbn [entry_ok entry_text].
  - intros [Bp Cb] c Hc. apply in_app_or in Hc. destruct Hc as [Hc|[<-|Hc]]; [exact (BC _ Bp c Hc)|lia|exact (Cb c Hc)].
  - apply BC.
  - intros (Bp & Hn & Bq) c Hc. apply in_app_or in Hc. destruct Hc as [Hc|Hc]; [exact (BC _ Bp c Hc)|].
    apply in_app_or in Hc. destruct Hc as [Hc|Hc]; [exact (proj1 Hn c Hc)|exact (BC _ Bq c Hc)].
Qed.

Section Lists.
Variable T : Type.
Variable apply : list Z -> T -> T * bool.

(** Lines one after the other, each with its newline. *)
Definition lines (l : list entry) : list Z := flat_map (fun e => entry_text e ++ [10]) l.
Lemma text_lines nl l : exists extra, Forall (fun e => e = Empty []) extra /\ list_text nl l ++ [10; 10] = lines (l ++ extra).
Proof.
  induction l as [|e l IH].
  - exists [Empty []; Empty []]. split; [repeat constructor|reflexivity].
  - destruct l as [|e' l].
    + destruct nl.
      * exists [Empty []; Empty []]. split; [repeat constructor|]. cbn. rewrite <- !app_assoc. reflexivity.
      * exists [Empty []]. split; [repeat constructor|]. cbn. rewrite app_nil_r, <- !app_assoc. reflexivity.
    + destruct IH as (ex & H1 & H2). exists ex. split; [exact H1|].
      change (list_text nl (e :: e' :: l)) with (entry_text e ++ 10 :: list_text nl (e' :: l)).
      change (lines ((e :: e' :: l) ++ ex)) with ((entry_text e ++ [10]) ++ lines ((e' :: l) ++ ex)).
      rewrite <- H2, <- !app_assoc. reflexivity.
Qed.
Lemma apply_lines l : forall fuel t, Forall entry_ok l -> (length (lines l) < fuel)%nat ->
  apply_list T apply fuel (lines l) t = Some (in_order apply (names l) t).
Proof.
  induction l as [|e l IH]; intros fuel t F Hf.
  - destruct fuel; [cbn in Hf; lia|]. reflexivity.
  - inversion F as [|? ? He Hl]; subst. destruct fuel as [|fuel]; [cbn in Hf; lia|].
    change (lines (e :: l)) with ((entry_text e ++ [10]) ++ lines l) in *. rewrite <- app_assoc in *.
    rewrite !app_length in Hf. cbn [app length] in Hf.
    cbn [apply_list]. change ([10] ++ lines l) with (10 :: lines l).
    rewrite (read_calm _ [] _ (entry_calm e He)). cbn [app]. fold (plainly (entry_text e)). rewrite (entry_line e He).
    assert (Hf' : (length (lines l) < fuel)%nat) by lia.
    destruct e as [p b|p|p n q]; try exact (IH fuel t Hl Hf').
    change (names (Patch p n q :: l)) with (n :: names l). cbn [in_order].
    destruct (apply n t) as [t' ok]. cbn [fst snd]. destruct ok; [|reflexivity].
    rewrite (IH fuel t' Hl Hf'). destruct (in_order apply (names l) t') as [[d t2] r]. reflexivity.
Qed.
Lemma names_extra l ex : Forall (fun e => e = Empty []) ex -> names (l ++ ex) = names l.
Proof.
  intro F. unfold names. rewrite flat_map_app.
  assert (E : flat_map (fun e => match e with Patch _ n _ => [n] | _ => [] end) ex = []).
  { induction F as [|x ex -> F IH]; [reflexivity|exact IH]. }
  rewrite E. apply app_nil_r.
Qed.
Lemma list_applied nl l t : Forall entry_ok l ->
  patch_list_apply T apply (list_text nl l) t = Some (in_order apply (names l) t).
Proof.
  intro F. unfold patch_list_apply. destruct (text_lines nl l) as (ex & E1 & E2).
  pose proof (f_equal (@length Z) E2) as EL. rewrite app_length in EL. cbn [length] in EL.
  rewrite E2, apply_lines, names_extra; [reflexivity|exact E1| |rewrite <- EL; lia].
  apply Forall_app. split; [exact F|]. eapply Forall_impl; [|exact E1]. intros e ->. intros c [].
Qed.
Lemma list_total plist t : patch_list_apply T apply plist t <> None.
Proof.
  unfold patch_list_apply.
  assert (G : forall fuel s u, (length s < fuel)%nat -> apply_list T apply fuel s u <> None).
  { induction fuel as [|fuel IH]; intros s u H; [lia|]. cbn [apply_list].
    destruct (read_raw [] s) as [[raw rest]|] eqn:E; [|discriminate]. apply read_shorter in E.
    destruct (line_of (strip raw)) as [|n|n]; [apply IH; lia| |discriminate].
    destruct (apply n u) as [t' ok]. destruct ok; [|discriminate].
    specialize (IH rest t' ltac:(lia)). destruct (apply_list T apply fuel rest t') as [[[d t2] r]|]; [discriminate|contradiction]. }
  apply G. rewrite app_length. cbn. lia.
Qed.
End Lists.

(** ** Making the patches. *)
Lemma eqb_self (l : list Z) : list_eqb l l = true.
Proof. apply list_eqb_eq. reflexivity. Qed.
(** A directory: [get]. *)
Fixpoint get (n : list Z) (d : list (list Z * list Z)) : option (list Z) :=
  match d with [] => None | (m, c) :: r => if list_eqb m n then Some c else get n r end.
Lemma get_put n c d m : get m (put n c d) = if list_eqb n m then Some c else get m d.
Proof.
  induction d as [|[x y] d IH]; cbn [put get]; [reflexivity|].
  destruct (list_eqb x n) eqn:E; cbn [get].
  - apply list_eqb_eq in E. subst x. destruct (list_eqb n m); reflexivity.
  - rewrite IH. destruct (list_eqb x m) eqn:E2; [|reflexivity]. apply list_eqb_eq in E2. subst x.
    destruct (list_eqb n m) eqn:E3; [|reflexivity]. apply list_eqb_eq in E3. subst. rewrite eqb_self in E. discriminate.
Qed.
Lemma put_names n c d : map fst (put n c d) = if existsb (list_eqb n) (map fst d) then map fst d else map fst d ++ [n].
Proof.
  induction d as [|[x y] d IH]; cbn [put map fst existsb app]; [reflexivity|].
  destruct (list_eqb x n) eqn:E.
  - apply list_eqb_eq in E. subst x. rewrite eqb_self. reflexivity.
  - assert (E' : list_eqb n x = false).
    { destruct (list_eqb n x) eqn:E'; [|reflexivity]. apply list_eqb_eq in E'. subst. rewrite eqb_self in E. discriminate. }
    rewrite E'. cbn [orb map fst]. rewrite IH. destruct (existsb (list_eqb n) (map fst d)); reflexivity.
Qed.
Lemma put_nodup n c d : NoDup (map fst d) -> NoDup (map fst (put n c d)).
Proof.
  intro N. rewrite put_names. destruct (existsb (list_eqb n) (map fst d)) eqn:E; [exact N|].
  apply (Permutation_NoDup (l := n :: map fst d)); [apply Permutation_cons_append|]. constructor; [|exact N].
  intro Hi. assert (existsb (list_eqb n) (map fst d) = true) by (apply existsb_exists; exists n; split; [exact Hi|apply eqb_self]).
  congruence.
Qed.
Lemma get_in n c d : NoDup (map fst d) -> (get n d = Some c <-> In (n, c) d).
Proof.
  induction d as [|[x y] d IH]; cbn [map fst get]; intro N; [split; [discriminate|intros []]|].
  inversion N as [|? ? N1 N2]; subst. destruct (list_eqb x n) eqn:E.
  - apply list_eqb_eq in E. subst x. split; [intro H; apply some_inj in H; subst; left; reflexivity|].
    intros [H|H]; [injection H as ->; reflexivity|]. destruct N1. exact (in_map fst _ _ H).
  - rewrite (IH N2). split; [right; assumption|]. intros [H|H]; [|exact H].
    injection H as -> ->. rewrite eqb_self in E. discriminate.
Qed.

Section Gen.
Variable T : Type.
Variables (k : tools T) (override id : list Z) (t : T).
Let bid := bid_for k override t.
Lemma bid_is x : (if is_empty override then debug_id T k t x else override) = bid x.
Proof. unfold bid, bid_for. destruct override; reflexivity. Qed.
Lemma gen_spec l : forall dir r, NoDup (map fst dir) -> gen_loop T k override id t l dir = Some r ->
  NoDup (map fst r) /\
  (forall n c, get n r = Some c -> get n dir = Some c \/
     exists x, In x l /\ bid x <> [] /\ has_kpatch T k t x = true /\ n = kpatch_file (bid x) /\ make T k t (bid x) id x = Some c) /\
  (forall x, In x l -> bid x <> [] -> has_kpatch T k t x = true ->
     exists c, make T k t (bid x) id x = Some c /\
       ((forall y, In y l -> bid y <> [] -> has_kpatch T k t y = true -> bid y = bid x -> y = x) -> get (kpatch_file (bid x)) r = Some c)) /\
  (forall n, get n dir <> None -> get n r <> None) /\
  (forall n, (forall y, In y l -> bid y <> [] -> has_kpatch T k t y = true -> kpatch_file (bid y) <> n) -> get n r = get n dir).
Proof.
  induction l as [|x l IH]; intros dir r N H; cbn [gen_loop] in H.
  - apply some_inj in H. subst. split; [exact N|]. split; [intros n c Hg; left; exact Hg|].
    split; [intros x []|]. split; [auto|reflexivity].
  - rewrite bid_is in H. destruct (is_empty (bid x) || negb (has_kpatch T k t x)) eqn:E.
    + assert (Nx : bid x <> [] -> has_kpatch T k t x = true -> False).
      { intros H1 H2. destruct (bid x); [contradiction|]. rewrite H2 in E. discriminate E. }
      destruct (IH dir r N H) as (R1 & R2 & R3 & R4 & R5). split; [exact R1|]. split; [|split; [|split; [exact R4|]]].
      * intros n c Hg. destruct (R2 n c Hg) as [G|(y & Hy & G)]; [left; exact G|]. right. exists y. split; [right; exact Hy|exact G].
      * intros y [<-|Hy] H1 H2; [destruct (Nx H1 H2)|]. destruct (R3 y Hy H1 H2) as (c & M & G). exists c. split; [exact M|].
        intro U. apply G. intros z Hz. apply U. right; exact Hz.
      * intros n Hn. apply R5. intros y Hy. apply Hn. right; exact Hy.
    + apply orb_false_elim in E. destruct E as [E1 E2].
      assert (Hb : bid x <> []) by (intro Z; rewrite Z in E1; discriminate E1).
      apply negb_false_iff in E2.
      destruct (make T k t (bid x) id x) as [c0|] eqn:M; [|discriminate H].
      destruct (IH _ _ (put_nodup (kpatch_file (bid x)) c0 dir N) H) as (R1 & R2 & R3 & R4 & R5).
      split; [exact R1|]. split; [|split; [|split]].
      * intros n c Hg. destruct (R2 n c Hg) as [G|(y & Hy & G)].
        -- rewrite get_put in G. destruct (list_eqb (kpatch_file (bid x)) n) eqn:En; [|left; exact G].
           apply list_eqb_eq in En. subst n. apply some_inj in G. subst c0. right. exists x.
           split; [left; reflexivity|]. repeat split; assumption.
        -- right. exists y. split; [right; exact Hy|exact G].
      * intros y [<-|Hy] H1 H2.
        -- exists c0. split; [exact M|]. intro U.
           destruct (in_dec (list_eq_dec Z.eq_dec) x l) as [Hx|Hx].
           { destruct (R3 x Hx H1 H2) as (c & M' & G). rewrite M in M'. apply some_inj in M'. subst c. apply G.
             intros z Hz. apply U. right; exact Hz. }
           rewrite R5, get_put, eqb_self; [reflexivity|]. intros y Hy B1 B2 Ef.
           assert (bid y = bid x) by (unfold kpatch_file in Ef; apply app_inv_tail in Ef; exact Ef).
           rewrite (U y (or_intror Hy) B1 B2 H0) in Hy. exact (Hx Hy).
        -- destruct (R3 y Hy H1 H2) as (c & M' & G). exists c. split; [exact M'|]. intro U. apply G.
           intros z Hz. apply U. right; exact Hz.
      * intros n Hn. apply R4. rewrite get_put. destruct (list_eqb (kpatch_file (bid x)) n); [discriminate|exact Hn].
      * intros n Hn. rewrite R5 by (intros y Hy; apply Hn; right; exact Hy). rewrite get_put.
        destruct (list_eqb (kpatch_file (bid x)) n) eqn:En; [|reflexivity]. apply list_eqb_eq in En.
        destruct (Hn x (or_introl eq_refl) Hb E2 En).
Qed.
End Gen.

Lemma in_order_all {T} (apply : list Z -> T -> T * bool) l : forall t d t', in_order apply l t = (d, t', true) -> d = l.
Proof.
  induction l as [|n l IH]; intros t d t' H; cbn [in_order] in H; [injection H as <- <-; reflexivity|].
  destruct (snd (apply n t)); [|discriminate H].
  destruct (in_order apply l (fst (apply n t))) as [[d0 t0] ok] eqn:E. injection H as <- <- ->.
  f_equal. exact (IH _ _ _ E).
Qed.
Lemma upto_dot_id name : list_id name (upto_dot name).
Proof.
  induction name as [|c name (N & H)]; cbn [upto_dot]; [split; [intros []|left; reflexivity]|].
  destruct (Z.eqb_spec c 46) as [->|Nc]; [split; [intros []|right; exists name; reflexivity]|].
  split; [intros [E|Hi]; [congruence|contradiction]|]. destruct H as [H|(rest & H)]; [left; congruence|right; exists rest; cbn; congruence].
Qed.
Lemma list_id_unique name a b : list_id name a -> list_id name b -> a = b.
Proof.
  revert a b. induction name as [|c name IH]; intros a b (Na & Ha) (Nb & Hb).
  - destruct Ha as [<-|(? & Ha)], Hb as [<-|(? & Hb)]; try reflexivity.
    + destruct b; discriminate Hb.
    + destruct a; discriminate Ha.
    + destruct a; discriminate Ha.
  - assert (G : forall x, ~ In 46 x -> (c :: name = x \/ exists rest, c :: name = x ++ 46 :: rest) ->
      (c = 46 /\ x = []) \/ (c <> 46 /\ exists y, x = c :: y /\ list_id name y)).
    { intros x Nx [<-|(rest & E)].
      - right. split; [intros ->; apply Nx; left; reflexivity|]. exists name. split; [reflexivity|].
        split; [intro Hi; apply Nx; right; exact Hi|left; reflexivity].
      - destruct x as [|d x]; cbn in E; injection E as Ec E; [left; split; [exact Ec|reflexivity]|].
        subst d. right. split; [intros ->; apply Nx; left; reflexivity|]. exists x. split; [reflexivity|].
        split; [intro Hi; apply Nx; right; exact Hi|right; exists rest; exact E]. }
    destruct (G a Na Ha) as [(C & ->)|(C & y & -> & Ly)], (G b Nb Hb) as [(C' & ->)|(C' & z & -> & Lz)]; try reflexivity; try contradiction.
    f_equal. exact (IH y z Ly Lz).
Qed.
Lemma build_made T (apply : list Z -> T -> T * bool) (k : tools T) strict override name nl l t ar :
  Forall entry_ok l -> build T apply k strict override name (list_text nl l) t = Some ar ->
  exists id t1 t2 t3, list_id name id /\ id <> [] /\ in_order apply (names l) t = (names l, t1, true) /\
    hook T k t1 = (t2, true) /\ install T k (fst (rpmbuild T k t2)) = (t3, true) /\ (strict = true -> sane T k t3 = true) /\
    ar <> [] /\ NoDup (map fst ar) /\
    (forall n c, In (n, c) ar -> exists x, eligible k override t3 x /\ n = bid_for k override t3 x ++ str ".kpatch" /\
       make T k t3 (bid_for k override t3 x) id x = Some c) /\
    (forall x, eligible k override t3 x -> exists c, make T k t3 (bid_for k override t3 x) id x = Some c /\
       ((forall y, eligible k override t3 y -> bid_for k override t3 y = bid_for k override t3 x -> y = x) ->
        In (bid_for k override t3 x ++ str ".kpatch", c) ar)).
Proof.
  intros F H. unfold build, patch_id in H.
  destruct (upto_dot name) as [|i id] eqn:Ei; [discriminate H|].
  rewrite (list_applied T apply nl l t F) in H.
  destruct (in_order apply (names l) t) as [[d t1] ok] eqn:Eo. destruct ok; [|discriminate H].
  pose proof (in_order_all apply (names l) t d t1 Eo). subst d.
  destruct (hook T k t1) as [th okh] eqn:Eh.
  destruct (rpmbuild T k th) as [t2 st] eqn:Er. destruct (install T k t2) as [t3 ok3] eqn:Ein.
  destruct okh; [|discriminate H]. destruct ok3; [|discriminate H]. cbn [negb orb] in H.
  destruct (strict && negb (sane T k t3)) eqn:Es; [discriminate H|].
  unfold gen_kpatch in H.
  destruct (gen_loop T k override (i :: id) t3 (targets T k t3) []) as [r|] eqn:G; [|discriminate H].
  destruct (gen_spec T k override (i :: id) t3 (targets T k t3) [] r (NoDup_nil _) G) as (R1 & R2 & R3 & _ & _).
  assert (Hr : r <> [] /\ r = ar).
  { destruct r as [|e r]; [discriminate H|]. apply some_inj in H. split; [discriminate|exact H]. }
  destruct Hr as [Hne ->].
  exists (i :: id), t1, th, t3. split; [rewrite <- Ei; apply upto_dot_id|]. split; [discriminate|]. split; [exact eq_refl|]. split; [exact Eh|].
  split; [cbn; rewrite Er; exact Ein|]. split.
  { intro S. rewrite S in Es. cbn in Es. apply negb_false_iff in Es. exact Es. }
  split; [exact Hne|]. split; [exact R1|]. split.
  - intros n c Hi. apply (get_in n c ar R1) in Hi. destruct (R2 n c Hi) as [G0|(x & X1 & X2 & X3 & X4 & X5)]; [discriminate G0|].
    exists x. split; [split; [exact X1|split; assumption]|]. split; assumption.
  - intros x (X1 & X2 & X3). destruct (R3 x X1 X2 X3) as (c & M & Gc). exists c. split; [exact M|]. intro U.
    apply (get_in _ c ar R1). apply Gc. intros y Y1 Y2 Y3 E. apply U; [split; [exact Y1|split; assumption]|exact E].
Qed.

(** ** Unpacking. *)
Lemma slash_split b1 x1 : forall b2 x2, ~ In 47 b1 -> ~ In 47 b2 -> b1 ++ 47 :: x1 = b2 ++ 47 :: x2 -> b1 = b2 /\ x1 = x2.
Proof.
  induction b1 as [|c b1 IH]; intros [|d b2] x2 H1 H2 E; cbn in E.
  - injection E as ->. split; reflexivity.
  - injection E as <- _. destruct H2. left; reflexivity.
  - injection E as -> _. destruct H1. left; reflexivity.
  - injection E as -> E. destruct (IH b2 x2) as [-> ->]; [intro Hi; apply H1; right; exact Hi|intro Hi; apply H2; right; exact Hi|exact E|].
    split; reflexivity.
Qed.
Lemma look_set p n f q : lookup q (set_node p n f) = if list_eqb p q then Some n else lookup q f.
Proof.
  induction f as [|[x y] f IH]; cbn [set_node lookup]; [reflexivity|].
  destruct (list_eqb x p) eqn:E; cbn [lookup].
  - apply list_eqb_eq in E. subst x. destruct (list_eqb p q); reflexivity.
  - rewrite IH. destruct (list_eqb x q) eqn:E2; [|reflexivity]. apply list_eqb_eq in E2. subst x.
    destruct (list_eqb p q) eqn:E3; [|reflexivity]. apply list_eqb_eq in E3. subst. rewrite eqb_self in E. discriminate.
Qed.
Lemma neq_eqb (p q : list Z) : p <> q -> list_eqb p q = false.
Proof. intro N. destruct (list_eqb p q) eqn:E; [|reflexivity]. apply list_eqb_eq in E. contradiction. Qed.

Lemma after_dir d x : ~ In 47 x -> after_slash (d ++ 47 :: x) = x.
Proof.
  intro Nx. induction d as [|c d IH]; cbn [app after_slash].
  - cbn [existsb]. change (47 =? 47) with true. cbn [orb].
    destruct x as [|a x]; [reflexivity|]. cbn [after_slash].
    destruct (existsb (Z.eqb 47) (a :: x)) eqn:E; [|reflexivity]. apply existsb_exists in E. destruct E as (y & Hy & E).
    apply Z.eqb_eq in E. subst y. contradiction.
  - assert (E : existsb (Z.eqb 47) (c :: d ++ 47 :: x) = true).
    { apply existsb_exists. exists 47. split; [right; apply in_or_app; right; left; reflexivity|reflexivity]. }
    rewrite E. exact IH.
Qed.
Lemma cut_own suf b : cut_suffix suf (b ++ suf) = b.
Proof.
  unfold cut_suffix. rewrite app_length. replace (length b + length suf - length suf)%nat with (length b) by lia.
  rewrite skipn_app, skipn_all, Nat.sub_diag. cbn [skipn app]. rewrite eqb_self.
  replace (length suf <=? length b + length suf)%nat with true by (symmetry; apply Nat.leb_le; lia).
  cbn. rewrite firstn_app, firstn_all, Nat.sub_diag. cbn. apply app_nil_r.
Qed.
Lemma split_own d x : ~ In 47 x -> split_last (d ++ 47 :: x) = Some (d, x).
Proof.
  intro Nx. induction d as [|c d IH]; cbn [app split_last].
  - assert (E : split_last x = None).
    { revert Nx. induction x as [|a x IH]; intro Nx; [reflexivity|]. cbn [split_last].
      rewrite IH by (intro H; apply Nx; right; exact H). destruct (Z.eqb_spec a 47) as [->|]; [|reflexivity].
      destruct Nx. left; reflexivity. }
    rewrite E. reflexivity.
  - rewrite IH. reflexivity.
Qed.

(** A store made by unpacking: [latest] is not there or names level 1; nothing is where only
    names through [latest] lead. *)
Definition P_latest (b : list Z) := b ++ str "/latest".
Definition P_bin (b : list Z) := b ++ str "/1/kpatch.bin".
Definition P_via (b : list Z) := b ++ str "/latest/kpatch.bin".
Definition P_in (b : list Z) := b ++ str "/latest/1".
Definition store_ok (f : store) : Prop := forall b, ~ In 47 b ->
  (lookup (P_latest b) f = None \/ lookup (P_latest b) f = Some (Link (str "1"))) /\
  lookup (P_via b) f = None /\ lookup (b ++ str ".kpatch") f = None.
Definition holds (f : store) (b c : list Z) : Prop :=
  lookup (P_bin b) f = Some (File c) /\ lookup (P_latest b) f = Some (Link (str "1")).

Lemma slash_inv b1 b2 x y : ~ In 47 b1 -> ~ In 47 b2 -> b1 ++ (47 :: x) = b2 ++ (47 :: y) -> b1 = b2 /\ x = y.
Proof. intros. apply slash_split; assumption. Qed.
Lemma str_slash1 : str "/latest" = 47 :: str "latest". Proof. reflexivity. Qed.
Lemma str_slash2 : str "/1/kpatch.bin" = 47 :: str "1/kpatch.bin". Proof. reflexivity. Qed.
Lemma str_slash3 : str "/latest/kpatch.bin" = 47 :: str "latest/kpatch.bin". Proof. reflexivity. Qed.
Lemma str_slash4 : str "/latest/1" = 47 :: str "latest/1". Proof. reflexivity. Qed.

(** Names of two ids are different when the ids or the rest are. *)
Lemma differ b1 b2 x y : ~ In 47 b1 -> ~ In 47 b2 -> (b1 <> b2 \/ x <> y) -> b1 ++ 47 :: x <> b2 ++ 47 :: y.
Proof. intros N1 N2 D E. destruct (slash_split _ _ _ _ N1 N2 E). destruct D; contradiction. Qed.

Lemma no_slash_plain b x : ~ In 47 b -> forall d, ~ In 47 d -> d ++ str ".kpatch" <> b ++ 47 :: x.
Proof.
  intros Nb d Nd E. assert (Hi : In 47 (d ++ str ".kpatch")) by (rewrite E; apply in_or_app; right; left; reflexivity).
  apply in_app_or in Hi. destruct Hi as [Hi|Hi]; [contradiction|]. cbn in Hi. intuition discriminate.
Qed.

Lemma one_look f b c p : ~ In 47 b -> forall dir,
  lookup p (unpack_one f (dir ++ 47 :: kpatch_file b, c)) =
  if list_eqb (P_bin b) p then Some (File c)
  else match lookup (P_latest b) f with
       | None => if list_eqb (P_latest b) p then Some (Link (str "1")) else lookup p f
       | Some _ => if list_eqb (P_in b) p then Some (Link (str ".")) else lookup p f
       end.
Proof.
  intros Nb dir. unfold unpack_one. cbn [fst snd].
  assert (E : cut_suffix (str ".kpatch") (after_slash (dir ++ 47 :: kpatch_file b)) = b).
  { rewrite after_dir; [apply cut_own|]. unfold kpatch_file. intro Hi. apply in_app_or in Hi.
    destruct Hi as [Hi|Hi]; [contradiction|]. cbn in Hi. intuition discriminate. }
  rewrite E. fold (P_bin b) (P_latest b) (P_in b).
  assert (D1 : P_bin b <> P_latest b).
  { unfold P_bin, P_latest. rewrite str_slash1, str_slash2. apply differ; [exact Nb|exact Nb|right; discriminate]. }
  assert (D2 : P_bin b <> P_in b).
  { unfold P_bin, P_in. rewrite str_slash4, str_slash2. apply differ; [exact Nb|exact Nb|right; discriminate]. }
  rewrite (look_set (P_bin b) (File c) f (P_latest b)), (neq_eqb _ _ D1).
  destruct (lookup (P_latest b) f) as [n|]; rewrite look_set.
  - destruct (list_eqb (P_in b) p) eqn:E2.
    + apply list_eqb_eq in E2. subst p. rewrite (neq_eqb _ _ D2). reflexivity.
    + rewrite look_set. reflexivity.
  - destruct (list_eqb (P_latest b) p) eqn:E2.
    + apply list_eqb_eq in E2. subst p. rewrite (neq_eqb _ _ D1). reflexivity.
    + rewrite look_set. reflexivity.
Qed.

Lemma one_ok f b c dir : ~ In 47 b -> store_ok f ->
  let f' := unpack_one f (dir ++ 47 :: kpatch_file b, c) in
  store_ok f' /\ holds f' b c /\
  forall b', ~ In 47 b' -> b' <> b -> lookup (P_bin b') f' = lookup (P_bin b') f /\ lookup (P_latest b') f' = lookup (P_latest b') f.
Proof.
  intros Nb S f'.
  assert (L : forall p, lookup p f' = _) by (intro p; exact (one_look f b c p Nb dir)). cbv beta in L.
  assert (X : forall b' x, ~ In 47 b' -> (b' <> b \/ (x <> str "1/kpatch.bin" /\ x <> str "latest" /\ x <> str "latest/1")) ->
    lookup (b' ++ 47 :: x) f' = lookup (b' ++ 47 :: x) f).
  { intros b' x Nb' D. rewrite L. unfold P_bin, P_latest, P_in. rewrite str_slash1, str_slash2, str_slash4.
    assert (D1 : b ++ 47 :: str "1/kpatch.bin" <> b' ++ 47 :: x)
      by (apply differ; [exact Nb|exact Nb'|]; destruct D as [D|(D & _)]; [left|right]; congruence).
    assert (D2 : b ++ 47 :: str "latest" <> b' ++ 47 :: x)
      by (apply differ; [exact Nb|exact Nb'|]; destruct D as [D|(_ & D & _)]; [left|right]; congruence).
    assert (D3 : b ++ 47 :: str "latest/1" <> b' ++ 47 :: x)
      by (apply differ; [exact Nb|exact Nb'|]; destruct D as [D|(_ & _ & D)]; [left|right]; congruence).
    rewrite (neq_eqb _ _ D1), (neq_eqb _ _ D2), (neq_eqb _ _ D3). destruct (lookup (b ++ 47 :: str "latest") f); reflexivity. }
  assert (HL : lookup (P_latest b) f' = Some (Link (str "1"))).
  { rewrite L. unfold P_bin, P_latest, P_in. rewrite str_slash1, str_slash2, str_slash4.
    rewrite (neq_eqb (b ++ 47 :: str "1/kpatch.bin")) by (apply differ; [exact Nb|exact Nb|right; discriminate]).
    rewrite (neq_eqb (b ++ 47 :: str "latest/1")) by (apply differ; [exact Nb|exact Nb|right; discriminate]).
    rewrite eqb_self. destruct (proj1 (S b Nb)) as [E|E]; unfold P_latest in E; rewrite str_slash1 in E; rewrite E; reflexivity. }
  split; [|split; [split; [rewrite L, eqb_self; reflexivity|exact HL]|]].
  - intros b' Nb'. destruct (S b' Nb') as (S1 & S2 & S3). split; [|split].
    + destruct (list_eq_dec Z.eq_dec b' b) as [->|D]; [right; exact HL|].
      unfold P_latest in *. rewrite str_slash1 in *. rewrite X by (try exact Nb'; left; exact D). exact S1.
    + unfold P_via in *. rewrite str_slash3 in *. rewrite X; [exact S2|exact Nb'|right; repeat split; discriminate].
    + rewrite L. assert (D : forall x, b ++ 47 :: x <> b' ++ str ".kpatch") by (intros x E; exact (no_slash_plain b x Nb b' Nb' (eq_sym E))).
      unfold P_bin, P_latest, P_in. rewrite str_slash1, str_slash2, str_slash4.
      rewrite !(neq_eqb _ _ (D _)). destruct (lookup (b ++ 47 :: str "latest") f); exact S3.
  - intros b' Nb' D. unfold P_bin, P_latest. rewrite str_slash1, str_slash2.
    split; apply X; try exact Nb'; left; exact D.
Qed.

Lemma unpack_ok dir l : forall f, store_ok f -> (forall b c, In (b, c) l -> ~ In 47 b) -> NoDup (map fst l) ->
  let f' := unpack (map (fun e => (dir ++ 47 :: kpatch_file (fst e), snd e)) l) f in
  store_ok f' /\ (forall b c, In (b, c) l -> holds f' b c) /\
  forall b', ~ In 47 b' -> ~ In b' (map fst l) -> lookup (P_bin b') f' = lookup (P_bin b') f /\ lookup (P_latest b') f' = lookup (P_latest b') f.
Proof.
  induction l as [|[b c] l IH]; intros f S Nl ND.
  - cbn. split; [exact S|]. split; [intros b c []|auto].
  - cbn [map unpack fold_left fst snd]. inversion ND as [|? ? N1 N2]; subst.
    assert (Nb : ~ In 47 b) by (apply (Nl b c); left; reflexivity).
    destruct (one_ok f b c dir Nb S) as (S1 & H1 & U1).
    destruct (IH _ S1 (fun b' c' Hi => Nl b' c' (or_intror Hi)) N2) as (S2 & H2 & U2).
    cbv zeta. split; [exact S2|]. split.
    + intros b' c' [E|Hi]; [|exact (H2 b' c' Hi)]. injection E as <- <-.
      destruct (U2 b Nb N1) as [E1 E2]. split; [exact (eq_trans E1 (proj1 H1))|exact (eq_trans E2 (proj2 H1))].
    + intros b' Nb' Hn. cbn [map fst] in Hn. destruct (U2 b' Nb') as [E1 E2]; [intro Hi; apply Hn; right; exact Hi|].
      destruct (U1 b' Nb') as [F1 F2]; [intro E; apply Hn; left; symmetry; exact E|].
      split; [exact (eq_trans E1 F1)|exact (eq_trans E2 F2)].
Qed.

(** The reader of the store. *)
Lemma held_content f b c : ~ In 47 b -> store_ok f -> holds f b c -> content f (P_via b) = Some c.
Proof.
  intros Nb S (H1 & H2). unfold content. rewrite (proj1 (proj2 (S b Nb))).
  change (P_via b) with (b ++ str "/latest" ++ str "/kpatch.bin"). rewrite app_assoc. fold (P_latest b).
  change (str "/kpatch.bin") with (47 :: str "kpatch.bin"). rewrite split_own by (cbn; intuition discriminate).
  rewrite H2. unfold P_latest at 1. rewrite str_slash1, split_own by (cbn; intuition discriminate).
  change (b ++ [47] ++ str "1" ++ [47] ++ str "kpatch.bin") with (P_bin b). rewrite H1. reflexivity.
Qed.
Lemma held_stored f b c : ~ In 47 b -> store_ok f -> holds f b c -> well_formed c -> 504 <= zlen c ->
  stored (store_fs f) b (set_level c 1).
Proof.
  intros Nb S H W Hz. apply (via_latest _ _ c _ (str "1") 1); cbn [store_fs fs_file fs_link].
  - split; [exact (held_content f b c Nb S H)|exact Hz].
  - exact W.
  - unfold holds, P_latest in H. rewrite (proj2 H). reflexivity.
  - cbn. lia.
  - reflexivity.
  - lia.
  - apply set_level_leveled. exact Hz.
Qed.

(** Contents are bytes. *)
Definition store_bytes (f : store) : Prop := forall q c, lookup q f = Some (File c) -> bytes_ok c.
Lemma content_from f p c : content f p = Some c -> exists q, lookup q f = Some (File c).
Proof.
  unfold content. destruct (lookup p f) as [[x|x]|] eqn:E; intro H.
  - injection H as <-. exists p. exact E.
  - discriminate H.
  - destruct (split_last p) as [[d b]|]; [|discriminate H]. destruct (lookup d f) as [[?|t]|]; [discriminate H| |discriminate H].
    destruct (split_last d) as [[dd ?]|]; [|discriminate H].
    destruct (lookup (dd ++ [47] ++ t ++ [47] ++ b) f) as [[x|x]|] eqn:E2; [|discriminate H|discriminate H].
    injection H as <-. exists (dd ++ [47] ++ t ++ [47] ++ b). exact E2.
Qed.
Lemma one_bytes f e : bytes_ok (snd e) -> store_bytes f -> store_bytes (unpack_one f e).
Proof.
  intros B S q c. unfold unpack_one. set (b := cut_suffix _ _).
  destruct (lookup (b ++ str "/latest") (set_node (b ++ str "/1/kpatch.bin") (File (snd e)) f)); rewrite !look_set;
  destruct (list_eqb _ q); try discriminate; destruct (list_eqb _ q); try (intro H; injection H as <-; exact B); apply S.
Qed.
Lemma unpack_bytes l : forall f, Forall (fun e => bytes_ok (snd e)) l -> store_bytes f -> store_bytes (unpack l f).
Proof.
  induction l as [|e l IH]; intros f F S; [exact S|]. inversion F; subst. cbn. apply IH; [assumption|]. apply one_bytes; assumption.
Qed.
Lemma store_fs_ok f : store_bytes f -> fs_ok (store_fs f).
Proof. intros S p d H. cbn in H. apply content_from in H. destruct H as (q & H). exact (S q d H). Qed.

Lemma empty_ok : store_ok []. Proof. intros b _. cbn. auto. Qed.
Lemma empty_bytes : store_bytes []. Proof. intros q c H. discriminate H. Qed.

(** Nothing is stored for an id that has no files. *)
Lemma unheld f b : ~ In 47 b -> store_ok f -> lookup (P_latest b) f = None -> forall d, ~ stored (store_fs f) b d.
Proof.
  intros Nb S E d H.
  assert (C : content f (P_via b) = None).
  { unfold content. rewrite (proj1 (proj2 (S b Nb))).
    change (P_via b) with (b ++ str "/latest" ++ str "/kpatch.bin"). rewrite app_assoc. fold (P_latest b).
    change (str "/kpatch.bin") with (47 :: str "kpatch.bin"). rewrite split_own by (cbn; intuition discriminate).
    rewrite E. reflexivity. }
  destruct H as [d d' s lv [C1 _] _ L _ _ _ _|d _ [C1 _] _].
  - cbn [store_fs fs_file] in C1. change (content f (P_via b) = Some d) in C1. congruence.
  - cbn [store_fs fs_file] in C1. apply content_from in C1 as C2.
    unfold content in C1. rewrite (proj2 (proj2 (S b Nb))) in C1.
    assert (N : split_last (b ++ str ".kpatch") = None).
    { assert (G : forall x, ~ In 47 x -> split_last x = None).
      { induction x as [|a x IHx]; intro Nx; [reflexivity|]. cbn [split_last].
        rewrite IHx by (intro Hi; apply Nx; right; exact Hi). destruct (Z.eqb_spec a 47) as [->|]; [|reflexivity].
        destruct Nx. left; reflexivity. }
      apply G. intro Hi. apply in_app_or in Hi. destruct Hi as [Hi|Hi]; [contradiction|]. cbn in Hi. intuition discriminate. }
    rewrite N in C1. discriminate C1.
Qed.
