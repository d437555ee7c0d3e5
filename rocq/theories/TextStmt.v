(** A piece of a line that is not a comment is one statement. *)
From Coq Require Import String.
From Verif Require Import Base BaseProofs StorageModel TextModel TextSpec TextProofs TextLines.
Open Scope list_scope.

Definition follows (se r : text) : Prop :=
  r = [] \/ hd_error r = hd_error se \/ exists c, hd_error r = Some c /\ In c delims.
Lemma shape_change t r x : token_shape delims t r -> r <> [] -> follows r x -> token_shape delims t x.
Proof.
  intros S N F. inversion S as [c r0 I Q|t0 r0 T W Q D|b r0 B|b B|b B]; subst; try congruence.
  - now constructor.
  - apply ts_word; auto. intros c r' ->.
    destruct F as [?|[F|(d & F & I)]]; [discriminate| |].
    + destruct r as [|d r1]; [congruence|]. simpl in F. injection F as <-. eauto.
    + simpl in F. injection F as <-. auto.
  - now constructor.
Qed.
Definition Pre (pre : text) (ts : list text) (se : text) : Prop :=
  forall r l last, follows se r -> pieces delims r l last ->
  exists l2 last2, pieces delims (pre ++ r) l2 last2 /\ map snd l2 = ts ++ map snd l.
Lemma pre_nil se : Pre [] [] se.
Proof. intros r l last _ P. exists l, last; auto. Qed.
Lemma pre_step pre ts (se g t g2 e rst : text) :
  Pre pre ts se -> se = g ++ t ++ rst -> rst = g2 ++ e -> blank g -> blank g2 -> ~ ends e -> t <> [] -> ~ ends t ->
  token_shape delims t rst -> Pre (pre ++ g ++ t ++ g2) (ts ++ [t]) e.
Proof.
  intros P Ese Er Bg Bg2 Ne Nt Net Sh r l last F Pr.
  assert (Nr : rst <> []) by (rewrite Er; intro X; apply app_eq_nil in X as (_ & ->); apply Ne; now left).
  assert (F' : follows rst (g2 ++ r)).
  { destruct g2 as [|c g2].
    - simpl. rewrite Er. exact F.
    - right; right. exists c; split; auto. inversion Bg2 as [|? ? [->| ->] _]; subst; unfold delims; simpl; auto. }
  pose proof (shape_change _ _ _ Sh Nr F') as Sh'.
  pose proof (pieces_gap delims g2 r l last Bg2 Pr) as P2.
  pose proof (pc_token delims g t (g2 ++ r) _ _ Bg Nt Net Sh' P2) as P3.
  assert (FF : follows se (g ++ t ++ g2 ++ r)).
  { right; left. rewrite Ese. destruct g; [destruct t; [congruence|reflexivity]|reflexivity]. }
  destruct (P _ _ _ FF P3) as (l2 & last2 & P4 & E4).
  exists l2, last2. split; [rewrite <- !app_assoc; auto|]. rewrite E4. simpl. rewrite <- app_assoc. simpl. do 2 f_equal.
    destruct l as [|[? ?] ?]; reflexivity.
Qed.

(** What [statement] gives besides [cut_ok]: the piece is one statement; with a comment,
    the line has a comment sign that is a token, and no semicolon before it. *)
Definition signs (a : parch) : list text := [35] :: (if pa_slash a then [[47; 47]] else []).
Lemma is_hash_spec a t : is_hash a t = true <-> In t (signs a).
Proof.
  unfold is_hash, signs. rewrite orb_true_iff, andb_true_iff, !same_spec. simpl.
  destruct (pa_slash a); simpl; intuition; discriminate.
Qed.
Definition stmt_ok (a : parch) (s : text) (c : cut) : Prop :=
  match c with Comment => has_comment (signs a) s | Cut p _ => one_statement p end.
Lemma in_single (ts : list text) t : ~ In [59] ts -> t <> [59] -> ~ In [59] (ts ++ [t]).
Proof. intros N E I. apply in_app_or in I as [I|[I|[]]]; auto. Qed.
(** All pieces of a line exist. *)
Lemma pieces_exist (s : text) : exists l last, pieces delims s l last.
Proof. destruct (tokens_spec s) as (ts & l & last & _ & P & _). eauto. Qed.
Lemma statement_one a n : forall (s pre se : text) first ts c, s = pre ++ se -> (length se < n)%nat ->
  Pre pre ts se -> ~ In [59] ts -> (first = true -> pre = []) ->
  statement a n s (Some se) first = Ok c -> stmt_ok a s c.
Proof.
  induction n as [|n IH]; intros s pre se first ts c Hs Hn HP HN Hf H; [lia|].
  cbn [statement] in H. destruct (get_token (Some se)) as [t se'] eqn:E.
  destruct (skip_blanks_split se) as (g & Eg & Bg).
  destruct (get_token_spec _ _ _ _ E) as [(He & -> & ->)|(_ & Hk & Ht & Hte & Hsh & C)].
  { (* no token *)
    assert (H0 : is_hash a (txt kempty) = false) by (unfold is_hash; destruct (pa_slash a); reflexivity).
    rewrite H0 in H. change (same (txt kempty) [59]) with false in H. cbv beta iota in H. destruct n; cbn [statement] in H; injection H as <-.
    all: destruct (HP se [] g) as (l2 & last2 & P2 & E2);
      [right; left; auto|rewrite Eg; constructor; auto|];
      exists l2, last2; rewrite Hs; split; auto; rewrite E2; simpl; now rewrite app_nil_r. }
  rewrite Hk in Eg.
  destruct (skip_blanks_split (rest t)) as (g2 & Eg2 & B2).
  destruct (is_hash a (txt t)) eqn:Eh.
  { injection H as <-. simpl. apply is_hash_spec in Eh.
    destruct (pieces_exist (rest t)) as (l & last & P).
    pose proof (pc_token delims g (txt t) (rest t) _ _ Bg Ht Hte Hsh P) as P3.
    rewrite <- Eg in P3.
    destruct (HP se _ _ (or_intror (or_introl eq_refl)) P3) as (l2 & last2 & P4 & E4).
    exists l2, last2, (txt t). rewrite Hs. repeat split; auto. rewrite E4. apply in_or_app; right; now left. }
  destruct (same (txt t) [59]) eqn:Es.
  { injection H as <-. simpl. apply same_spec in Es.
    assert (Ep : firstn (length s - length (txt t ++ rest t)) s = pre ++ g).
    { rewrite Hs, Eg, app_assoc. apply firstn_cut. }
    rewrite Ep. destruct (HP g [] g) as (l2 & last2 & P2 & E2).
    - destruct g as [|x g]; [now left|]. right; left. now rewrite Eg.
    - rewrite <- (app_nil_r g) at 1. constructor; auto. now left.
    - exists l2, last2; split; auto. rewrite E2. simpl. now rewrite app_nil_r. }
  assert (G : forall c, statement a n s se' false = Ok c -> stmt_ok a s c).
  { clear H c. intros c H. destruct C as [(He & ->)|(He & ->)].
    - assert (H' : c = Cut s None) by (destruct n; cbn [statement] in H; congruence). subst c. simpl.
      assert (Pr : pieces delims (rest t) [] g2) by (rewrite Eg2; constructor; auto).
      pose proof (pc_token delims g (txt t) (rest t) _ _ Bg Ht Hte Hsh Pr) as P3.
      rewrite <- Eg in P3.
      destruct (HP se _ _ (or_intror (or_introl eq_refl)) P3) as (l2 & last2 & P4 & E4).
      exists l2, last2. rewrite Hs. split; auto. rewrite E4. simpl. apply in_single; auto. now apply same_false.
    - eapply (IH s (pre ++ g ++ txt t ++ g2) (skip_blanks (rest t)) false (ts ++ [txt t])); eauto; try discriminate.
      + rewrite Hs, Eg. rewrite Eg2 at 1. now rewrite <- !app_assoc.
      + pose proof (get_token_len _ _ _ E). lia.
      + eapply (pre_step pre ts se g (txt t) g2 (skip_blanks (rest t)) (rest t)); eauto.
      + apply in_single; auto. now apply same_false. }
  assert (K : forall x, se' = x -> match x with
        | Some (58 :: r) => if first && negb (list_eqb r []) then Ok (Cut (firstn (length s - length (58 :: r) + 1) s) (Some r))
                            else statement a n s x false
        | _ => statement a n s x false end = Ok c -> stmt_ok a s c).
  2:{ apply (K se' eq_refl). exact H. }
  clear H. intros x Ex H.
  assert (G' : statement a n s x false = Ok c -> stmt_ok a s c) by (rewrite <- Ex; auto).
  destruct x as [e|]; auto. destruct e as [|k r]; auto.
  destruct (Z.eq_dec k 58) as [->|N].
  2:{ destruct k as [|p|p]; auto. do 6 (destruct p as [p|p|]; auto). all: congruence. }
  destruct (first && negb (list_eqb r [])) eqn:Ef; auto.
  apply andb_true_iff in Ef as (Ef & Er). apply negb_true_iff in Er. 
  injection H as <-. simpl. rewrite (Hf Ef) in *. simpl in Hs.
  destruct C as [(_ & C)|(He & C)]; [congruence|]. rewrite Ex in C. injection C as He2. rewrite <- He2 in Eg2.
  assert (S2 : s = (g ++ txt t ++ g2) ++ 58 :: r) by (rewrite Hs, Eg, Eg2, <- !app_assoc; reflexivity).
  assert (Ep : firstn (length s - S (length r) + 1) s = g ++ txt t ++ g2 ++ [58]).
  { rewrite S2. rewrite app_length. simpl length. set (u := g ++ txt t ++ g2).
    replace (length u + S (length r) - S (length r) + 1)%nat with (length (u ++ [58])) by (rewrite app_length; simpl; lia).
    change (u ++ 58 :: r) with (u ++ [58] ++ r). rewrite app_assoc.
    rewrite firstn_app, Nat.sub_diag, firstn_all. simpl. rewrite app_nil_r. unfold u. now rewrite <- !app_assoc. }
  rewrite Ep.
  assert (Pc : pieces delims (g2 ++ [58]) [(g2, [58])] []).
  { change (g2 ++ [58]) with (g2 ++ [58] ++ []). constructor; auto; try discriminate.
    - intros [|[? ?]]; discriminate.
    - apply ts_delim; [unfold delims; simpl; auto 12|discriminate|discriminate|discriminate].
    - change (@nil Z) with (@nil Z ++ []) at 1. constructor; [constructor|now left]. }
  assert (Sh2 : token_shape delims (txt t) (g2 ++ [58])).
  { apply (shape_change _ (rest t)); auto.
    - rewrite Eg2. destruct g2; discriminate.
    - destruct g2 as [|y g2]; right; left; rewrite Eg2; reflexivity. }
  exists [(g, txt t); (g2, [58])], []. split.
  - apply (pc_token delims g (txt t) (g2 ++ [58]) [(g2, [58])] []); auto.
  - simpl. apply same_false in Es. intros [?|[?|[]]]; congruence.
Qed.

Lemma statements_one a n : forall (s : text) ps, (length s < n)%nat -> statements a n (Some s) = Ok ps ->
  Forall (fun x : text * bool => if snd x then one_statement (fst x) else has_comment (signs a) (fst x)) ps.
Proof.
  induction n as [|n IH]; intros s ps Hn H; [lia|].
  destruct s as [|c0 s0] eqn:Es0.
  { cbn [statements] in H. injection H as <-. constructor. }
  rewrite <- Es0 in *.
  assert (U : statements a (S n) (Some s) =
    do c <- statement a (S (length s)) s (Some s) true;
    match c with Comment => Ok [(s, false)] | Cut p s' => do r <- statements a n s'; Ok ((p, true) :: r) end)
    by (rewrite Es0; reflexivity).
  rewrite U in H. 
  destruct (statement_spec a (S (length s)) s [] s true eq_refl ltac:(lia)) as (c & Hc & Hk).
  rewrite Hc in H. cbn [rbind] in H.
  pose proof (statement_one a (S (length s)) s [] s true [] c eq_refl ltac:(lia) (pre_nil s) ltac:(intros [])
                ltac:(auto) Hc) as Hone.
  destruct c as [|p nx].
  - injection H as <-. constructor; auto.
  - destruct nx as [r|].
    + assert (L : (length r < length s)%nat).
      { simpl in Hk. destruct Hk as [(g & -> & _)|(p' & -> & _)]; rewrite !app_length; simpl; rewrite ?app_length; lia. }
      destruct (statements a n (Some r)) as [q| | |] eqn:Eq; cbn [rbind] in H; try discriminate.
      injection H as <-. constructor; auto. eapply IH; eauto. lia.
    + destruct n; cbn [statements rbind] in H; injection H as <-; constructor; auto.
Qed.

(** ** A label is a statement of its own. *)
Lemma firstn_cut' (s p q : text) : s = p ++ q -> firstn (length s - length q) s = p.
Proof. intros ->. apply firstn_cut. Qed.
Lemma firstn_cut1 (s p q : text) c : s = p ++ c :: q -> firstn (length s - length (c :: q) + 1) s = p ++ [c].
Proof.
  intros ->. replace (p ++ c :: q) with ((p ++ [c]) ++ q) by (rewrite <- app_assoc; reflexivity).
  replace (length ((p ++ [c]) ++ q) - length (c :: q) + 1)%nat with (length ((p ++ [c]) ++ q) - length q)%nat
    by (rewrite !app_length; simpl; lia).
  apply firstn_cut.
Qed.
Lemma statement_prefix a n : forall (s pre se : text) first p nx, s = pre ++ se ->
  statement a n s (Some se) first = Ok (Cut p nx) -> exists q q', p = pre ++ q /\ se = q ++ q'.
Proof.
  induction n as [|n IH]; intros s pre se first p nx Hs H; [discriminate|].
  cbn [statement] in H. destruct (get_token (Some se)) as [t se'] eqn:E.
  destruct (is_hash a (txt t)); [discriminate|].
  destruct (skip_blanks_split se) as (g & Eg & _).
  assert (K : forall (s : text) first, statement a n s None first = Ok (Cut s None)) by (destruct n; reflexivity).
  destruct (get_token_spec _ _ _ _ E) as [(E1 & -> & ->)|(E1 & Et & Nt & _ & _ & C)].
  - cbn in H. rewrite K in H. injection H as <- _. exists se, []. now rewrite app_nil_r.
  - destruct (same (txt t) [59]).
    + injection H as <- _. exists g, (txt t ++ rest t). rewrite <- Et. split; auto.
      apply firstn_cut'. rewrite Hs. rewrite Eg at 1. now rewrite app_assoc.
    + destruct C as [(_ & ->)|(_ & ->)].
      * rewrite K in H. injection H as <- _. exists se, []. now rewrite app_nil_r.
      * destruct (skip_blanks_split (rest t)) as (g2 & Eg2 & _).
        set (e := skip_blanks (rest t)) in *.
        assert (Es : se = (g ++ txt t ++ g2) ++ e).
        { rewrite Eg at 1. rewrite Et. rewrite Eg2 at 1. now rewrite <- !app_assoc. }
        assert (R : forall f, statement a n s (Some e) f = Ok (Cut p nx) ->
                    exists q q', p = pre ++ q /\ se = q ++ q').
        { intros f Hf. destruct (IH s (pre ++ g ++ txt t ++ g2) e f p nx) as (q & q' & -> & Eq); auto.
          - rewrite Hs, Es at 1. now rewrite <- !app_assoc.
          - exists ((g ++ txt t ++ g2) ++ q), q'. rewrite Es, Eq. split; now rewrite <- !app_assoc. }
        destruct e as [|c r] eqn:Ee; [eapply R; exact H|].
        destruct (Z.eq_dec c 58) as [->|Nc].
        -- destruct (first && negb (list_eqb r [])); [|eapply R; exact H].
           injection H as <- _. exists ((g ++ txt t ++ g2) ++ [58]), r. split.
           ++ etransitivity; [apply (firstn_cut1 s (pre ++ g ++ txt t ++ g2) r 58)|now rewrite <- !app_assoc].
              rewrite Hs, Es at 1. now rewrite <- !app_assoc.
           ++ rewrite Es. now rewrite <- !app_assoc.
        -- eapply (R false). destruct c as [|c|c]; try exact H.
           do 6 (destruct c; try exact H). congruence.
Qed.
Lemma pieces_first (g t r : text) l last : blank g -> ~ ends t -> token_shape delims t r ->
  pieces delims (g ++ t ++ r) l last -> exists l', l = (g, t) :: l' /\ pieces delims r l' last.
Proof.
  intros B N S P. destruct (pieces_exist r) as (l' & last' & P').
  assert (T : t <> []) by (intros ->; apply N; now left).
  destruct (pieces_det _ _ _ P _ _ (pc_token _ g t r l' last' B T N S P')) as (-> & ->). eauto.
Qed.
Lemma pieces_blank (g : text) l last : blank g -> pieces delims g l last -> l = [].
Proof.
  intros B P. pose proof (pc_end delims g [] B (or_introl eq_refl)) as Q. rewrite app_nil_r in Q.
  apply (pieces_det _ _ _ P _ _ Q).
Qed.
Lemma statement_label a n (s : text) p nx : one_line s -> statement a n s (Some s) true = Ok (Cut p nx) -> label_alone p.
Proof.
  destruct n as [|n]; [discriminate|]. intros O H.
  assert (H0 : statement a (Datatypes.S n) s (Some s) true = Ok (Cut p nx)) by exact H.
  cbn [statement] in H. destruct (get_token (Some s)) as [t se'] eqn:E.
  destruct (is_hash a (txt t)); [discriminate|].
  destruct (skip_blanks_split s) as (g & Eg & Bg).
  assert (K : forall (s : text) first, statement a n s None first = Ok (Cut s None)) by (destruct n; reflexivity).
  destruct (get_token_spec _ _ _ _ E) as [(E1 & -> & ->)|(E1 & Et & Nt & Ne & Sh & C)].
  - cbn in H. rewrite K in H. injection H as <- _. intros g1 t1 g2 l last P.
    apply pieces_blank in P; [discriminate|]. now apply blank_ends.
  - destruct (same (txt t) [59]).
    + injection H as <- _. intros g1 t1 g2 l last P.
      rewrite <- Et in P. pose proof (firstn_cut' s g (skip_blanks s) Eg) as F. rewrite F in P. apply pieces_blank in P; auto; discriminate.
    + destruct (skip_blanks_split (rest t)) as (g2 & Eg2 & Bg2).
      assert (Es : s = g ++ txt t ++ rest t) by (rewrite Eg at 1; now rewrite Et).
      destruct C as [(E2 & ->)|(E2 & ->)].
      * rewrite K in H. injection H as <- _. intros h1 t1 h2 l last P. rewrite Es in P.
        apply pieces_first in P as (l' & [= -> -> <-] & P); auto.
        apply pieces_blank in P; [discriminate|]. apply blank_ends; auto.
        rewrite Es in O. rewrite !one_line_app in O. tauto.
      * set (e := skip_blanks (rest t)) in *.
        (* the piece begins with the first token and the blanks after it *)
        assert (R : forall f, statement a n s (Some e) f = Ok (Cut p nx) ->
                    exists q q', p = g ++ txt t ++ (g2 ++ q) /\ e = q ++ q').
        { intros f Hf. destruct (statement_prefix a n s (g ++ txt t ++ g2) e f p nx) as (q & q' & -> & Eq); auto.
          - rewrite Es at 1. rewrite Eg2 at 1. now rewrite <- !app_assoc.
          - exists q, q'. now rewrite <- !app_assoc. }
        assert (Sh2 : forall q q', e = q ++ q' -> token_shape delims (txt t) (g2 ++ q)).
        { intros q q' Eq. apply (shape_change _ (rest t)); auto.
          - intros Z0. apply E2. subst e. rewrite Z0. now left.
          - rewrite Eg2. destruct g2 as [|b g2]; [|right; left; reflexivity].
            destruct q as [|b q]; [now left|right; left]. cbn [app]. now rewrite Eq. }
        assert (X : forall q q', e = q ++ q' -> p = g ++ txt t ++ (g2 ++ q) -> (forall r, e <> 58 :: r) -> label_alone p).
        { intros q q' Eq Ep Nc h1 t1 h2 l last P. rewrite Ep in P.
          apply pieces_first in P as (l' & [= -> -> <-] & P); eauto. exfalso.
          destruct q as [|b q].
          - rewrite app_nil_r in P. apply pieces_blank in P; auto; discriminate.
          - inversion P as [|g0 t0 r0 l0 last0 B0 T0 N0 S0 P0 H1]; subst.
            apply (f_equal skip_blanks) in H1.
            rewrite (skip_blanks_blank g2), (skip_blanks_blank h2) in H1; auto.
            assert (Hb : isblank b = false).
            { eapply (skip_blanks_head (rest t) b). fold e. rewrite Eq. reflexivity. }
            cbn [skip_blanks app] in H1. rewrite Hb in H1. cbn in H1. injection H1 as <- _.
            eapply Nc. rewrite Eq. reflexivity. }
        destruct e as [|c r] eqn:Ee; [exfalso; apply E2; now left|].
        destruct (Z.eq_dec c 58) as [->|Nc].
        -- assert (Colon : pieces delims [58] [([], [58])] []).
           { change [58] with ([] ++ [58] ++ []) at 1. constructor; [constructor|discriminate| | |].
             - intros [|[? ?]]; discriminate.
             - apply ts_delim; [unfold delims; simpl; auto 12|discriminate|discriminate|discriminate].
             - change (@nil Z) with (@nil Z ++ []) at 1. constructor; [constructor|now left]. }
           assert (L : p = g ++ txt t ++ (g2 ++ [58]) -> label_alone p).
           { intros -> h1 t1 h2 l last P.
             apply pieces_first in P as (l' & [= -> -> <-] & P); [|auto|auto|eapply (Sh2 [58] r); reflexivity].
             pose proof (pieces_gap delims g2 [58] _ _ Bg2 Colon) as P2. cbn in P2.
             destruct (pieces_det _ _ _ P _ _ P2) as ([= _ ->] & _). reflexivity. }
           destruct r as [|c r].
           ++ cbn [negb list_eqb andb] in H. destruct (R _ H) as (q & q' & Ep & Eq).
              destruct q as [|b q].
              { (* the piece would end before the colon *)
                intros h1 t1 h2 l last P. rewrite Ep in P.
                assert (Sh3 := Sh2 [] _ Eq).
                apply pieces_first in P as (l' & [= -> -> <-] & P); auto.
                rewrite app_nil_r in P. apply pieces_blank in P; auto; discriminate. }
              injection Eq as <- Eq. symmetry in Eq. apply app_eq_nil in Eq as (-> & _). auto.
           ++ cbn [negb list_eqb andb] in H. injection H as <- _. apply L.
              etransitivity; [apply (firstn_cut1 s (g ++ txt t ++ g2) (c :: r) 58)|now rewrite <- !app_assoc].
              rewrite Es at 1. rewrite Eg2 at 1. now rewrite <- !app_assoc.
        -- destruct (R false) as (q & q' & Ep & Eq).
           { destruct c as [|c|c]; try exact H. do 6 (destruct c; try exact H). congruence. }
           eapply X; eauto. intros r' [= ? _]. congruence.
Qed.
Lemma statements_label a n : forall (s : text) ps, one_line s -> statements a n (Some s) = Ok ps ->
  Forall (fun x : text * bool => if snd x then label_alone (fst x) else has_comment (signs a) (fst x)) ps.
Proof.
  induction n as [|n IH]; intros s ps O H.
  { destruct s; cbn in H; [injection H as <-; constructor|discriminate]. }
  destruct s as [|c0 s0] eqn:Es0.
  { cbn [statements] in H. injection H as <-. constructor. }
  rewrite <- Es0 in *.
  assert (U : statements a (Datatypes.S n) (Some s) =
    do c <- statement a (Datatypes.S (length s)) s (Some s) true;
    match c with Comment => Ok [(s, false)] | Cut p s' => do r <- statements a n s'; Ok ((p, true) :: r) end)
    by (rewrite Es0; reflexivity).
  rewrite U in H.
  destruct (statement_spec a (Datatypes.S (length s)) s [] s true eq_refl ltac:(lia)) as (c & Hc & Hk).
  rewrite Hc in H. cbn [rbind] in H.
  pose proof (statement_one a (Datatypes.S (length s)) s [] s true [] c eq_refl ltac:(lia) (pre_nil s) ltac:(intros [])
                ltac:(auto) Hc) as Hone.
  destruct c as [|p nx].
  - injection H as <-. constructor; auto.
  - pose proof (statement_label _ _ _ _ _ O Hc) as Hl. destruct nx as [r|].
    + assert (O2 : one_line r).
      { simpl in Hk. destruct Hk as [(g & Ek & _)|(p' & Ek & _)]; rewrite Ek in O; rewrite one_line_app in O;
          destruct O as (_ & O); intro I; apply O; simpl; rewrite ?in_app_iff; auto. }
      destruct (statements a n (Some r)) as [q| | |] eqn:Eq; cbn [rbind] in H; try discriminate.
      injection H as <-. constructor; eauto.
    + destruct n; cbn [statements rbind] in H; injection H as <-; constructor; auto.
Qed.
