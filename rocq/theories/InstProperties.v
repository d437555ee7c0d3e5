(** C142: the programs that changed get into the tree patches are made from.  C143: the
    comparison of the symbols of the original and the patched programs. *)
From Coq Require Import String Permutation.
From Verif Require Import Base BaseProofs StorageModel PkgModel PkgProofs InstModel InstSpec InstProofs.
Open Scope list_scope.

Definition i_bin (s : string) : list Z := str s.
Definition i_pairs : pairs := [(i_bin "/server", i_bin "/usr/sbin/server"); (i_bin "/lib/libs.so", i_bin "/usr/lib64/libs.so");
  (i_bin "/tests/t1", i_bin "IGNORE")].
Definition i_src (n : list Z) : option (list Z) :=
  if list_eqb n (i_bin "server") then Some [1; 2] else if list_eqb n (i_bin "lib/libs.so") then Some [3] else
  if list_eqb n (i_bin "tests/t1") then Some [4] else if list_eqb n (i_bin "old/server") then Some [5] else None.
Definition i_built : list (list Z) := [i_bin "server"; i_bin "lib/libs.so"; i_bin "tests/t1"; i_bin "configure"].
Definition i_patched (n : list Z) : bool := negb (list_eqb n (i_bin "configure")).
Lemma i_ok : pairs_ok i_pairs.
Proof.
  intros b i H. repeat (destruct H as [E|H]; [injection E as <- <-; split; (split; [discriminate|]; cbn; intros c Hc;
    repeat (destruct Hc as [<-|Hc]; [lia|]); destruct Hc)|]). destruct H.
Qed.

(** ** C142 *)

(** Every pair that installs something has its program in the build directory, and unless
    another pair is for the same place, that is what is in the tree in the end; and nothing
    else gets there. *)
Theorem C142_installed : forall l src built patched dest, pairs_ok l ->
  install_generic (files_text l) src built patched = Some dest ->
  (forall b i, installs l b i -> exists c, src (no_slashes b) = Some c /\
     ((forall b' i', installs l b' i' -> no_slashes i' = no_slashes i -> b' = b) -> get (no_slashes i) dest = Some c)) /\
  (forall n c, get n dest = Some c -> exists b i, installs l b i /\ n = no_slashes i /\ src (no_slashes b) = Some c).
Proof.
  intros l src built patched dest OK H. unfold install_generic in H. rewrite (split_pairs l OK) in H.
  destruct (install_files src (concat (map (fun e => [fst e; snd e]) l)) []) as [d|] eqn:E; [|discriminate H].
  destruct (check_missing (files_text l) built patched); [|discriminate H]. apply some_inj in H. subst d.
  destruct (install_spec src l [] dest (NoDup_nil _) E) as (_ & R2 & R3 & _). split; [exact R3|].
  intros n c G. destruct (R2 n c G) as [G'|G']; [discriminate G'|exact G'].
Qed.
Print Assumptions C142_installed.

(** Names without leading slash. *)
Theorem C142_no_slashes : forall p, exists k, p = repeat 47 k ++ no_slashes p /\ (forall r, no_slashes p <> 47 :: r).
Proof.
  induction p as [|c p (k & E & N)]; [exists 0%nat; split; [reflexivity|discriminate]|]. cbn [no_slashes].
  destruct (Z.eqb_spec c 47) as [->|Nc].
  - exists (S k). split; [cbn; rewrite <- E; reflexivity|exact N].
  - exists 0%nat. split; [reflexivity|]. intros r Er. injection Er as E1 _. contradiction.
Qed.
Print Assumptions C142_no_slashes.

(** Whatever the text is: if the installation does not fail, every program with code of a
    patch in it is named there, after a slash and before a blank. *)
Theorem C142_named : forall files src built patched dest p, install_generic files src built patched = Some dest ->
  In p built -> patched p = true -> infix (47 :: p ++ [32]) files.
Proof.
  intros files src built patched dest p H Hp Pp. unfold install_generic in H.
  destruct (install_files src (split_words [] files) []); [|discriminate H].
  destruct (check_missing files built patched) eqn:C; [|discriminate H]. unfold check_missing in C. rewrite forallb_forall in C.
  specialize (C p Hp). rewrite Pp in C. cbn [negb orb] in C. apply contains_iff. exact C.
Qed.
Print Assumptions C142_named.

(** So for a text of pairs every such program is at the end of some path listed. *)
Lemma named_pair l src built patched dest p : pairs_ok l -> plain_word p ->
  install_generic (files_text l) src built patched = Some dest -> In p built -> patched p = true ->
  exists b i x, In (b, i) l /\ b = x ++ 47 :: p.
Proof.
  intros OK (Np & Wp) H Hp Pp. destruct (C142_named _ _ _ _ _ p H Hp Pp) as (a & z & E).
  assert (W : plain_word (47 :: p)) by (split; [discriminate|intros c [<-|Hc]; [lia|apply Wp; exact Hc]]).
  unfold files_text in E. destruct a as [|x a]; [discriminate E|]. injection E as <- E.
  rewrite <- (app_assoc p) in E.
  exact (listed l a (47 :: p) z OK W E).
Qed.
(** A program with code of a patch is installed, if not told otherwise.  Partial: no path
    listed is longer than that of the program and ends in it. *)
Theorem C142_complete_partial : forall l src built patched dest p, pairs_ok l -> plain_word p ->
  (forall b i x, In (b, i) l -> b = x ++ 47 :: p -> x = []) ->
  install_generic (files_text l) src built patched = Some dest -> In p built -> patched p = true ->
  exists i, In (47 :: p, i) l /\
    (i <> str "IGNORE" -> (forall b' i', installs l b' i' -> no_slashes i' = no_slashes i -> b' = 47 :: p) ->
     exists c, src (no_slashes p) = Some c /\ get (no_slashes i) dest = Some c).
Proof.
  intros l src built patched dest p OK Wp U H Hp Pp. destruct (named_pair l src built patched dest p OK Wp H Hp Pp) as (b & i & x & Hi & Eb).
  pose proof (U b i x Hi Eb) as ->. cbn in Eb. subst b. exists i. split; [exact Hi|]. intros Ni Q.
  destruct (proj1 (C142_installed l src built patched dest OK H) (47 :: p) i (conj Hi Ni)) as (c & S & G).
  exists c. split; [exact S|]. apply G. exact Q.
Qed.
Print Assumptions C142_complete_partial.
Example C142_hyps : pairs_ok i_pairs /\ plain_word (i_bin "server") /\
  install_generic (files_text i_pairs) i_src i_built i_patched =
    Some [(i_bin "usr/sbin/server", [1; 2]); (i_bin "usr/lib64/libs.so", [3])] /\
  installs i_pairs (i_bin "/server") (i_bin "/usr/sbin/server") /\
  (forall b i x, In (b, i) i_pairs -> b = x ++ 47 :: i_bin "server" -> x = []).
Proof.
  split; [exact i_ok|]. split.
  { split; [discriminate|]. cbn. intros c Hc. repeat (destruct Hc as [<-|Hc]; [lia|]). destruct Hc. }
  split; [vm_compute; reflexivity|]. split; [split; [left; reflexivity|discriminate]|].
  intros b i x H E. destruct H as [H|[H|[H|[]]]]; injection H as <- <-.
  - destruct x as [|c x]; [reflexivity|]. apply (f_equal (@List.length Z)) in E. rewrite app_length in E. cbn in E. lia.
  - apply (f_equal (@rev Z)) in E. rewrite rev_app_distr in E. vm_compute in E. discriminate E.
  - apply (f_equal (@rev Z)) in E. rewrite rev_app_distr in E. vm_compute in E. discriminate E.
Qed.

(** A program with code of a patch that no path listed ends in makes the build fail. *)
Theorem C142_unlisted_fails : forall l src built patched p, pairs_ok l -> plain_word p -> In p built -> patched p = true ->
  (forall b i x, In (b, i) l -> b <> x ++ 47 :: p) -> install_generic (files_text l) src built patched = None.
Proof.
  intros l src built patched p OK Wp Hp Pp U. destruct (install_generic (files_text l) src built patched) as [dest|] eqn:H; [|reflexivity].
  destruct (named_pair l src built patched dest p OK Wp H Hp Pp) as (b & i & x & Hi & Eb). destruct (U b i x Hi Eb).
Qed.
Print Assumptions C142_unlisted_fails.
Example C142_unlisted_hyps : install_generic (files_text (tl i_pairs)) i_src i_built i_patched = None /\
  install_generic (files_text i_pairs) i_src i_built i_patched <> None.
Proof. split; vm_compute; [reflexivity|discriminate]. Qed.

(** A build without patched programs that are not named, and with all the programs listed,
    does not fail. *)
Theorem C142_passes : forall l src built patched, pairs_ok l ->
  (forall b i, installs l b i -> src (no_slashes b) <> None) ->
  (forall p, In p built -> patched p = true -> exists i, In (47 :: p, i) l) ->
  install_generic (files_text l) src built patched <> None.
Proof.
  intros l src built patched OK S N. unfold install_generic. rewrite (split_pairs l OK).
  assert (E : forall d, exists r, install_files src (concat (map (fun e => [fst e; snd e]) l)) d = Some r).
  { clear N OK. revert S. induction l as [|[b i] l IH]; intros S d; [exists d; reflexivity|]. cbn [map concat app fst snd install_files].
    assert (S' : forall b' i', installs l b' i' -> src (no_slashes b') <> None) by (intros b' i' (Hi & Ni); apply (S b' i'); split; [right; exact Hi|exact Ni]).
    destruct (list_eqb i (str "IGNORE")) eqn:E; [apply IH; exact S'|].
    destruct (src (no_slashes b)) as [c|] eqn:Sb; [apply IH; exact S'|].
    exfalso. apply (S b i); [split; [left; reflexivity|intros ->; rewrite eqb_self in E; discriminate E]|exact Sb]. }
  destruct (E []) as (r & ->). replace (check_missing (files_text l) built patched) with true; [discriminate|].
  symmetry. unfold check_missing. apply forallb_forall. intros p Hp. destruct (patched p) eqn:Pp; [|reflexivity]. cbn [negb orb].
  apply contains_iff. destruct (N p Hp Pp) as (i & Hi). apply in_split in Hi. destruct Hi as (l1 & l2 & ->).
  exists (10 :: concat (map pair_text l1)), (i ++ [10] ++ concat (map pair_text l2)).
  unfold files_text. rewrite map_app, concat_app. cbn [map concat]. unfold pair_text at 2. cbn [fst snd].
  cbn [app]. f_equal. f_equal. f_equal. rewrite <- !app_assoc. cbn [app]. rewrite <- app_assoc. reflexivity.
Qed.
Print Assumptions C142_passes.

(** A word that is left over, not part of a pair, makes the build fail. *)
Theorem C142_left_over : forall l w src built patched, pairs_ok l -> plain_word w ->
  install_generic (files_text l ++ w) src built patched = None.
Proof.
  intros l w src built patched OK (Nw & Hw). unfold install_generic.
  assert (E : split_words [] (files_text l ++ w) = concat (map (fun e => [fst e; snd e]) l) ++ [w]).
  { unfold files_text. cbn [app split_words]. change (ws 10) with true. cbv iota.
    induction l as [|[b i] l IH].
    - cbn [map concat app]. assert (G : forall cur v, (forall c, In c v -> c <> 32 /\ c <> 9 /\ c <> 10) -> cur ++ v <> [] -> split_words cur v = [cur ++ v]).
      { intros cur v. revert cur. induction v as [|x v IHv]; intros cur Hv N; cbn [split_words].
        - rewrite app_nil_r in *. destruct cur; [contradiction|reflexivity].
        - rewrite (ws_false x (Hv x (or_introl eq_refl))). rewrite IHv; [rewrite <- app_assoc; reflexivity|intros y Hy; apply Hv; right; exact Hy|].
          intro E. apply app_eq_nil in E. destruct E as [E _]. destruct cur; discriminate E. }
      apply (G [] w Hw Nw).
    - cbn [map concat]. unfold pair_text at 1. cbn [fst snd]. destruct (OK b i (or_introl eq_refl)) as ((Nb & Hb) & (Ni & Hi)).
      rewrite <- !app_assoc. cbn [app]. rewrite split_word; [|exact Hb|exact Nb|reflexivity].
      cbn [app]. f_equal. rewrite <- !app_assoc. cbn [app]. rewrite split_word; [|exact Hi|exact Ni|reflexivity].
      cbn [app]. f_equal. apply IH. intros b' i' H'. apply OK. right; exact H'. }
  assert (N : forall d, install_files src (concat (map (fun e => [fst e; snd e]) l) ++ [w]) d = None).
  { clear. induction l as [|[b i] l IH]; intro d; [reflexivity|].
    cbn [map concat app fst snd install_files]. destruct (list_eqb i (str "IGNORE")); [apply IH|].
    destruct (src (no_slashes b)); [apply IH|reflexivity]. }
  rewrite E, N. reflexivity.
Qed.
Print Assumptions C142_left_over.
Example C142_left_over_case : pairs_ok [(i_bin "/server", i_bin "/usr/sbin/server")] /\ plain_word (i_bin "client").
Proof.
  split; [|split; [discriminate|]; cbn; intros c Hc; repeat (destruct Hc as [<-|Hc]; [lia|]); destruct Hc].
  intros b i [E|[]]; injection E as <- <-; split; (split; [discriminate|]; cbn; intros c Hc;
    repeat (destruct Hc as [<-|Hc]; [lia|]); destruct Hc).
Qed.

(** False without the condition of C142_complete_partial: another program whose path ends in
    that of the patched one is listed.  The build goes on, and no patch will be made of it. *)
Theorem C142_complete_refuted : exists l src built patched dest p c, pairs_ok l /\ In p built /\ patched p = true /\ src p = Some c /\
  install_generic (files_text l) src built patched = Some dest /\ (forall n, get n dest <> Some c).
Proof.
  exists [(i_bin "/old/server", i_bin "/usr/sbin/server.old")], i_src, [i_bin "server"], (fun _ => true).
  eexists. exists (i_bin "server"), [1; 2]. split.
  { intros b i [E|[]]; injection E as <- <-; split; (split; [discriminate|]; cbn; intros c Hc;
    repeat (destruct Hc as [<-|Hc]; [lia|]); destruct Hc). }
  split; [left; reflexivity|]. split; [reflexivity|]. split; [reflexivity|]. split; [vm_compute; reflexivity|].
  intros n G. cbn [get] in G. destruct (list_eqb _ n); discriminate G.
Qed.
Print Assumptions C142_complete_refuted.
(** A list written with a tab after the name names the same words, but the build fails. *)
Theorem C142_tab_refuted : exists files src built patched b i, split_words [] files = [b; i] /\ b = 47 :: hd [] built /\
  install_files src (split_words [] files) [] <> None /\ install_generic files src built patched = None.
Proof.
  exists (i_bin "/server" ++ 9 :: i_bin "/usr/sbin/server"), i_src, [i_bin "server"], (fun _ => true). eexists. eexists.
  split; [vm_compute; reflexivity|]. split; [reflexivity|]. split; vm_compute; [discriminate|reflexivity].
Qed.
Print Assumptions C142_tab_refuted.

(** ** C143 *)

Definition i_sects : list srow := [ {| r_num := 1; r_name := str ".text"; r_addr := 0x1000 |}; {| r_num := 2; r_name := str ".data"; r_addr := 0x4000 |} ].
Definition i_y (v z : Z) (t : string) (n : option Z) (s : string) : yrow :=
  {| y_value := v; y_size := z; y_type := str t; y_shndx := n; y_name := str s |}.
Definition i_list : listing := (i_sects,
  [i_y 0x1010 20 "FUNC" (Some 1) "main"; i_y 0x1030 8 "FUNC" (Some 1) "helper"; i_y 0x4000 4 "OBJECT" (Some 2) "counter"; i_y 0 0 "FILE" None "m.c"; i_y 0x1040 8 "FUNC" (Some 1) "__gone"; i_y 0x4008 4 "OBJECT" (Some 2) "hits.1234"]).
Lemma i_list_ok : listing_ok i_list.
Proof.
  split; [|split].
  - cbn. repeat constructor; cbn; intuition congruence.
  - intros r [<-|[<-|[]]]; cbn; lia.
  - intros y n Hy Ey. cbn in Hy. repeat (destruct Hy as [<-|Hy]; [cbn in Ey; injection Ey as <- || discriminate Ey; cbn; auto|]). destruct Hy.
Qed.

(** A program passes: if its debug file has a symbol that is compared, exactly the same
    functions and objects, with the same sizes and at the same offsets in sections of the same
    names, are in the debug file and in the patched program. *)
Theorem C143_same : forall d t, listing_ok d -> listing_ok (t_new t) -> t_allowed t = None ->
  (exists n z s o, compared d n z s o) -> sane_target d t = true ->
  forall n z s o, compared d n z s o <-> compared (t_new t) n z s o.
Proof.
  intros d t Od On A (n0 & z0 & s0 & o0 & C0) H n z s o. unfold sane_target in H. rewrite A in H.
  pose proof (proj2 (line_iff d {| l_off := o0; l_sect := s0; l_size := z0; l_name := n0 |} Od) C0) as I0.
  destruct (de_offset d) as [|q ql] eqn:E; [destruct I0|]. rewrite <- E in H.
  rewrite <- (line_iff d {| l_off := o; l_sect := s; l_size := z; l_name := n |} Od).
  rewrite <- (line_iff (t_new t) {| l_off := o; l_sect := s; l_size := z; l_name := n |} On).
  apply same_in. exact H.
Qed.
Print Assumptions C143_same.
(** If there is none, the original program is compared. *)
Theorem C143_no_debug : forall d t, listing_ok d -> listing_ok (t_orig t) -> listing_ok (t_new t) -> t_allowed t = None ->
  (forall n z s o, ~ compared d n z s o) -> sane_target d t = true ->
  forall n z s o, compared (t_orig t) n z s o <-> compared (t_new t) n z s o.
Proof.
  intros d t Od Oo On A N H n z s o. unfold sane_target in H. rewrite A in H.
  destruct (de_offset d) as [|q ql] eqn:E.
  - rewrite <- (line_iff (t_orig t) {| l_off := o; l_sect := s; l_size := z; l_name := n |} Oo).
    rewrite <- (line_iff (t_new t) {| l_off := o; l_sect := s; l_size := z; l_name := n |} On). apply same_in. exact H.
  - destruct (N (l_name q) (l_size q) (l_sect q) (l_off q)). apply (line_iff d q Od). rewrite E. left. reflexivity.
Qed.
Print Assumptions C143_no_debug.
(** The same, counted: one to one. *)
Theorem C143_counted : forall d t, t_allowed t = None -> de_offset d <> [] ->
  (sane_target d t = true <-> Permutation (de_offset d) (de_offset (t_new t))).
Proof.
  intros d t A N. unfold sane_target. rewrite A. destruct (de_offset d) as [|q ql] eqn:E; [contradiction|]. apply same_iff.
Qed.
Print Assumptions C143_counted.

(** A program whose sections have moved, with all that is in them, passes; in whatever order
    its symbols are. *)
Theorem C143_moved : forall d t m, listing_ok d -> (forall r, In r (fst d) -> 0 <= r_addr r + m (r_num r)) ->
  (forall y n, In y (snd d) -> y_shndx y = Some n -> (y_value y + m n = 0 <-> y_value y = 0)) ->
  (exists n z s o, compared d n z s o) -> t_allowed t = None ->
  (exists ys, Permutation ys (snd (shift m d)) /\ t_new t = (fst (shift m d), ys)) -> sane_target d t = true.
Proof.
  intros d t m Od A V (n0 & z0 & s0 & o0 & C0) Al (ys & P & En).
  pose proof (proj2 (line_iff d {| l_off := o0; l_sect := s0; l_size := z0; l_name := n0 |} Od) C0) as I0.
  apply C143_counted; [exact Al|intro E; rewrite E in I0; destruct I0|]. rewrite <- (de_offset_shift m d Od A V), En.
  unfold de_offset. cbn [fst snd]. apply Permutation_sym. apply Permutation_flat_map. exact P.
Qed.
Print Assumptions C143_moved.

(** The check as a whole: a strict one lets the build go on exactly if every program has a
    debug file and passes; one that is not strict never stops it because of a difference, but
    then it warns. *)
Theorem C143_strict : forall l, sanity true false l = Fine <->
  forall t, In t l -> exists d, t_debug t = Some d /\ sane_target d t = true.
Proof.
  assert (G : forall l f, sanity true f l = Fine <-> f = false /\ forall t, In t l -> exists d, t_debug t = Some d /\ sane_target d t = true).
  { induction l as [|t l IH]; intro f; cbn [sanity].
    - destruct f; split; [discriminate|intros (X & _); discriminate X|split; [reflexivity|intros t []]|reflexivity].
    - destruct (t_debug t) as [d|] eqn:D.
      + rewrite IH. destruct (sane_target d t) eqn:S; split.
        * intros (-> & H). split; [reflexivity|]. intros x [<-|Hx]; [exists d; auto|apply H; exact Hx].
        * intros (-> & H). split; [reflexivity|]. intros x Hx. apply H. right. exact Hx.
        * intros (X & _). discriminate X.
        * intros (_ & H). destruct (H t (or_introl eq_refl)) as (d' & D' & S'). congruence.
      + split; [discriminate|]. intros (_ & H). destruct (H t (or_introl eq_refl)) as (d' & D' & _). congruence. }
  intro l. rewrite G. split; [intros (_ & H); exact H|auto].
Qed.
Print Assumptions C143_strict.
Theorem C143_strict_stops : forall l, sanity true false l <> Warned.
Proof.
  intro l. generalize false at 1. induction l as [|t l IH]; intro f; cbn [sanity]; [destruct f; discriminate|].
  destruct (t_debug t); [apply IH|discriminate].
Qed.
Print Assumptions C143_strict_stops.
Theorem C143_not_strict : forall l, (forall t, In t l -> t_debug t <> None) ->
  (sanity false false l = Fine <-> sanity true false l = Fine) /\ sanity false false l <> Died.
Proof.
  assert (G : forall l f, (forall t, In t l -> t_debug t <> None) ->
    (sanity false f l = Fine <-> sanity true f l = Fine) /\ sanity false f l <> Died).
  { induction l as [|t l IH]; intros f H; cbn [sanity].
    - destruct f; split; try discriminate; [split; discriminate|split; reflexivity].
    - destruct (t_debug t) eqn:D; [|destruct (H t (or_introl eq_refl) D)]. apply IH. intros x Hx. apply H. right. exact Hx. }
  intros l H. apply G. exact H.
Qed.
Print Assumptions C143_not_strict.

Definition i_target (new : listing) : target := {| t_debug := Some i_list; t_orig := ([], []); t_new := new; t_allowed := None |}.
Definition i_move (n : Z) : Z := if n =? 1 then 0x200 else 0x1000.
(** Sections moved: passes.  A function that has moved in its section, grown, come or gone:
    does not. *)
Example C143_hyps : listing_ok i_list /\ (exists n z s o, compared i_list n z s o) /\
  (forall r, In r (fst i_list) -> 0 <= r_addr r + i_move (r_num r)) /\
  sanity true false [i_target i_list; i_target (shift i_move i_list)] = Fine /\
  sanity true false [i_target i_list; i_target (i_sects, tl (snd i_list))] = Died /\
  sanity false false [i_target (i_sects, i_y 0x1010 24 "FUNC" (Some 1) "main" :: tl (snd i_list)); i_target i_list] = Warned /\
  sanity true false [i_target (i_sects, i_y 0x1014 20 "FUNC" (Some 1) "main" :: tl (snd i_list))] = Died /\
  sanity true false [i_target (i_sects, i_y 0x1080 20 "FUNC" (Some 1) "added" :: snd i_list)] = Died.
Proof.
  split; [exact i_list_ok|]. split.
  { assert (H : In {| l_off := 16; l_sect := str ".text"; l_size := 20; l_name := str "main" |} (de_offset i_list)) by (vm_compute; left; reflexivity).
    pose proof (proj1 (line_iff i_list _ i_list_ok) H) as C. exists (str "main"), 20, (str ".text"), 16. exact C. }
  split; [intros r [<-|[<-|[]]]; cbn; lia|]. vm_compute. repeat split.
Qed.

(** It does not see: symbols whose names begin with two underscores, or end in a dot and a
    number (a static variable of a function). *)
Theorem C143_all_symbols_refuted : exists d t y, t_debug t = Some d /\ t_allowed t = None /\ listing_ok d /\ listing_ok (t_new t) /\
  In y (snd d) /\ y_type y = str "OBJECT" /\ (exists y', In y' (snd (t_new t)) /\ y_name y' = y_name y /\ y_value y' <> y_value y) /\
  NoDup (map y_name (snd (t_new t))) /\ fst (t_new t) = fst d /\ sanity true false [t] = Fine.
Proof.
  exists i_list, (i_target (i_sects, firstn 5 (snd i_list) ++ [i_y 0x4010 4 "OBJECT" (Some 2) "hits.1234"])), (i_y 0x4008 4 "OBJECT" (Some 2) "hits.1234").
  split; [reflexivity|]. split; [reflexivity|]. split; [exact i_list_ok|]. split.
  { split; [exact (proj1 i_list_ok)|]. split; [exact (proj1 (proj2 i_list_ok))|].
    intros y n Hy Ey. cbn in Hy. repeat (destruct Hy as [<-|Hy]; [cbn in Ey; injection Ey as <- || discriminate Ey; cbn; auto|]). destruct Hy. }
  split; [cbn; tauto|]. split; [reflexivity|]. split.
  { exists (i_y 0x4010 4 "OBJECT" (Some 2) "hits.1234"). split; [cbn; tauto|]. split; [reflexivity|cbn; lia]. }
  split; [cbn; repeat (constructor; [cbn; intuition discriminate|]); constructor|]. split; [reflexivity|vm_compute; reflexivity].
Qed.
Print Assumptions C143_all_symbols_refuted.
(** A stripped original with an empty debug file, and a stripped patched program: nothing is
    compared, and the check passes whatever the programs are. *)
Theorem C143_stripped_refuted : exists l, (forall t, In t l -> t_allowed t = None /\ t_debug t <> None) /\ l <> [] /\
  (forall t d n z s o, In t l -> t_debug t = Some d -> ~ compared d n z s o) /\ sanity true false l = Fine /\
  (exists t, In t l /\ map r_addr (fst (t_orig t)) <> map r_addr (fst (t_new t)) /\ List.length (fst (t_orig t)) <> List.length (fst (t_new t))).
Proof.
  exists [{| t_debug := Some (i_sects, []); t_orig := (i_sects, []); t_new := (tl i_sects, []); t_allowed := None |}].
  split; [intros t [<-|[]]; split; [reflexivity|discriminate]|]. split; [discriminate|]. split.
  - intros t d n z s o [<-|[]] E (y & a & Hy & _). cbn in E. injection E as <-. destruct Hy.
  - split; [vm_compute; reflexivity|]. eexists. split; [left; reflexivity|]. cbn. split; discriminate.
Qed.
Print Assumptions C143_stripped_refuted.
