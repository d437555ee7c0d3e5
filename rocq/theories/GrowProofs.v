(** Proofs about the growing arrays of lines. *)
From Coq Require Import Lia.
From Verif Require Import Base GrowModel.
Open Scope list_scope.
Open Scope Z_scope.

(** An array that holds [l] at its beginning. *)
Definition holds {A} (a : arr A) (l : list A) : Prop :=
  firstn (length l) a = map Some l.

Lemma holds_len {A} (a : arr A) l : holds a l -> (length l <= length a)%nat.
Proof.
  intros H. apply (f_equal (@length _)) in H.
  rewrite firstn_length, map_length in H. lia.
Qed.

Lemma holds_split {A} (a : arr A) l : holds a l <-> exists r, a = map Some l ++ r.
Proof.
  unfold holds. split.
  - intros H. exists (skipn (length l) a). rewrite <- H. symmetry. apply firstn_skipn.
  - intros [r ->]. rewrite firstn_app, map_length.
    rewrite Nat.sub_diag, app_nil_r. rewrite firstn_all2; [reflexivity|].
    rewrite map_length. lia.
Qed.

Lemma put_at {A} l : forall (r : arr A) c x,
  put (length l) x (map Some l ++ c :: r) = Fine (map Some l ++ Some x :: r).
Proof.
  induction l as [|y l IH]; intros r c x; cbn; [reflexivity|]. rewrite IH. reflexivity.
Qed.

Lemma store_end {A} (a : arr A) l x :
  holds a l -> (length l < length a)%nat ->
  exists a', store a (zlen l) x = Fine a' /\ holds a' (l ++ [x]) /\ length a' = length a.
Proof.
  intros H L. apply holds_split in H. destruct H as [r ->].
  rewrite app_length, map_length in L.
  destruct r as [|c r]; [cbn in L; lia|].
  exists (map Some l ++ Some x :: r). split; [|split].
  - unfold store, zlen. destruct (Z.ltb_spec (Z.of_nat (length l)) 0); [lia|].
    rewrite Nat2Z.id. apply put_at.
  - apply holds_split. exists r. rewrite map_app, <- app_assoc. reflexivity.
  - rewrite !app_length. reflexivity.
Qed.

Lemma realloc_more {A} (a : arr A) l old new :
  holds a l -> zlen a = old -> old <= new ->
  exists a', kp_realloc (Some a) old new = Fine a' /\ holds a' l /\ zlen a' = new.
Proof.
  intros H L N. unfold kp_realloc. destruct (Z.ltb_spec new old); [lia|].
  destruct (Z.ltb_spec (zlen a) old); [lia|].
  eexists. split; [reflexivity|]. unfold zlen in *. subst old. rewrite Nat2Z.id, firstn_all.
  split.
  - apply holds_split in H. destruct H as [r ->]. apply holds_split.
    eexists. rewrite <- app_assoc. reflexivity.
  - rewrite app_length, repeat_length. lia.
Qed.

Lemma realloc_new {A} old new : 0 <= new ->
  exists a', kp_realloc (@None (arr A)) old new = Fine a' /\ holds a' [] /\ zlen a' = new.
Proof.
  intros N. eexists. split; [reflexivity|]. split; [reflexivity|].
  unfold zlen. rewrite repeat_length. lia.
Qed.

Lemma half sz : sz * 2 / 2 = sz.
Proof. apply Z.div_mul. lia. Qed.

(** ** read_file *)

(** The array holds [l] from cell 1 on. *)
Definition holds1 {A} (a : arr A) (l : list A) : Prop :=
  exists c r, a = c :: map Some l ++ r.

Lemma read_loop_spec {A} (input : list A) : forall l a sz,
  holds1 a l -> zlen a = sz -> 64 <= sz -> zlen l + 1 <= sz ->
  exists a' sz', read_loop (zlen l + 1) sz (Some a) input
                 = Fine (zlen l + 1 + zlen input, sz', a') /\
    holds1 a' (l ++ input) /\ zlen a' = sz' /\ zlen (l ++ input) + 1 < sz'.
Proof.
  induction input as [|x input IH]; intros l a sz H L Sz N; cbn [read_loop].
  - assert (G : exists sz1 a1, grow_read (zlen l + 1) sz (Some a) = Fine (sz1, a1) /\
               holds1 a1 l /\ zlen a1 = sz1 /\ zlen l + 1 < sz1).
    { unfold grow_read. destruct (Z.leb_spec sz (zlen l + 1)).
      - rewrite half. unfold kp_realloc. destruct (Z.ltb_spec (sz * 2) sz); [lia|].
        destruct (Z.ltb_spec (zlen a) sz); [lia|]. cbn [bind].
        do 2 eexists. split; [reflexivity|]. destruct H as (c & r & ->).
        rewrite <- L. unfold zlen. rewrite Nat2Z.id, firstn_all.
        split; [|split].
        + eexists c, _. cbn [app]. rewrite <- app_assoc. reflexivity.
        + rewrite app_length, repeat_length. unfold zlen in L. lia.
        + unfold zlen in *. lia.
      - do 2 eexists. split; [reflexivity|]. repeat split; auto; lia. }
    destruct G as (sz1 & a1 & G & H1 & L1 & N1). rewrite G. cbn [bind].
    rewrite app_nil_r. exists a1, sz1. split; [|auto].
    change (zlen (@nil A)) with 0. rewrite Z.add_0_r. reflexivity.
  - assert (G : exists sz1 a1, grow_read (zlen l + 1) sz (Some a) = Fine (sz1, a1) /\
               holds1 a1 l /\ zlen a1 = sz1 /\ zlen l + 1 < sz1 /\ 64 <= sz1).
    { unfold grow_read. destruct (Z.leb_spec sz (zlen l + 1)).
      - rewrite half. unfold kp_realloc. destruct (Z.ltb_spec (sz * 2) sz); [lia|].
        destruct (Z.ltb_spec (zlen a) sz); [lia|]. cbn [bind].
        do 2 eexists. split; [reflexivity|]. destruct H as (c & r & ->).
        rewrite <- L. unfold zlen. rewrite Nat2Z.id, firstn_all.
        split; [|split; [|split]].
        + eexists c, _. cbn [app]. rewrite <- app_assoc. reflexivity.
        + rewrite app_length, repeat_length. unfold zlen in L. lia.
        + unfold zlen in *. lia.
        + unfold zlen in *. lia.
      - do 2 eexists. split; [reflexivity|]. repeat split; auto; lia. }
    destruct G as (sz1 & a1 & G & H1 & L1 & N1 & S1). rewrite G. cbn [bind].
    destruct H1 as (c & r & E).
    destruct r as [|d r].
    { rewrite E in L1. unfold zlen in *. cbn in L1. rewrite app_nil_r, map_length in L1. lia. }
    assert (P : store a1 (zlen l + 1) x = Fine (c :: map Some (l ++ [x]) ++ r)).
    { unfold store, zlen. destruct (Z.ltb_spec (Z.of_nat (length l) + 1) 0); [lia|].
      replace (Z.to_nat (Z.of_nat (length l) + 1)) with (S (length l)) by lia.
      rewrite E. cbn [put]. rewrite put_at. cbn [bind].
      rewrite map_app, <- app_assoc. reflexivity. }
    rewrite P. cbn [bind].
    assert (Z1 : zlen l + 1 = zlen (l ++ [x])) by (unfold zlen; rewrite app_length; cbn; lia).
    rewrite Z1.
    destruct (IH (l ++ [x]) (c :: map Some (l ++ [x]) ++ r) sz1) as (a' & sz' & R & H' & L' & N').
    + exists c, r. reflexivity.
    + rewrite <- L1, E. unfold zlen. cbn [length].
      rewrite !app_length, !map_length, app_length. cbn [length]. lia.
    + exact S1.
    + rewrite <- Z1. lia.
    + exists a', sz'. rewrite <- app_assoc in H', N'. cbn [app] in H', N'.
      split; [|auto]. rewrite R.
      replace (zlen (l ++ [x]) + zlen (x :: input)) with (zlen (l ++ [x]) + 1 + zlen input)
        by (unfold zlen; cbn [length]; lia).
      reflexivity.
Qed.

Lemma read_array_spec {A} (e : A) input :
  exists a, read_array e input = Fine (a, 1 + zlen input) /\ holds a (e :: input).
Proof.
  unfold read_array.
  assert (F : read_loop 1 64 None input
              = read_loop (zlen (@nil A) + 1) 128 (Some (repeat None 128)) input).
  { destruct input; reflexivity. }
  destruct (read_loop_spec input [] (repeat None 128) 128) as (a & sz & R & H & _).
  - exists None, (repeat None 127). reflexivity.
  - reflexivity.
  - lia.
  - cbn. lia.
  - assert (R' := eq_trans F R). rewrite R'. cbn [bind]. destruct H as (c & r & ->).
    exists (Some e :: map Some ([] ++ input) ++ r). split; [reflexivity|].
    apply holds_split. exists r. reflexivity.
Qed.

(** ** init_multilines *)

(** What the arrays should hold. *)
Definition pieces {A} (x : taken A) : list A :=
  fst x ++ match snd x with Some s => [s] | None => [] end.
Fixpoint numbered {A} (i : Z) (ls : list (taken A)) : list (A * Z) :=
  match ls with
  | [] => []
  | x :: r => map (fun s => (s, i)) (pieces x) ++ numbered (i + 1) r
  end.

Definition holds2 {A} (t : two A) (l : list (A * Z)) : Prop :=
  holds (fst t) (map fst l) /\ holds (snd t) (map snd l).
Definition size2 {A} (t : two A) (sz : Z) : Prop := zlen (fst t) = sz /\ zlen (snd t) = sz.

Lemma store2_end {A} (t : two A) l sz x i :
  holds2 t l -> size2 t sz -> zlen l < sz ->
  exists t', store2 t (zlen l) x i = Fine t' /\ holds2 t' (l ++ [(x, i)]) /\ size2 t' sz.
Proof.
  intros [H1 H2] [S1 S2] L. unfold zlen in *.
  destruct (store_end (fst t) (map fst l) x H1) as (a & E1 & G1 & N1); [rewrite map_length; lia|].
  destruct (store_end (snd t) (map snd l) i H2) as (b & E2 & G2 & N2); [rewrite map_length; lia|].
  unfold zlen in E1, E2. rewrite map_length in E1, E2.
  exists (a, b). unfold store2. rewrite E1. cbn [bind]. rewrite E2. cbn [bind].
  split; [reflexivity|]. unfold holds2, size2, zlen. cbn [fst snd].
  rewrite !map_app. cbn [map fst snd]. repeat split; auto; lia.
Qed.

Lemma store_all_spec {A} (xs : list A) i : forall (t : two A) l sz,
  holds2 t l -> size2 t sz -> zlen l < sz ->
  (zlen l + zlen xs < sz /\
   exists t', store_all t (zlen l) sz i xs = Fine (t', zlen l + zlen xs) /\
     holds2 t' (l ++ map (fun s => (s, i)) xs) /\ size2 t' sz) \/
  (sz <= zlen l + zlen xs /\ store_all t (zlen l) sz i xs = Fatal).
Proof.
  induction xs as [|x xs IH]; intros t l sz H S L; cbn [store_all].
  - left. change (zlen (@nil A)) with 0. rewrite Z.add_0_r. split; [exact L|].
    exists t. split; [reflexivity|]. rewrite app_nil_r. auto.
  - destruct (store2_end t l sz x i H S L) as (t1 & E & H1 & S1).
    rewrite E. cbn [bind].
    assert (Zx : zlen (x :: xs) = 1 + zlen xs) by (unfold zlen; cbn [length]; lia).
    assert (Zn : 0 <= zlen xs) by (unfold zlen; lia).
    assert (Zl : zlen (l ++ [(x, i)]) = zlen l + 1)
      by (unfold zlen; rewrite app_length; cbn [length]; lia).
    destruct (Z.leb_spec sz (zlen l + 1)) as [F|F].
    + right. split; [lia|reflexivity].
    + rewrite <- Zl. destruct (IH t1 (l ++ [(x, i)]) sz H1 S1 ltac:(lia)) as
        [(B & t2 & E2 & H2 & S2)|(B & E2)].
      * left. split; [lia|]. exists t2. rewrite E2. split; [f_equal; f_equal; lia|].
        rewrite <- app_assoc in H2. auto.
      * right. split; [lia|exact E2].
Qed.

Definition next_sz (nr sz : Z) : Z := if sz <=? nr + 1000 then sz * 2 else sz.

(** One line, from arrays that are there. *)
Lemma multi_line_spec {A} (t : two A) l sz i x :
  holds2 t l -> size2 t sz -> 64 <= sz -> zlen l <= sz ->
  let sz1 := next_sz (zlen l) sz in
  (zlen l + zlen (fst x) < sz1 /\
   exists t', multi_line (Some t) (zlen l) sz i x = Fine (t', zlen l + zlen (pieces x), sz1) /\
     holds2 t' (l ++ map (fun s => (s, i)) (pieces x)) /\ size2 t' sz1) \/
  (sz1 <= zlen l + zlen (fst x) /\ multi_line (Some t) (zlen l) sz i x = Fatal).
Proof.
  intros H S Z64 L sz1. unfold multi_line. cbn [option_map].
  assert (G : exists t1, (if sz <=? zlen l + 1000
      then let! l0 := kp_realloc (Some (fst t)) (sz * 2 / 2) (sz * 2) in
           let! n := kp_realloc (Some (snd t)) (sz * 2 / 2) (sz * 2) in
           Fine ((l0, n), sz * 2)
      else Fine (t, sz)) = Fine (t1, sz1) /\ holds2 t1 l /\ size2 t1 sz1 /\ zlen l < sz1).
  { unfold sz1, next_sz. destruct (Z.leb_spec sz (zlen l + 1000)) as [C|C].
    - rewrite half. destruct H as [H1 H2], S as [S1 S2].
      destruct (realloc_more (fst t) (map fst l) sz (sz * 2) H1 S1 ltac:(lia)) as (a & -> & A1 & A2).
      cbn [bind].
      destruct (realloc_more (snd t) (map snd l) sz (sz * 2) H2 S2 ltac:(lia)) as (b & -> & B1 & B2).
      cbn [bind]. exists (a, b). unfold holds2, size2. cbn [fst snd]. repeat split; auto; lia.
    - exists t. repeat split; try apply H; try apply S; lia. }
  destruct G as (t1 & G & H1 & S1 & L1). rewrite G. cbn [bind].
  destruct (store_all_spec (fst x) i t1 l sz1 H1 S1 L1) as [(B & t2 & E & H2 & S2)|(B & E)].
  - left. split; [exact B|]. rewrite E. cbn [bind].
    unfold pieces. destruct (snd x) as [s|].
    + assert (Zl : zlen (l ++ map (fun s => (s, i)) (fst x)) = zlen l + zlen (fst x))
        by (unfold zlen; rewrite app_length, map_length; lia).
      rewrite <- Zl in B.
      destruct (store2_end t2 _ sz1 s i H2 S2 B) as (t3 & E3 & H3 & S3).
      rewrite Zl in E3. rewrite E3. cbn [bind]. exists t3.
      split; [|split; [|exact S3]].
      * unfold zlen. rewrite app_length. cbn [length].
        replace (Z.of_nat (length l) + Z.of_nat (length (fst x)) + 1)
          with (Z.of_nat (length l) + Z.of_nat (length (fst x) + 1)) by lia. reflexivity.
      * rewrite map_app. cbn [map]. rewrite app_assoc. exact H3.
    + exists t2. rewrite app_nil_r. auto.
  - right. split; [exact B|]. rewrite E. reflexivity.
Qed.

(** The number of cells used and the size when a line comes, and whether it fits. *)
Fixpoint fits {A} (nr sz : Z) (ls : list (taken A)) : bool :=
  match ls with
  | [] => true
  | x :: r => let sz1 := next_sz nr sz in
              (nr + zlen (fst x) <? sz1) && fits (nr + zlen (pieces x)) sz1 r
  end.

Lemma multi_loop_spec {A} (ls : list (taken A)) : forall (t : two A) l sz i,
  holds2 t l -> size2 t sz -> 64 <= sz -> zlen l <= sz ->
  if fits (zlen l) sz ls
  then exists t', multi_loop (Some t) (zlen l) sz i ls
                  = Fine (Some t', zlen (l ++ numbered i ls)) /\
                  holds2 t' (l ++ numbered i ls)
  else multi_loop (Some t) (zlen l) sz i ls = Fatal.
Proof.
  induction ls as [|x r IH]; intros t l sz i H S Z64 L; cbn [fits multi_loop numbered].
  - exists t. rewrite app_nil_r. auto.
  - destruct (multi_line_spec t l sz i x H S Z64 L) as [(B & t1 & E & H1 & S1)|(B & E)].
    + destruct (Z.ltb_spec (zlen l + zlen (fst x)) (next_sz (zlen l) sz)); [|lia].
      cbn [andb]. rewrite E. cbn [bind].
      assert (Zl : zlen (l ++ map (fun s => (s, i)) (pieces x)) = zlen l + zlen (pieces x))
        by (unfold zlen; rewrite app_length, map_length; lia).
      rewrite <- Zl. rewrite app_assoc. apply IH; [exact H1|exact S1| |].
      * unfold next_sz. destruct (sz <=? zlen l + 1000); lia.
      * rewrite Zl. unfold pieces, zlen in *. rewrite app_length.
        destruct (snd x); cbn [length]; lia.
    + destruct (Z.ltb_spec (zlen l + zlen (fst x)) (next_sz (zlen l) sz)); [lia|].
      cbn [andb]. rewrite E. reflexivity.
Qed.

Lemma multi_arrays_spec {A} (ls : list (taken A)) : ls <> [] ->
  if fits 0 64 ls
  then exists t, multi_arrays ls = Fine (Some t, zlen (numbered 0 ls)) /\
                 holds2 t (numbered 0 ls)
  else multi_arrays ls = Fatal.
Proof.
  intros N. unfold multi_arrays. destruct ls as [|x r]; [congruence|].
  assert (E : multi_loop None 0 64 0 (x :: r)
              = multi_loop (Some (repeat (@None A) 64, repeat (@None Z) 64)) (zlen (@nil (A * Z))) 64 0 (x :: r)).
  { cbn [multi_loop]. f_equal. }
  rewrite E. change 0 with (zlen (@nil (A * Z))) at 1.
  assert (R := multi_loop_spec (x :: r) (repeat (@None A) 64, repeat (@None Z) 64) [] 64 0).
  cbn [app] in R. apply R.
  - split; reflexivity.
  - split; reflexivity.
  - lia.
  - cbn. lia.
Qed.

(** When everything fits. *)
Lemma fits_later {A} (ls : list (taken A)) : forall nr sz,
  0 <= nr <= sz -> 1024 <= sz ->
  Forall (fun x => zlen (fst x) <= 1000) ls -> fits nr sz ls = true.
Proof.
  induction ls as [|x r IH]; intros nr sz N Sz F; [reflexivity|].
  inversion F as [|y ys Fx Fr]; subst.
  assert (Z0 : 0 <= zlen (fst x)) by (unfold zlen; lia).
  cbn [fits]. unfold next_sz.
  assert (B : nr + zlen (fst x) < (if sz <=? nr + 1000 then sz * 2 else sz)).
  { destruct (Z.leb_spec sz (nr + 1000)); lia. }
  destruct (Z.ltb_spec (nr + zlen (fst x)) (if sz <=? nr + 1000 then sz * 2 else sz)); [|lia].
  cbn [andb]. apply IH.
  - unfold pieces, zlen in *. rewrite app_length. destruct (snd x); cbn [length]; lia.
  - destruct (sz <=? nr + 1000); lia.
  - exact Fr.
Qed.

(** The first lines, while the arrays are small. *)
Lemma fits_first {A} (ls : list (taken A)) : forall k nr sz,
  0 <= nr -> sz = 64 * 2 ^ Z.of_nat k -> (k <= 4)%nat ->
  nr + zlen (concat (map pieces (firstn (4 - k) ls))) < 128 ->
  Forall (fun x => zlen (fst x) <= 1000) ls -> fits nr sz ls = true.
Proof.
  induction ls as [|x r IH]; intros k nr sz N Sz K B F; [reflexivity|].
  destruct (Nat.eq_dec k 4) as [->|K4].
  { apply fits_later; [|subst; cbn; lia|exact F]. subst sz.
    change (4 - 4)%nat with 0%nat in B. cbn in B. cbn. lia. }
  inversion F as [|y ys Fx Fr]; subst y ys.
  replace (4 - k)%nat with (S (4 - S k)) in B by lia. cbn [firstn map concat] in B.
  assert (Zp : zlen (pieces x ++ concat (map pieces (firstn (4 - S k) r)))
               = zlen (pieces x) + zlen (concat (map pieces (firstn (4 - S k) r))))
    by (unfold zlen; rewrite app_length; lia).
  rewrite Zp in B.
  assert (Z1 : zlen (fst x) <= zlen (pieces x))
    by (unfold pieces, zlen; rewrite app_length; lia).
  assert (Z2 : 0 <= zlen (concat (map pieces (firstn (4 - S k) r)))) by (unfold zlen; lia).
  assert (Z3 : 0 <= zlen (fst x)) by (unfold zlen; lia).
  assert (C : 64 <= sz <= 512).
  { subst sz. destruct k as [|[|[|[|k]]]]; cbn; lia. }
  cbn [fits]. unfold next_sz. destruct (Z.leb_spec sz (nr + 1000)); [|lia].
  destruct (Z.ltb_spec (nr + zlen (fst x)) (sz * 2)); [|lia]. cbn [andb].
  apply (IH (S k)); [lia| |lia|lia|exact Fr].
  subst sz. rewrite Nat2Z.inj_succ, Z.pow_succ_r by lia. lia.
Qed.
