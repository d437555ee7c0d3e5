(** C140: from kpatch_make to the tool. *)
From Coq Require Import String Permutation.
From Verif Require Import Base BaseProofs RbModel StorageModel StorageSpec StorageProofs StorageProperties MakeModel MakeProofs MakeProperties PkgModel PkgSpec PkgProofs PkgProperties.
Open Scope list_scope.

(** A run of kpatch_make that succeeded: the options, the object file it was given, what the calls answered, what it wrote *)
Record piece := Piece { p_bid : list Z; p_id : list Z; p_object : list Z; p_ok : bool; p_now : Z; p_w1 : Z; p_w2 : Z; p_file : list Z }.
Definition object_file (o : list Z) : Prop :=
  bytes_ok o /\ 64 <= zlen o < 2 ^ 62 /\ slice o 0 4 = Some [127; 69; 76; 70] /\ slice o 16 2 = Some [1; 0] /\ slice o 58 2 = Some [64; 0].
Definition was_made (p : piece) : Prop :=
  object_file (p_object p) /\
  bytes_ok (p_bid p) /\ no_nul (p_bid p) /\ zlen (p_bid p) = 40 /\ ~ In 47 (p_bid p) /\
  bytes_ok (p_id p) /\ no_nul (p_id p) /\ zlen (p_id p) <= 7 /\ 0 <= p_now p < 2 ^ 64 /\
  write_result 504 (p_w1 p) /\ write_result (align16 (zlen (p_object p))) (p_w2 p) /\
  make_main (Some (p_bid p)) (Some (p_id p)) (Some (p_object p)) (p_ok p) (p_now p) (p_w1 p) (p_w2 p) = (0, Some (p_file p)).

Lemma strncpy_bytes s n : bytes_ok s -> no_nul s -> bytes_ok (strncpy s n).
Proof.
  intros B N. unfold strncpy. rewrite (upto_nul_id s N). apply Forall_app. split; [|apply Forall_forall; intros x I; apply repeat_spec in I; subst x; unfold byte_ok; lia].
  unfold bytes_ok in *. rewrite Forall_forall in *. intros x I. apply B. rewrite <- (firstn_skipn (Z.to_nat n) s). apply in_or_app. left. exact I.
Qed.
Lemma zeros_bytes n : bytes_ok (repeat 0 n).
Proof. apply Forall_forall. intros x I. apply repeat_spec in I. subst x. unfold byte_ok. lia. Qed.
Lemma zeros_bytes_l l : forallb (fun x => (0 <=? x) && (x <? 256)) l = true -> bytes_ok l.
Proof. intros H. rewrite forallb_forall in H. apply Forall_forall. intros x I. specialize (H x I). unfold byte_ok. lia. Qed.
Lemma made_bytes input bid id now : bytes_ok input -> bytes_ok bid -> no_nul bid -> bytes_ok id -> no_nul id -> bytes_ok (made input bid id now).
Proof.
  intros B1 B2 N2 B3 N3. unfold made, make_header, make_body.
  repeat first [apply strncpy_bytes; assumption | apply zeros_bytes | apply le_bytes_ok | assumption | apply Forall_app; split]; apply zeros_bytes_l; reflexivity.
Qed.
(** A piece of a file outside the level is not changed by setting the level *)
Lemma leveled_slice d lv d' off n : leveled d lv d' -> off + n <= 192 \/ 196 <= off -> slice d' off n = slice d off n.
Proof.
  intros (L & _ & S) O. unfold slice. assert (ZL : zlen d' = zlen d) by (unfold zlen; rewrite L; reflexivity). rewrite ZL.
  destruct ((0 <=? off) && (0 <=? n) && (off + n <=? zlen d)) eqn:E; [|reflexivity]. f_equal.
  apply nth_ext with (d := 0) (d' := 0); [rewrite !firstn_length, !skipn_length, L; reflexivity|].
  intros i I. rewrite firstn_length, skipn_length in I.
  assert (G : forall x : list Z, nth i (firstn (Z.to_nat n) (skipn (Z.to_nat off) x)) 0 = nth (Z.to_nat off + i) x 0).
  { intros x. transitivity (nth i (skipn (Z.to_nat off) x) 0).
    - rewrite <- (firstn_skipn (Z.to_nat n) (skipn (Z.to_nat off) x)) at 2. destruct (Nat.lt_ge_cases i (length (firstn (Z.to_nat n) (skipn (Z.to_nat off) x)))) as [A|A]; [rewrite app_nth1 by exact A; reflexivity|].
      rewrite firstn_length in A. rewrite !nth_overflow; [reflexivity| |]; rewrite ?app_length, ?firstn_length, ?skipn_length in *; lia.
    - clear. revert x. induction (Z.to_nat off) as [|k IH]; intros x; [reflexivity|]. destruct x as [|y x]; [destruct i; reflexivity|]. cbn [skipn Nat.add nth]. apply IH. }
  rewrite !G. apply S. lia.
Qed.
Lemma made_piece p : was_made p ->
  id_ok (p_bid p) /\ bytes_ok (p_file p) /\ well_formed (p_file p) /\ 504 <= zlen (p_file p).
Proof.
  intros ((O1 & O2 & O3 & O4 & O5) & B1 & B2 & B3 & B4 & I1 & I2 & I3 & T & W1 & W2 & E).
  destruct (C39_read_back_partial _ _ _ _ _ _ _ _ (proj2 O2) B2 B3 I2 I3 T W1 W2 E) as (R1 & R2 & R3 & _ & _ & R4 & R5 & R6 & _ & R7).
  destruct (make_main_ok _ _ _ _ _ _ _ _ (proj2 O2) W1 W2 E) as (_ & _ & D & _ & _ & _).
  assert (BF : bytes_ok (p_file p)) by (rewrite D; apply made_bytes; assumption).
  assert (L : 504 <= zlen (p_file p)).
  { rewrite D, made_zlen. pose proof (align16_spec _ (zlen_nonneg (p_object p))). pose proof (zlen_nonneg (p_object p)). lia. }
  split; [split; [split; [|lia]|exact B4]|].
  - unfold str_ok. apply Forall_forall. intros x X. unfold bytes_ok, no_nul in *. rewrite Forall_forall in B1, B2. specialize (B1 x X). specialize (B2 x X). unfold byte_ok in B1. lia.
  - split; [exact BF|split; [|exact L]]. destruct (verify_spec (p_file p) BF L) as (b & V & S). apply S.
    assert (Q : single_init (Some (p_file p)) = Some (p_file p)).
    { apply R7; [lia|exact O3| |]; unfold read_le; [rewrite O4|rewrite O5]; reflexivity. }
    unfold single_init, open_fd in Q. destruct (zlen (p_file p) <? hdr_size); [discriminate|]. rewrite V in Q. destruct b; [reflexivity|discriminate].
Qed.

(** Patches made by kpatch_make for different build ids, packed under their ids and unpacked into a store that was empty: each
    lookup for one of the ids gives a patch with that build id, the patch id it was made with, level 1, and the object file it
    was made from, byte for byte; a lookup for another id gives nothing *)
Theorem C140_made dir ps files :
  Forall was_made ps -> NoDup (map p_bid ps) ->
  Permutation files (map (fun p => (dir ++ 47 :: p_bid p ++ str ".kpatch", p_file p)) ps) ->
  forall cs, Forall (fun q => c_fs q = store_fs (unpack files []) /\ c_ok q = true /\ id_ok (c_bid q)) cs ->
  Forall2 (fun q r =>
      (forall p, In p ps -> p_bid p = c_bid q -> exists d, r = LFound (Some d) /\
         slice d 88 41 = Some (p_bid p ++ [0]) /\ (exists x, slice d 8 8 = Some x /\ upto_nul x = p_id p) /\
         slice d 192 4 = Some [1; 0; 0; 0] /\ slice d 504 (zlen (p_object p)) = Some (p_object p)) /\
      (~ In (c_bid q) (map p_bid ps) -> r = LErr)) cs (run_loads Leaf cs).
Proof.
  intros M ND P cs Hc. set (l := map (fun p => (p_bid p, p_file p)) ps).
  assert (P' : Permutation files (map (fun e => (dir ++ 47 :: fst e ++ str ".kpatch", snd e)) l)) by (unfold l; rewrite map_map; exact P).
  assert (ND' : NoDup (map fst l)) by (unfold l; rewrite map_map; exact ND).
  rewrite Forall_forall in M.
  assert (G : forall b c, In (b, c) l -> id_ok b /\ bytes_ok c /\ well_formed c /\ 504 <= zlen c).
  { intros b c I. apply in_map_iff in I. destruct I as (p & E & I). injection E as <- <-. apply made_piece, M, I. }
  assert (Hc' : Forall (fun q => c_fs q = store_fs (unpack files []) /\ id_ok (c_bid q)) cs).
  { eapply Forall_impl; [|exact Hc]. intros q (Q1 & _ & Q2). split; assumption. }
  pose proof (C140_unpacked dir l files P' ND' G cs Hc') as R.
  revert R Hc. generalize (run_loads Leaf cs). clear Hc' P P' ND ND' G. induction cs as [|q cs IH]; intros rs R Hc; inversion R as [|? r ? rs' [R1 R2] R3]; subst; constructor.
  - inversion Hc as [|? ? (_ & Q & _) _]; subst. split.
    + intros p I E. destruct (R1 Q (p_file p)) as (d & Er & Ld); [rewrite <- E; apply in_map_iff; exists p; split; [reflexivity|exact I]|].
      exists d. split; [exact Er|]. destruct (M p I) as ((O1 & O2 & O3 & O4 & O5) & B1 & B2 & B3 & B4 & I1 & I2 & I3 & T & W1 & W2 & E').
      destruct (C39_read_back_partial _ _ _ _ _ _ _ _ (proj2 O2) B2 B3 I2 I3 T W1 W2 E') as (_ & _ & X1 & X2 & _ & _ & _ & X3 & _).
      rewrite (leveled_slice _ _ _ 88 41 Ld), (leveled_slice _ _ _ 8 8 Ld), (leveled_slice _ _ _ 504 _ Ld) by lia.
      split; [exact X1|]. split; [exact X2|]. split; [exact (proj1 (proj2 Ld))|exact X3].
    + intros N. apply R2. unfold l. rewrite map_map. exact N.
  - apply IH; [exact R3|]. inversion Hc; assumption.
Qed.
Print Assumptions C140_made.

(** An object file of 64 bytes is enough of a case *)
Definition tiny : list Z := [127; 69; 76; 70] ++ repeat 0 12 ++ [1; 0] ++ repeat 0 40 ++ [64; 0] ++ repeat 0 4.
Definition tiny_piece (b : list Z) : piece := Piece b (str "0001") tiny true 5 504 64 (made tiny b (str "0001") 5).
Example C140_made_case : Forall was_made [tiny_piece (repeat 97 40); tiny_piece (repeat 98 40)] /\
  NoDup (map p_bid [tiny_piece (repeat 97 40); tiny_piece (repeat 98 40)]).
Proof.
  split.
  - assert (G : forall c, c = 97 \/ c = 98 -> was_made (tiny_piece (repeat c 40))).
    { intros c C. split; [|cbn [p_bid p_id p_object p_ok p_now p_w1 p_w2 p_file tiny_piece]].
      - split; [apply zeros_bytes_l; reflexivity|]. split; [split; vm_compute; [discriminate|reflexivity]|]. repeat split; reflexivity.
      - split; [destruct C as [-> | ->]; apply zeros_bytes_l; reflexivity|].
        split; [apply Forall_forall; intros x I; apply repeat_spec in I; lia|].
        split; [reflexivity|]. split; [intros I; apply repeat_spec in I; lia|].
        split; [apply zeros_bytes_l; reflexivity|]. split; [repeat constructor; discriminate|].
        split; [vm_compute; discriminate|]. split; [lia|].
        split; [unfold write_result; lia|]. split; [vm_compute; split; discriminate|]. destruct C as [-> | ->]; vm_compute; reflexivity. }
    constructor; [apply G; left; reflexivity|]. constructor; [apply G; right; reflexivity|constructor].
  - constructor; [intros [I|[]]; discriminate I|]. constructor; [intros []|constructor].
Qed.
