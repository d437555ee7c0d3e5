(** C160: the arrays of lines grow in time. *)
From Coq Require Import Lia.
From Verif Require Import Base GrowModel GrowProofs.
Open Scope list_scope.
Open Scope Z_scope.

(** read_file never stores outside its array, loses no line when the array grows, and
    leaves line 0 empty: for every number of lines. *)
Theorem C160_read : forall (A : Type) (empty : A) (input : list A),
  exists a, read_array empty input = Fine (a, 1 + zlen input) /\
            firstn (S (length input)) a = map Some (empty :: input).
Proof.
  intros A e input. destruct (read_array_spec e input) as (a & E & H).
  exists a. split; [exact E|]. exact H.
Qed.

(** init_multilines never stores outside its two arrays.  It ends with every
    statement in order, each with the number of its line, or with the fatal error. *)
Theorem C160_statements : forall (A : Type) (ls : list (taken A)), ls <> [] ->
  multi_arrays ls = Fatal \/
  exists lines nums n,
    multi_arrays ls = Fine (Some (lines, nums), n) /\
    let all := concat (map (fun x => fst x ++ match snd x with Some s => [s] | None => [] end) ls) in
    n = zlen all /\ firstn (length all) lines = map Some all /\
    firstn (length all) nums = map Some (map snd (numbered 0 ls)).
Proof.
  intros A ls N. assert (R := multi_arrays_spec ls N).
  destruct (fits 0 64 ls); [right|left; exact R].
  destruct R as ([a b] & E & H1 & H2). cbn [fst snd] in H1, H2.
  assert (M : forall i, map fst (numbered i ls)
              = concat (map (fun x => fst x ++ match snd x with Some s => [s] | None => [] end) ls)).
  { clear. induction ls as [|x r IH]; intros i; [reflexivity|].
    cbn [numbered map concat]. rewrite map_app, map_map, IH, map_id. reflexivity. }
  exists a, b, (zlen (numbered 0 ls)). split; [exact E|]. cbn zeta.
  rewrite <- (M 0). unfold holds in *. unfold zlen. rewrite !map_length in *.
  repeat split; assumption.
Qed.

(** The number of a statement is that of the line it is of. *)
Theorem C160_numbers : forall (A : Type) (ls : list (taken A)) (s : A) (k : Z),
  In (s, k) (numbered 0 ls) <->
  exists x, 0 <= k /\ nth_error ls (Z.to_nat k) = Some x /\
            (In s (fst x) \/ snd x = Some s).
Proof.
  intros A ls s k.
  assert (G : forall i, In (s, k) (numbered i ls) <->
    exists x, i <= k /\ nth_error ls (Z.to_nat (k - i)) = Some x /\
              (In s (fst x) \/ snd x = Some s)).
  { induction ls as [|y r IH]; intros i; cbn [numbered].
    - split; [intros []|]. intros (x & _ & H & _). destruct (Z.to_nat (k - i)); discriminate.
    - rewrite in_app_iff, IH, in_map_iff. unfold pieces. split.
      + intros [(z & E & I)|(x & L & H & I)].
        * injection E as -> ->. exists y. split; [lia|].
          rewrite Z.sub_diag. split; [reflexivity|].
          apply in_app_iff in I. destruct I as [I|I]; [left; exact I|right].
          destruct (snd y); [destruct I as [->|[]]; reflexivity|destruct I].
        * exists x. split; [lia|]. split; [|exact I].
          replace (Z.to_nat (k - i)) with (S (Z.to_nat (k - (i + 1)))) by lia. exact H.
      + intros (x & L & H & I). destruct (Z.eq_dec k i) as [->|N].
        * left. rewrite Z.sub_diag in H. cbn in H. injection H as ->. exists s.
          split; [reflexivity|]. apply in_app_iff. destruct I as [I|I]; [left; exact I|right].
          rewrite I. left. reflexivity.
        * right. exists x. split; [lia|]. split; [|exact I].
          replace (Z.to_nat (k - i)) with (S (Z.to_nat (k - (i + 1)))) in H by lia. exact H. }
  specialize (G 0). rewrite Z.sub_0_r in G. exact G.
Qed.

(** No fatal error if no line has more than a thousand statements and the first four,
    line 0 among them, have fewer than 128 together. *)
Theorem C160_room : forall (A : Type) (ls : list (taken A)), ls <> [] ->
  Forall (fun x => zlen (fst x) <= 1000) ls ->
  zlen (concat (map (fun x => fst x ++ match snd x with Some s => [s] | None => [] end)
                    (firstn 4 ls))) < 128 ->
  exists r, multi_arrays ls = Fine r.
Proof.
  intros A ls N F B. assert (R := multi_arrays_spec ls N).
  rewrite (fits_first ls 0%nat 0 64) in R; [|lia|reflexivity|lia| |exact F].
  - destruct R as (t & E & _). eexists. exact E.
  - exact B.
Qed.

(** The error says "more than 1000 statements in a single line"; 255 in line 1 are
    enough. *)
Theorem C160_thousand_refuted : exists ls : list (taken unit),
  Forall (fun x => zlen (fst x) <= 255) ls /\ multi_arrays ls = Fatal.
Proof.
  exists [([], Some tt); (repeat tt 255, None)].
  split; [repeat constructor; vm_compute; congruence|]. vm_compute. reflexivity.
Qed.

(** Non-vacuity: a file of three lines; more lines than the array has at first; the
    same number of statements as in the refuted case, further down. *)
Example C160_case :
  (exists a, read_array 0 [7; 8] = Fine (a, 3) /\ firstn 3 a = [Some 0; Some 7; Some 8]) /\
  (exists a, read_array 0 (repeat 7 300) = Fine (a, 301) /\ zlen a = 512) /\
  (exists l n, multi_arrays [([], Some 0); ([1; 2], None); ([3], Some 4)]
               = Fine (Some (l, n), 5) /\
     firstn 5 l = [Some 0; Some 1; Some 2; Some 3; Some 4] /\
     firstn 5 n = [Some 0; Some 1; Some 1; Some 2; Some 2]) /\
  (exists r, multi_arrays (repeat ([], Some tt) 4 ++ [(repeat tt 255, None)]) = Fine (r, 259)).
Proof.
  split; [|split; [|split]].
  - eexists. vm_compute. split; reflexivity.
  - eexists. vm_compute. split; reflexivity.
  - do 2 eexists. vm_compute. repeat split; reflexivity.
  - eexists. vm_compute. reflexivity.
Qed.

Print Assumptions C160_read.
Print Assumptions C160_statements.
Print Assumptions C160_numbers.
Print Assumptions C160_room.
Print Assumptions C160_thousand_refuted.
