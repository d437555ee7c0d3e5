(** C110: the memory map is read as the kernel writes it. *)
From Coq Require Import String.
From Verif Require Import Base BaseProofs StorageModel CliSpec ProcModel MapsModel MapsSpec MapsProofs.
Open Scope list_scope.

(** The areas of a process, in their order, with their bounds, offsets, rights and inodes;
    two have the same device exactly when the kernel says so. *)
Theorem C110_lines_read as_ ts : Forall2 line_of as_ ts -> Forall area_ok as_ ->
  Forall (fun t => zlen t <= 1023) ts ->
  exists ls, read_maps (concat ts) = MOk ls /\ Forall2 says as_ ls /\
    (forall i j a b x y, nth_error as_ i = Some a -> nth_error as_ j = Some b ->
       nth_error ls i = Some x -> nth_error ls j = Some y ->
       (l_dev (fst x) = l_dev (fst y) <-> a_major a = a_major b /\ a_minor a = a_minor b)) /\
    (forall i a x, nth_error as_ i = Some a -> nth_error ls i = Some x ->
       (l_dev (fst x) = 0 <-> a_major a = 0 /\ a_minor a = 0)).
Proof.
  intros F OK L. destruct (read_maps_ok as_ ts F OK L) as (ls & E & S & D).
  assert (DN : forall i a x, nth_error as_ i = Some a -> nth_error ls i = Some x ->
    l_dev (fst x) = makedev (a_major a) (a_minor a) /\ 0 <= a_major a < 2 ^ 12 /\ 0 <= a_minor a < 2 ^ 20).
  { clear - D OK. intros i. revert as_ ls D OK. induction i as [|i IH]; intros as_ ls D OK a x A X;
      (destruct D as [|a0 x0 as_ ls D0 D]; [discriminate|]); inversion_clear OK as [|? ? O OK'].
    - injection A as <-. injection X as <-. unfold area_ok in O. tauto.
    - apply (IH as_ ls); auto. }
  exists ls. split; [exact E|]. split; [exact S|]. split.
  - intros i j a b x y A B X Y. destruct (DN i a x A X) as (-> & M1 & N1).
    destruct (DN j b y B Y) as (-> & M2 & N2). now apply makedev_inj.
  - intros i a x A X. destruct (DN i a x A X) as (-> & M1 & N1).
    apply (makedev_inj _ _ 0 0); lia.
Qed.
Print Assumptions C110_lines_read.

(** The name is the path, if that is one word of at most 255 characters; what follows the
    word, like the mark of a deleted file, is left out. *)
Theorem C110_name a l off : says a (l, off) -> a_path a <> [] ->
  Forall (fun c => is_space c = false) (a_path a) -> zlen (a_path a) <= 255 -> l_name l = a_path a.
Proof. unfold says. intros H NE F L. apply short_name_exact; tauto. Qed.
Print Assumptions C110_name.
Theorem C110_deleted a l off p : says a (l, off) -> a_path a = p ++ str " (deleted)" -> p <> [] ->
  Forall (fun c => is_space c = false) p -> zlen p <= 255 -> l_name l = p.
Proof.
  unfold says. intros H E NE F L. rewrite E in H. change (str " (deleted)") with (32 :: str "(deleted)") in H.
  apply (short_name_cut p 32 (str "(deleted)")); tauto.
Qed.
Print Assumptions C110_deleted.

(** ** Examples *)
Definition ex_area (s e : string) (x : bool) (ino : Z) (p : string) : area :=
  {| a_start := hexv (str s); a_end := hexv (str e); a_read := true; a_write := false; a_exec := x;
     a_shared := false; a_off := 0; a_major := 8; a_minor := 1; a_inode := ino; a_path := str p |}.
Definition ex_line (s e : string) (x : bool) (ino p : string) : list Z :=
  str (s ++ "-" ++ e ++ (if x then " r-xp" else " r--p") ++ " 00000000 08:01 " ++ ino ++ "   " ++ p) ++ [10].

Lemma hex_lit (s : string) n : hexv (str s) = n -> str s <> [] ->
  forallb (fun c => (48 <=? c) && (c <=? 57) || (97 <=? c) && (c <=? 102)) (str s) = true -> hex_of (str s) n.
Proof. intros <- NE F. now apply hex_build. Qed.
Ltac lit := apply hex_lit; [vm_compute; reflexivity|discriminate|vm_compute; reflexivity].
Ltac num := split; [discriminate|split; [repeat constructor; vm_compute; discriminate|
                    split; [vm_compute; reflexivity|vm_compute; discriminate]]].

Example C110_example :
  let as_ := [ex_area "00400000" "00401000" true 77 "/usr/bin/server"; ex_area "7f0000000000" "7f0000002000" false 78 "/lib/libc.so.6 (deleted)"] in
  let ts := [ex_line "00400000" "00401000" true "77" "/usr/bin/server"; ex_line "7f0000000000" "7f0000002000" false "78" "/lib/libc.so.6 (deleted)"] in
  Forall2 line_of as_ ts /\ Forall area_ok as_ /\ Forall (fun t => zlen t <= 1023) ts /\
  exists l1 l2, read_maps (concat ts) = MOk [l1; l2] /\ l_name (fst l2) = str "/lib/libc.so.6".
Proof.
  intros as_ ts. split; [|split; [|split]].
  - constructor; [|constructor; [|constructor]].
    + exists (str "00400000"), (str "00401000"), (str "00000000"), (str "08"), (str "01"), (str "77"), [32; 32].
      repeat (split; [first [lit|num|repeat constructor]|]). vm_compute. reflexivity.
    + exists (str "7f0000000000"), (str "7f0000002000"), (str "00000000"), (str "08"), (str "01"), (str "78"), [32; 32].
      repeat (split; [first [lit|num|repeat constructor]|]). vm_compute. reflexivity.
  - repeat apply Forall_cons; try apply Forall_nil; unfold area_ok, as_, ex_area; cbn [a_start a_end a_off a_major a_minor a_inode a_path];
      (repeat split; try (vm_compute; discriminate); try (vm_compute; reflexivity);
       try (vm_compute; intuition discriminate); intros c r E; injection E as <- _; reflexivity).
  - repeat constructor; vm_compute; discriminate.
  - eexists _, _. split; [vm_compute; reflexivity|vm_compute; reflexivity].
Qed.

(** ** Where the tool reads something else *)

Lemma ex_ok (s e : string) x ino p : hexv (str s) < 2 ^ 64 -> 0 <= hexv (str s) ->
  hexv (str e) < 2 ^ 64 -> 0 <= hexv (str e) -> 0 <= ino < 2 ^ 63 ->
  existsb (fun c => (c =? 0) || (c =? 10)) p = false -> hd 0 p = 47 ->
  area_ok {| a_start := hexv (str s); a_end := hexv (str e); a_read := true; a_write := false; a_exec := x;
     a_shared := false; a_off := 0; a_major := 8; a_minor := 1; a_inode := ino; a_path := p |}.
Proof.
  intros. unfold area_ok. cbn [a_start a_end a_off a_major a_minor a_inode a_path].
  assert (NI : forall c, c = 0 \/ c = 10 -> ~ In c p).
  { intros c C I. assert (T : existsb (fun c => (c =? 0) || (c =? 10)) p = true); [|congruence].
    apply existsb_exists. exists c. split; [exact I|]. destruct C; subst; reflexivity. }
  repeat split; try lia; try (apply NI; auto).
  intros c r ->. cbn in *. subst. reflexivity.
Qed.

(** A file in a directory with a blank in its name goes by the name of the directory: the
    program itself passes for the C library. *)
Theorem C110_blank_in_path_refuted : exists a t l off, area_ok a /\ line_of a t /\ zlen t <= 1023 /\
  read_maps t = MOk [(l, off)] /\ basename (a_path a) = str "server" /\
  line_name l = str "libc" /\ libc_base (fun _ => None) [l] = Some (a_start a).
Proof.
  exists (ex_area "00400000" "00401000" true 77 "/srv/libc data/server"),
         (ex_line "00400000" "00401000" true "77" "/srv/libc data/server").
  eexists _, _. split; [|split; [|split; [|split; [vm_compute; reflexivity|]]]].
  - apply ex_ok; try (vm_compute; reflexivity); try (vm_compute; discriminate).
    split; [vm_compute; discriminate|vm_compute; reflexivity].
  - exists (str "00400000"), (str "00401000"), (str "00000000"), (str "08"), (str "01"), (str "77"), [32; 32].
    repeat (split; [first [lit|num|repeat constructor]|]). vm_compute. reflexivity.
  - vm_compute. discriminate.
  - repeat split; vm_compute; reflexivity.
Qed.
Print Assumptions C110_blank_in_path_refuted.

(** A line of more than 1023 characters is taken for several: the end of a long path can
    pass for an area the process does not have. *)
Fixpoint slashes (n : nat) (s : list Z) : list Z :=
  match n with O => s | S k => 47 :: 97 :: slashes k s end.
Definition long_area (p : list Z) : area :=
  {| a_start := hexv (str "00400000"); a_end := hexv (str "00401000"); a_read := true; a_write := false;
     a_exec := true; a_shared := false; a_off := 0; a_major := 8; a_minor := 1; a_inode := 77; a_path := p |}.
Definition long_line (p : list Z) : list Z :=
  str "00400000-00401000 r-xp 00000000 08:01 77  " ++ p ++ [10].
Lemma long_line_of p : line_of (long_area p) (long_line p).
Proof.
  exists (str "00400000"), (str "00401000"), (str "00000000"), (str "08"), (str "01"), (str "77"), [32].
  repeat (split; [first [lit|num|repeat constructor]|]). reflexivity.
Qed.

Theorem C110_long_path_refuted : exists a t ls l off, area_ok a /\ line_of a t /\
  read_maps t = MOk ls /\ In (l, off) ls /\ l_start l <> a_start a /\ l_start l <> a_end a /\
  libc_base (fun _ => None) (map fst ls) = Some (l_start l).
Proof.
  set (p := slashes 490 (47 :: str "7f0000000000-7f0000001000 r-xp 0 8:1 78 /lib/libc.so.6")).
  exists (long_area p), (long_line p). eexists _, _, _.
  split; [|split; [apply long_line_of|split; [vm_compute; reflexivity|]]].
  - apply ex_ok; try (vm_compute; reflexivity); try (vm_compute; discriminate).
    split; [vm_compute; discriminate|vm_compute; reflexivity].
  - split; [right; left; reflexivity|]. split; [vm_compute; discriminate|]. split; [vm_compute; discriminate|]. vm_compute. reflexivity.
Qed.
Print Assumptions C110_long_path_refuted.

(** Or variables are used that nothing was stored in. *)
Theorem C110_unset_numbers_refuted : exists a t, area_ok a /\ line_of a t /\ read_maps t = MUndef.
Proof.
  set (p := slashes 600 []). exists (long_area p), (long_line p).
  split; [|split; [apply long_line_of|vm_compute; reflexivity]].
  apply ex_ok; try (vm_compute; reflexivity); try (vm_compute; discriminate).
  split; [vm_compute; discriminate|vm_compute; reflexivity].
Qed.
Print Assumptions C110_unset_numbers_refuted.

(** Inodes are cut to 32 bits: two files of one device can be taken for one. *)
Theorem C110_inode_refuted : exists a b ta tb ls o, Forall area_ok [a; b] /\
  Forall2 line_of [a; b] [ta; tb] /\ a_inode a <> a_inode b /\ a_path a <> a_path b /\
  read_maps (ta ++ tb) = MOk ls /\
  (forall rd ehdr_ok bid, (forall x, rd x = None) -> parse_maps rd ehdr_ok bid [] (map fst ls) = POk [o bid]) /\
  forall bid, map v_start (po_vmas (o bid)) = [a_start a; a_start b].
Proof.
  exists (ex_area "00400000" "00401000" true 77 "/opt/one"), (ex_area "00500000" "00501000" true 4294967373 "/opt/two"),
         (ex_line "00400000" "00401000" true "77" "/opt/one"), (ex_line "00500000" "00501000" true "4294967373" "/opt/two").
  eexists _, (fun bid => {| po_dev := 2049; po_inode := 77; po_name := str "one";
      po_vmas := [{| v_start := 4194304; v_end := 4198400; v_prot := 5 |};
                  {| v_start := 5242880; v_end := 5246976; v_prot := 5 |}];
      po_elf := false; po_patch := false; po_hdr := None; po_bid := bid 4194304; po_kpta := 0;
      po_target := false; po_applied := [] |}).
  split; [|split; [|split; [vm_compute; discriminate|split; [vm_compute; discriminate|split; [vm_compute; reflexivity|]]]]].
  - repeat apply Forall_cons; try apply Forall_nil; (apply ex_ok; try (vm_compute; reflexivity); try (vm_compute; discriminate);
    (split; [vm_compute; discriminate|vm_compute; reflexivity])).
  - constructor; [|constructor; [|constructor]].
    + exists (str "00400000"), (str "00401000"), (str "00000000"), (str "08"), (str "01"), (str "77"), [32; 32].
      repeat (split; [first [lit|num|repeat constructor]|]). vm_compute. reflexivity.
    + exists (str "00500000"), (str "00501000"), (str "00000000"), (str "08"), (str "01"), (str "4294967373"), [32; 32].
      repeat (split; [first [lit|num|repeat constructor]|]). vm_compute. reflexivity.
  - split; [|intros; vm_compute; reflexivity].
    intros rd ehdr_ok bid R. cbn [map fst parse_maps]. unfold add_object_vma, get_object_type. rewrite !R.
    vm_compute. reflexivity.
Qed.
Print Assumptions C110_inode_refuted.
