(** What the tables of names may say about two assembler files whose blocks are joined in
    pairs; independent of how GenModel fills them. *)
From Coq Require Import String.
From Verif Require Import Base StorageModel TextModel TextSpec ParseModel RenameSpec CmpSpec GenModel.
Open Scope list_scope.

(** A block of the first file is joined with one of the second. *)
Definition joined (st : gst) (b0 b1 : cblock) : Prop :=
  In b0 (g_blocks (s_0 st)) /\ In b1 (g_blocks (s_1 st)) /\ b_pair b0 = Some (b_start b1).
(** The i-th label of a block is [n]: the first token of the i-th of its lines that are
    labels. *)
Definition nth_label (f : gfile) (b : cblock) (i : nat) (n : list Z) : Prop :=
  exists u x v, blines f b = u ++ x :: v /\ l_type x = DLabel
    /\ length (filter (fun y => dir_beq (l_type y) DLabel) u) = i
    /\ exists ts, has_tokens (l_text x) (n :: ts).
(** The name with the suffix of patched code; the NUL behind it counts. *)
Definition suffixed (n : list Z) : list Z := n ++ str ".kpatch" ++ [0].

(** An entry of the table of the first file: a name of a block stands for that of the
    block it is joined with, with or without the suffix; or a label of a joined function
    for the label of the other function that is as far from its beginning. *)
Definition stands_for0 (st : gst) (n d : list Z) : Prop :=
  exists b0 b1, joined st b0 b1
    /\ ((n = txt (b_name b0) /\ (d = txt (b_name b1) \/ d = suffixed (txt (b_name b1))))
        \/ (b_type b0 = BFunc /\ exists i, nth_label (s_0 st) b0 i n /\ nth_label (s_1 st) b1 i d)).
(** An entry of the table of the second file: the name of a block stands for that of the
    block it is joined with; or a name of a block or a label of a function has the suffix
    put behind it. *)
Definition stands_for1 (st : gst) (n d : list Z) : Prop :=
  (exists b0 b1, joined st b0 b1 /\ n = txt (b_name b1) /\ d = txt (b_name b0))
  \/ (d = suffixed n /\ exists b1, In b1 (g_blocks (s_1 st))
        /\ (n = txt (b_name b1) \/ (b_type b1 = BFunc /\ exists i, nth_label (s_1 st) b1 i n))).

(** Why two blocks are joined: they have one name, or one name up to what the compiler
    appends. *)
Definition named_alike (b0 b1 : cblock) : Prop :=
  (b_type b0 = BFunc \/ b_type b0 = BVar)
  /\ ((b_auto b0 = false /\ txt (b_name b0) = txt (b_name b1))
      \/ (b_auto b0 = true /\ txt (b_hname b0) = txt (b_hname b1) /\ (b_type b0 = BFunc -> b_auto b1 = true))).

(** Two joined blocks have the same code, where names stand for one another as above. *)
Definition equal_code (o : gopts) (st : gst) (b0 b1 : cblock) : Prop :=
  exists m0 m1, (forall n d, m0 n = Some d -> stands_for0 st n d) /\ (forall n d, m1 n = Some d -> stands_for1 st n d)
    /\ same_code {| ar_type := b_type b0; ar_nm0 := txt (b_name b0); ar_nm1 := txt (b_name b1);
                    ar_dir0 := g_dir (s_0 st); ar_dir1 := g_dir (s_1 st); ar_m0 := m0; ar_m1 := m1; ar_rhel5 := go_rhel5 o |}
                 (blines (s_0 st) b0) (blines (s_1 st) b1).
(** What the user asked to leave: functions of the new file, variables of the program *)
Definition left_out (o : gopts) (st : gst) (b0 b1 : cblock) : Prop :=
  in_syms_list (go_conf o) (g_base (s_1 st)) (txt (b_hname b1)) (go_ignore o) = true
  \/ (b_type b0 = BVar /\ in_syms_list None (g_base (s_1 st)) (txt (b_hname b0)) (go_ignore o) = true).
(** Variables that need not be there any more *)
Definition temporary (n : list Z) : Prop :=
  exists p r, In p [".LC"; "warned."; "__warned."; "__func__."; "descriptor."]%string /\ n = str p ++ r.

(** ** Names *)
(** The table lets [n] be called [d]. *)
Definition tells (m : option text) (n d : text) : Prop := m = Some d \/ (m = None /\ n = d).
(** No label of a function is the name of another block. *)
Definition labels_apart (f : gfile) : Prop := forall b c i n, In b (g_blocks f) -> b_type b = BFunc -> nth_label f b i n ->
  In c (g_blocks f) -> txt (b_name c) = n -> b_start c = b_start b.
(** The name of a block of the new file, and the labels of its code, in the output.
    [m] is the table of names used for it. *)
Definition suffixed_labels (m : rmap) (f : gfile) (b : cblock) : Prop := forall i n, nth_label f b i n -> n <> txt (b_name b) -> m n = Some (suffixed n).
Definition keeps_name (m : rmap) (b : cblock) : Prop := m (txt (b_name b)) = None.
Definition gets_suffix (m : rmap) (b : cblock) : Prop := m (txt (b_name b)) = Some (suffixed (txt (b_name b))).
Definition gets_name_of (m : rmap) (b b0 : cblock) : Prop := tells (m (txt (b_name b))) (txt (b_name b)) (txt (b_name b0)).
Record names_of (o : gopts) (st : gst) (m : rmap) : Prop := {
  no_new_var : forall b1, In b1 (g_blocks (s_1 st)) -> b_type b1 = BVar -> txt (b_name b1) <> [] -> b_pair b1 = None -> gets_suffix m b1;
  no_var : forall b1 s, In b1 (g_blocks (s_1 st)) -> b_type b1 = BVar -> txt (b_name b1) <> [] -> b_pair b1 = Some s ->
    exists b0, joined st b0 b1 /\ (b_type b0 = BFunc \/ (b_type b0 = BVar /\ gets_name_of m b1 b0));
  no_new_func : forall b1, In b1 (g_blocks (s_1 st)) -> b_type b1 = BFunc -> b_pair b1 = None ->
    suffixed_labels m (s_1 st) b1 /\ (b_auto b1 = true -> gets_suffix m b1) /\ (b_auto b1 = false -> keeps_name m b1);
  no_func_ : forall b0 b1, joined st b0 b1 -> b_type b0 = BFunc -> b_type b1 = BFunc ->
    (b_ignore b1 = false -> gets_suffix m b1 /\ suffixed_labels m (s_1 st) b1)
    /\ (b_ignore b1 = true -> (left_out o st b0 b1 /\ keeps_name m b1) \/ gets_name_of m b1 b0) }.

(** ** Names that tell blocks apart: variables have one; a function with a name the
    compiler made is the first block with what is left of that name; and of two variables
    of which the same is left, both are descriptors or none. *)
Record tame (f : gfile) : Prop := {
  tm_var : forall b, In b (g_blocks f) -> b_type b = BVar -> txt (b_name b) <> [];
  tm_desc : forall b c, In b (g_blocks f) -> In c (g_blocks f) -> b_type b = BVar -> b_type c = BVar -> b_auto b = true -> txt (b_hname b) = txt (b_hname c) ->
    (exists r, txt (b_name c) = str "descriptor." ++ r) -> exists r, txt (b_name b) = str "descriptor." ++ r;
  tm_func : forall b u v, g_blocks f = u ++ b :: v -> b_type b = BFunc -> b_auto b = true -> forall c, In c u -> txt (b_hname c) <> txt (b_hname b) }.
