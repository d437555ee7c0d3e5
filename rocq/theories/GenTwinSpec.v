(** What it means that a function of the program and one of the new file do not differ,
    whatever else in the two files differs; independent of the tables of GenModel. *)
From Coq Require Import String.
From Verif Require Import Base StorageModel TextModel TextSpec ParseModel RenameSpec CmpSpec GenModel GenSpec.
Open Scope list_scope.

(** No two labels of functions of a file are the same, as the assembler demands. *)
Definition labels_once (f : gfile) : Prop := forall b c i j n, In b (g_blocks f) -> In c (g_blocks f) -> b_type b = BFunc -> b_type c = BFunc ->
  nth_label f b i n -> nth_label f c j n -> b_start b = b_start c /\ i = j.
(** A name that a file gives to something: the name of a block or a label of a function *)
Definition known (f : gfile) (n : list Z) : Prop :=
  exists b, In b (g_blocks f) /\ (txt (b_name b) = n \/ (b_type b = BFunc /\ exists i, nth_label f b i n)).
(** The user asked to leave a function of the new file out. *)
Definition to_leave (o : gopts) (st : gst) (b1 : cblock) : Prop :=
  in_syms_list (go_conf o) (g_base (s_1 st)) (txt (b_hname b1)) (go_ignore o) = true.
(** A word in function [b0] of the first file and one in [b1] of the second mean the same:
    the word is neither the name nor the label of anything; or both are the i-th label of
    the function; or they are the names of two functions or two variables that are joined
    with one another only, and the same name when the function is to be left out.  A name
    ends before its NUL. *)
Definition same_meaning (o : gopts) (f0 f1 : gfile) (st : gst) (b0 b1 : cblock) (t0 t1 : list Z) : Prop :=
  (t0 = t1 /\ ~ known f0 t0 /\ ~ known f1 t1)
  \/ (exists i, nth_label (s_0 st) b0 i t0 /\ nth_label (s_1 st) b1 i t1 /\ t0 <> txt (b_name b0) /\ t1 <> txt (b_name b1) /\ t0 <> [])
  \/ (exists c0 c1, joined st c0 c1 /\ (forall d0, joined st d0 c1 -> b_start d0 = b_start c0) /\ t0 = txt (b_name c0) /\ t1 = txt (b_name c1) /\ t0 <> [] /\ t1 <> [] /\ ~ In 0 t0
        /\ ((b_type c0 = BVar /\ b_type c1 = BVar) \/ (b_type c0 = BFunc /\ b_type c1 = BFunc /\ (to_leave o st c1 -> t0 = t1)))).
(** The lines with code *)
Inductive code_of : list line -> list line -> Prop :=
| co_nil : code_of [] []
| co_skip : forall x ls k, no_code x -> code_of ls k -> code_of (x :: ls) k
| co_keep : forall x ls k, ~ no_code x -> code_of ls k -> code_of (x :: ls) (x :: k).
(** The lines with code pair up: in sections of one name, comments or words that mean the
    same *)
Definition unchanged (o : gopts) (f0 f1 : gfile) (st : gst) (b0 b1 : cblock) : Prop :=
  exists k0 k1, code_of (blines (s_0 st) b0) k0 /\ code_of (blines (s_1 st) b1) k1
    /\ Forall2 (fun x0 x1 => same_section x0 x1
         /\ ((l_type x0 = DComment /\ l_type x1 = DComment)
             \/ exists ts0 ts1, has_tokens (l_text x0) ts0 /\ has_tokens (l_text x1) ts1 /\ Forall2 (same_meaning o f0 f1 st b0 b1) ts0 ts1)) k0 k1.
