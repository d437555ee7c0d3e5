(** What the statements about patching need to speak about: well-formed patches,
    the places a patch may touch. *)
From Verif Require Import Base RemoteModel JumpModel EngineModel.

(** A machine: a positive jump size and a code generator that fills exactly that
    many bytes; the page size is a power of two between 4 KiB and 64 KiB. *)
Record machine_ok (A : arch) (jent pg : Z) : Prop := {
  mk_hunk : 0 < a_hunk A <= 16;
  mk_code : forall d s c, a_code A d s = Some c -> zlen c = a_hunk A;
  mk_page : page_ok pg;
  mk_jent : 0 < jent <= 64 }.

(** Entries [d] of functions that a table of entries replaces, with their position
    in the table. *)
Definition replaces (l : list info) (j : nat) (d : Z) : Prop :=
  exists i, nth_error l j = Some i /\ is_new_func i = false /\ daddr i = d.

(** [x] is one of the [n] bytes at the entry of a replaced function. *)
Definition at_entry (l : list info) (n x : Z) : Prop :=
  exists j d, replaces l j d /\ in_range x d n.

(** The entries of different replaced functions do not overlap and lie outside the
    region [base, base + sz). *)
Definition entries_ok (l : list info) (n base sz : Z) : Prop :=
  (forall j d, replaces l j d -> d + n <= base \/ base + sz <= d) /\
  (forall j1 j2 d1 d2, replaces l j1 d1 -> replaces l j2 d2 -> j1 <> j2 ->
     d1 + n <= d2 \/ d2 + n <= d1).

(** A well-formed patch: what kpatch_make and the storage checks guarantee of the
    file, and that everything together is smaller than 4 GiB. *)
Record patch_ok (A : arch) (jent pg : Z) (p : patch) (info_off : Z) (ninfo : nat) : Prop := {
  po_hdr_len : zlen (p_hdr p) = hdr_size;
  po_hdr_bytes : bytes_ok (p_hdr p);
  po_info : p_info p = Some (info_off, ninfo);
  po_info_off : 0 <= info_off;
  po_undef : 0 <= p_undef p;
  po_data : 0 <= p_data_off p;
  po_total : hdr_size <= get32 (p_hdr p) h_total_size;
  po_small : 4096 + 4 * pg + p_undef p * jent + get32 (p_hdr p) h_total_size
             + info_off + p_data_off p + a_hunk A * Z.of_nat ninfo < 2 ^ 32;
  po_infos0 : length (p_infos0 p) = ninfo;
  po_flags0 : Forall (fun i => is_applied i = false) (p_infos0 p);
  po_link : forall kpta h img jt, p_link p kpta h = Some (img, jt) ->
     zlen img = get32 (p_hdr p) h_total_size - hdr_size /\ bytes_ok img /\
     zlen jt = jt_size jent (p_undef p) /\
     Forall (fun i => is_applied i = false) (infos_of img info_off ninfo) }.

(** The region a patch occupies: its header with the offsets filled in, and its
    size, as computed before the memory is mapped. *)
Definition region_hdr (A : arch) (jent pg : Z) (p : patch) (off : Z) (n : nat) : list Z :=
  fst (layout A jent pg (p_hdr p) (p_undef p) off n).
Definition region_size (A : arch) (jent pg : Z) (p : patch) (off : Z) (n : nat) : Z :=
  snd (layout A jent pg (p_hdr p) (p_undef p) off n).

(** An object before it is patched: patch found in the store, nothing done yet. *)
Record fresh (o : obj) (p : patch) : Prop := {
  fr_patch : o_patch o = Some p;
  fr_notpatch : o_is_patch o = false;
  fr_hdr : o_hdr o = None;
  fr_info : o_info o = None;
  fr_kpta : o_kpta o = 0 }.

(** The same state with every later operation succeeding as documented. *)
Definition quiet (s : st) : st := {| sm := sm s; sx := sx s; so := [] |}.

(** The table of replaced functions in a linked image, as kpatch_strip leaves it
    (kpatch_strip.c:104-139): at least one entry, no entry is all zero, and the
    table is followed by 24 zero bytes, all inside the image. *)
Record table_ok (img : list Z) (off : Z) (n : nat) : Prop := {
  tb_some : (0 < n)%nat;
  tb_inside : off + info_size * Z.of_nat n + 24 <= zlen img;
  tb_nonzero : forall i, In i (infos_of img off n) -> is_end_info i = false;
  tb_end : forall k, 0 <= k < 24 ->
    nth (Z.to_nat (off + info_size * Z.of_nat n + k)) img 0 = 0 }.

(** The header names the patch: magic string, patch id and build id, each ended by a
    NUL inside its field. *)
Record labelled (h id bid : list Z) : Prop := {
  lb_magic : hdr_str h 0 = Some magic;
  lb_id : hdr_str h h_id = Some id;
  lb_id_len : (length id <= 7)%nat;
  lb_bid : hdr_str h h_buildid = Some bid;
  lb_bid_len : (length bid <= 40)%nat }.

(** What the tool needs to find again in the patient in order to cancel a patch
    mapped at [base] with header [h]: the header, the table with its end mark, the
    saved code. *)
Definition bookkeeping (A : arch) (h : list Z) (base : Z) (n : nat) (x : Z) : Prop :=
  in_range x base hdr_size \/
  in_range x (base + get32 h h_user_info) (info_size * Z.of_nat n + 24) \/
  in_range x (base + get32 h h_user_undo) (a_hunk A * Z.of_nat n).

(** A file as kpatch_make writes it (kpatch_make.c:39-68): the fields computed while
    patching are still zero. *)
Definition file_clean (h : list Z) : Prop :=
  get32 h h_user_info = 0 /\ get64 h h_total_mem = 0.

(** An object about to be patched with a well-formed patch.  [base] is the address
    the allocator proposes; the functions to be replaced do not overlap each other
    nor that region. *)
Record scene (A : arch) (jent pg : Z) (p : patch) (off : Z) (n : nat) (o : obj) (base : Z) : Prop := {
  sc_machine : machine_ok A jent pg;
  sc_patch : patch_ok A jent pg p off n;
  sc_fresh : fresh o p;
  sc_base : o_find o (region_size A jent pg p off n) = base;
  sc_entries : forall img jt, p_link p base (region_hdr A jent pg p off n) = Some (img, jt) ->
     entries_ok (infos_of img off n) (a_hunk A) base (region_size A jent pg p off n) }.

(** [x] is at the entry of a function that the patch, linked for [base], replaces. *)
Definition replaced_byte (A : arch) (jent pg : Z) (p : patch) (off : Z) (n : nat) (base x : Z) : Prop :=
  exists img jt, p_link p base (region_hdr A jent pg p off n) = Some (img, jt) /\
    at_entry (infos_of img off n) (a_hunk A) x.

(** Nothing is mapped in the first [k] bytes at [a]. *)
Definition nothing_at (m : mem) (a k : Z) : Prop := forall x, in_range x a k -> m x = None.
