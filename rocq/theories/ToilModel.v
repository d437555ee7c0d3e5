(** Building a package's patches as a workflow: /repo/scripts/toil/pkgbuild.py.  Definitions only.

    Simplifications.  A directory is one content, as it is kept (Directory, 352-384).  Modes of files, sizes and the
    machinery of toil are left out: a job gets the storage its promise stands for (425-508), jobs that do not depend on each
    other are done in one order.  os.path.abspath, the files, the net and the containers are parameters. *)
From Coq Require Import String.
From Verif Require Import Base StorageModel TextModel LoptModel.
Open Scope list_scope.

(** * Names *)
(** os.path.basename: what is behind the last slash *)
Fixpoint basename (s : text) : text :=
  match s with [] => [] | c :: r => if existsb (Z.eqb 47) s then basename r else s end.
Fixpoint strip_stars (s : text) : text := match s with 42 :: r => strip_stars r | _ => s end.
(** A URL, or a dictionary as the list of its items *)
Inductive info := Url (u : text) | Named (items : list (text * text)).
Record finfo := FI { fi_name : text; fi_url : text; fi_required : bool }.
(** parseFileInfo, 76-103; [None]: ValueError *)
Definition parse_info (i : info) : option finfo :=
  let parsed n u := Some (if begins (str "*") u then FI n (strip_stars u) false else FI n u true) in
  match i with
  | Url u => parsed (basename u) u
  | Named [(n, u)] => parsed n u
  | Named _ => None
  end.
(** str.replace('file://', ''); [k] characters of an occurrence are still to be left out *)
Fixpoint drop_scheme (k : nat) (s : text) : text :=
  match s with
  | [] => []
  | c :: r => match k with
              | S k' => drop_scheme k' r
              | O => if begins (str "file://") s then drop_scheme 6 r else c :: drop_scheme 0 r
              end
  end.
(** os.path.join *)
Definition join (a b : text) : text := if begins (str "/") b then b else if list_eqb a [] then b else if Z.eqb (last a 0) 47 then a ++ b else a ++ str "/" ++ b.
(** myabspath, 66-74 *)
Inductive place := Local (p : text) | Remote | Error.
Section Toil.
Variable abspath : text -> text.                     (* os.path.abspath *)
Definition myabspath (root : option text) (u : text) : place :=
  if negb (contains (str "://") u) || begins (str "file://") u then
    match drop_scheme 0 u with
    | [] => Error                                                              (* path_or_url[0]: IndexError *)
    | c :: r =>
        let p := c :: r in
        let rel := (c =? 46) || negb (existsb (Z.eqb 47) p) in
        Local (abspath (match root with Some d => if rel && negb (list_eqb d []) then join d p else p | None => p end))
    end
  else Remote.

(** * The storage, 125-274: names with what they stand for.  [Imported]: taken in at the start; [Stored]: fetched or made *)
Inductive entry := Imported (c : text) | Stored (c : text).
Definition content (e : entry) : text := match e with Imported c | Stored c => c end.
Definition storage := text -> option entry.
Definition empty : storage := fun _ => None.
Definition sset (n : text) (e : entry) (st : storage) : storage := fun m => if list_eqb n m then Some e else st m.
Definition has (st : storage) (n : text) : bool := match st n with Some _ => true | None => false end.
(** Local files; [Unreadable]: any other error than ENOENT; [accepts]: the names toil takes for a file of its own *)
Inductive file := Absent | Unreadable | There (c : text).
Variable fs : text -> file.
Variable accepts : text -> bool.
Variable web : text -> option text.                  (* an answer other than 200, or NoSuchKey: None *)

(** importLocalFiles, 210-253.  [None]: an exception *)
Fixpoint sort_inputs (root : option text) (is : list info) : option (list (text * text) * list info) :=
  match is with
  | [] => Some ([], [])
  | i :: r =>
      match parse_info i with
      | None => None
      | Some f =>
          match myabspath root (fi_url f), sort_inputs root r with
          | Error, _ | _, None => None
          | Local p, Some (ls, rs) => Some ((fi_name f, p) :: ls, rs)
          | Remote, Some (ls, rs) => Some (ls, i :: rs)
          end
      end
  end.
Fixpoint import_local (ls : list (text * text)) (st : storage) : option storage :=
  match ls with
  | [] => Some st
  | (n, p) :: r =>
      if has st n then import_local r st
      else match fs p with
           | There c => if accepts n then import_local r (sset n (Imported c) st) else None
           | Absent => import_local r st                                       (* 245-247 *)
           | Unreadable => None
           end
  end.
Definition import_inputs (root : option text) (is : list info) (st : storage) : option (storage * list info) :=
  match sort_inputs root is with
  | None => None
  | Some (ls, rs) => match import_local ls st with Some st' => Some (st', rs) | None => None end
  end.

(** FileFetcherJob, 522-549: the files that are neither there nor local *)
Fixpoint to_fetch (root : option text) (st : storage) (is : list info) : option (list finfo) :=
  match is with
  | [] => Some []
  | i :: r =>
      match parse_info i with
      | None => None
      | Some f =>
          if has st (fi_name f) then to_fetch root st r
          else match myabspath root (fi_url f), to_fetch root st r with
               | Remote, Some l => Some (f :: l)
               | _, _ => None                                                  (* 548-549 *)
               end
      end
  end.
(** 552-568 and the jobs it adds, 571-592, 616-635; what they add to the storage is taken over in their order *)
Fixpoint fetch_all (l : list finfo) (st : storage) : option storage :=
  match l with
  | [] => Some st
  | f :: r => match web (fi_url f) with
              | Some c => fetch_all r (sset (fi_name f) (Stored c) st)
              | None => if fi_required f then None else fetch_all r st
              end
  end.
Definition fetch (root : option text) (st : storage) (is : list info) : option storage :=
  match to_fetch root st is with Some l => fetch_all l st | None => None end.

(** * Scripts in containers *)
Inductive mode := Prebuild | Build | Test.
Definition log_name (m : mode) : text := match m with Prebuild => str "prebuild.log" | Build => str "build.log" | Test => str "test.log" end.
Definition directory := text -> option text.
(** What a container and its output leave of a directory; [None]: it fails *)
Variable script : mode -> directory -> option directory.
(** expose, 161-171, with toDirectory, 173-178, and opening the log, 672-673 *)
Definition exposed (m : mode) (st : storage) : directory :=
  fun n => match st n with
           | Some e => Some (content e)
           | None => if list_eqb n (log_name m) then Some [] else None
           end.
(** pickupDirectory and pickupFiles, 180-208 *)
Definition pickup (d : directory) (st : storage) : storage :=
  fun n => match st n with
           | Some e => Some e
           | None => match d n with Some c => Some (Stored c) | None => None end
           end.
(** DockerScriptJob, 668-691 *)
Definition run_job (m : mode) (st : storage) : option storage :=
  match script m (exposed m st) with Some d => Some (pickup d st) | None => None end.

(** UploadJob, 715-728, with S3UploadJob, 638-649, and parseurl, 598-606: what is put where; [None]: an exception.  An
    ImportedFile, 313-349, has no fileId.  That s3 may also be written in capitals is left out. *)
Definition upload (n u : text) (st : storage) : option (list (text * text)) :=
  match st n with
  | None => Some []
  | Some (Imported _) => None
  | Some (Stored c) =>
      match myabspath None u with
      | Local p => Some [(p, c)]
      | Remote => if begins (str "s3://") u then Some [(u, c)] else None
      | Error => None
      end
  end.

(** DoBuild, 731-763: the scripts that were run, in order, what was uploaded, and the storage in the end *)
Record done := Done { d_ran : list mode; d_uploads : list (text * text); d_storage : storage }.
Definition and_then {A B} (o : option A) (f : A -> option B) : option B := match o with Some a => f a | None => None end.
Definition test_only (st : storage) : option done := and_then (run_job Test st) (fun st' => Some (Done [Test] [] st')).
Definition build_test (bld burl : text) (st : storage) : option done :=
  and_then (run_job Build st) (fun st1 =>
  and_then (upload bld burl st1) (fun up =>
  and_then (test_only st1) (fun d => Some (Done (Build :: d_ran d) (up ++ d_uploads d) (d_storage d))))).
Definition do_build (purl burl : text) (st : storage) : option done :=
  let pre := basename purl in                                                  (* 796-797 *)
  let bld := basename burl in                                                  (* 799-800 *)
  if negb (has st pre) then
    and_then (run_job Prebuild st) (fun st1 =>
    and_then (upload pre purl st1) (fun up =>
    and_then (build_test bld burl st1) (fun d => Some (Done (Prebuild :: d_ran d) (up ++ d_uploads d) (d_storage d)))))
  else if negb (has st bld) then build_test bld burl st
  else test_only st.

(** * The whole run *)
(** readPackageDescription, 837-863; [cwd]: the directory of pkgbuild.py *)
Record description := Desc { ds_input : list info; ds_script : option text; ds_prebuild : text; ds_patch : text }.
Definition starred (u : text) : text := if begins (str "*") u then u else str "*" ++ u.
Definition all_inputs (cwd : text) (d : description) : list info :=
  ds_input d ++
  [Named [(str "build", match ds_script d with Some s => s | None => join cwd (str "./build-patch.sh") end)];
   Named [(str "scripts", join cwd (str "../../scripts"))]; Named [(str "src", join cwd (str "../../src/"))];
   Named [(str "execve", join cwd (str "../../tests/execve"))];
   Url (starred (ds_prebuild d)); Url (starred (ds_patch d))].
(** start, 865-884, and BuildPatchJob, 777-829.  [root]: the directory of the description. *)
Definition gather (cwd root : text) (is : list info) : option storage :=
  and_then (import_inputs (Some root) is empty) (fun '(st, rest) => fetch (Some cwd) st rest).
Definition package (cwd root : text) (d : description) : option done :=
  and_then (gather cwd root (all_inputs cwd d)) (do_build (ds_prebuild d) (ds_patch d)).
(** exportLocalFiles, 261-274, with toDirectory, 173-178: what is in the directory of results *)
Definition exported (st : storage) : directory := fun n => match st n with Some (Stored c) => Some c | _ => None end.
End Toil.
