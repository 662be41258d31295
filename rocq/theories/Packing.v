(** * Packing: /repo/contrib/debianize.py as a whole, with the programs it runs.

    Package.v computes the contents of the package when every program succeeds. Here each of them
    may fail, and the files are followed through the temporary directory into the archives. The
    file system is the list of the files in the temporary directory, by their paths. That files
    can be read, written and copied, and directories be made, is still taken for granted. *)
From Verif Require Export Package Messages.

(** The programs. [None] stands for an exit code other than 0. What strip, tar and ar say on their
    standard output is dropped by the script; it is taken to be valid text. *)
Class Programs : Type := {
  (** git rev-list --count HEAD: its output *)
  git_cmd : option str;
  (** date +...: its output *)
  date_cmd : option str;
  (** strip: the new contents of the file, from the old ones *)
  strip_cmd : str -> option str;
  (** readelf -V: its output, from the contents of the file *)
  readelf_cmd : str -> option str;
  (** tar -cJ and tar -cz: the archive, from the files with their names below the directory *)
  tar_xz : list (str * str) -> option str;
  tar_gz : list (str * str) -> option str;
  (** ar rcD: the new archive, from the members *)
  ar_cmd : list (str * str) -> option str;
  (** [compress_gzip_without_timestamp] and [hashlib.md5] *)
  gzip_bytes : str -> str;
  md5_bytes : str -> str;
  (** the order in which a directory is listed *)
  listing : list (str * str) -> list (str * str);
  listing_perm : forall l, Permutation (listing l) l
}.

(** What is seen of the script: the programs it runs, the file it leaves in the code directory
    (with its path), and what it prints. *)
Inductive effect :=
| Ran (args : list str)
| Placed (path contents : str)
| Printed (text : str).

Definition packing (T : Type) : Type := list effect * result T py_error.
Definition pbind {T U : Type} (x : packing T) (f : T -> packing U) : packing U :=
  match x with
  | (es, ROk a) => let '(es', r) := f a in (es ++ es', r)
  | (es, RErr e) => (es, RErr e)
  end.
Definition plift {T : Type} (r : result T py_error) : packing T := ([], r).
Definition peffect (e : effect) : packing unit := ([e], ROk tt).

(** debianize.py:45-55 [run_cmd]: ValueError if the exit code is not 0. [decode] raises
    UnicodeDecodeError, a ValueError, for what is not UTF-8. *)
Definition run_cmd (args : list str) (stdout : option str) : packing str :=
  ([Ran args],
   match stdout with
   | None => RErr ValueError
   | Some out => if is_utf8 out then ROk out else RErr ValueError
   end).
(** The same for a program run for the file it makes. *)
Definition run_for_file (args : list str) (file : option str) : packing str :=
  ([Ran args], match file with None => RErr ValueError | Some f => ROk f end).

(** [os.path.join] for a second path that is relative. *)
Definition py_join (a b : str) : str :=
  match rev a with
  | [] => b
  | c :: _ => if Ascii.eqb c "/" then a ++ b else a ++ lit "/" ++ b
  end.

Definition file_system : Type := list (str * str).
Definition read_file (path : str) (fs : file_system) : str :=
  match dict_get str_eqb path fs with Some c => c | None => [] end.
Definition write_file (path contents : str) (fs : file_system) : file_system := dict_set str_eqb path contents fs.

(** The part of a text after a prefix. *)
Fixpoint after_prefix (p s : str) : option str :=
  match p, s with
  | [], _ => Some s
  | x :: p', y :: s' => if Ascii.eqb x y then after_prefix p' s' else None
  | _ :: _, [] => None
  end.
(** The files below a directory, with their names from there. *)
Definition below (dir : str) (fs : file_system) : list (str * str) :=
  flat_map (fun '(path, c) => match after_prefix (dir ++ lit "/") path with Some r => [(r, c)] | None => [] end) fs.

(** debianize.py:20-31: the files to copy, those to strip, those whose needs are looked up. *)
Definition FILES : list (str * str) := [(lit "target/release/ripcalc", target_file)].
Definition STRIP_TARGET_FILES : list str := [target_file].
Definition BIN_DEP_TARGET_FILES : list str := [target_file].

Section script.
  Context `{Programs}.
  (** the temporary directory, the directory of the code, and the files there *)
  Context (temp_dir code_dir : str) (source : str -> str).

  (** The programs as Package.v knows them, once git and date have answered. *)
  Definition answers (count date : str) : Tools := {|
    git_count := count;
    mail_date := date;
    strip := fun f => match strip_cmd f with Some g => g | None => [] end;
    readelf := fun f => match readelf_cmd f with Some out => out | None => [] end;
    gzip := gzip_bytes;
    md5 := md5_bytes |}.

  (** Lines 223-225, 237-239: strip, if the file is to be stripped. *)
  Definition strip_target (target_rel_path target_path : str) (fs : file_system) : packing file_system :=
    if existsb (str_eqb target_rel_path) STRIP_TARGET_FILES
    then pbind (run_for_file [lit "strip"; target_path] (strip_cmd (read_file target_path fs))) (fun c =>
         plift (ROk (write_file target_path c fs)))
    else plift (ROk fs).

  (** Lines 212-225 and 228-239, the loops of [collect_data]; a file comes with its contents. *)
  Fixpoint place_files (data_dir : str) (files : list (str * str)) (fs : file_system) : packing file_system :=
    match files with
    | [] => plift (ROk fs)
    | (target_rel_path, contents) :: rest =>
        let target_path := py_join data_dir target_rel_path in
        pbind (strip_target target_rel_path target_path (write_file target_path contents fs)) (fun fs =>
        place_files data_dir rest fs)
    end.

  (** debianize.py:202-255 [collect_data]: the data directory. FILES has one item, so sorting it
      does nothing. *)
  Definition collect_data (generated_files : list (str * str)) (fs : file_system) : packing (str * file_system) :=
    let data_dir := py_join temp_dir (lit "data") in
    pbind (place_files data_dir (map (fun '(s, t) => (t, source (py_join code_dir s))) FILES) fs) (fun fs =>
    pbind (place_files data_dir generated_files fs) (fun fs =>
    pbind (run_for_file [lit "tar"; lit "-cJ"; lit "-f"; lit "../data.tar.xz"; lit "--owner=root:0"; lit "--group=root:0"; lit "."]
             (tar_xz (listing (below data_dir fs)))) (fun archive =>
    plift (ROk (data_dir, write_file (py_join temp_dir (lit "data.tar.xz")) archive fs))))).

  (** Lines 286-288: the versions needed by the binaries. *)
  Fixpoint needed_versions (data_dir : str) (targets : list str) (fs : file_system) (lib_to_ver : versions) : packing versions :=
    match targets with
    | [] => plift (ROk lib_to_ver)
    | target_rel_path :: rest =>
        let file_name := py_join data_dir target_rel_path in
        pbind (run_cmd [lit "readelf"; lit "-V"; file_name] (readelf_cmd (read_file file_name fs))) (fun elf_output =>
        pbind (plift (get_elf_versions elf_output lib_to_ver)) (fun lib_to_ver =>
        needed_versions data_dir rest fs lib_to_ver))
    end.

  (** debianize.py:258-352 [collect_control]. *)
  Definition collect_control (data_dir : str) (generated_files : list (str * str)) (code_revision deb_arch : str) (fs : file_system)
    : packing file_system :=
    let '(sums, total_size_bytes) :=
      @checksums (answers [] []) (map (fun '(_, t) => (t, read_file (py_join data_dir t) fs)) FILES) generated_files in
    let control_dir := py_join temp_dir (lit "control") in
    pbind (needed_versions data_dir BIN_DEP_TARGET_FILES fs []) (fun lib_to_ver =>
    pbind (plift (libver_to_deps lib_to_ver)) (fun deb_deps =>
    let depends := join (lit ", ") (py_sorted str_compare (deb_deps ++ [])) in
    let fs := write_file (py_join control_dir (lit "control")) (control_file code_revision deb_arch depends (total_size_bytes / 1024)) fs in
    let fs := write_file (py_join control_dir (lit "md5sums")) (md5sums_file sums) fs in
    pbind (run_for_file [lit "tar"; lit "-cz"; lit "-f"; lit "../control.tar.gz"; lit "--owner=root:0"; lit "--group=root:0"; lit "."]
             (tar_gz (listing (below control_dir fs)))) (fun archive =>
    plift (ROk (write_file (py_join temp_dir (lit "control.tar.gz")) archive fs))))).

  (** debianize.py:355-418 [main]. *)
  Definition package_script : packing unit :=
    pbind (run_cmd [lit "git"; lit "rev-list"; lit "--count"; lit "HEAD"] git_cmd) (fun count =>
    let code_revision := rstrip_newlines count in
    pbind (run_cmd [lit "date"; lit "+%a, %d %b %Y %H:%M:%S %z"] date_cmd) (fun date =>
    let changelog_gz_bytes := gzip_bytes (@fake_changelog (answers count date) code_revision) in
    let docdir := lit "usr/share/doc/" ++ package_name in
    let generated_files := [(docdir ++ lit "/changelog.gz", changelog_gz_bytes); (docdir ++ lit "/copyright", make_copyright)] in
    pbind (plift (get_elf_machine (source (py_join code_dir (lit "target/release/ripcalc"))))) (fun deb_arch =>
    let fs := write_file (py_join temp_dir (lit "debian-binary")) (lit "2.0" ++ ["010"%char]) [] in
    pbind (collect_data generated_files fs) (fun '(data_dir, fs) =>
    pbind (collect_control data_dir generated_files code_revision deb_arch fs) (fun fs =>
    let deb_name := package_name ++ lit "_" ++ code_revision ++ lit "_" ++ deb_arch ++ lit ".deb" in
    let members := map lit ["debian-binary"; "control.tar.gz"; "data.tar.xz"]%string in
    pbind (run_for_file ([lit "ar"; lit "rcD"; deb_name] ++ members)
             (ar_cmd (map (fun m => (m, read_file (py_join temp_dir m) fs)) members))) (fun deb =>
    let fs := write_file (py_join temp_dir deb_name) deb fs in
    pbind (peffect (Placed (py_join code_dir deb_name) (read_file (py_join temp_dir deb_name) fs))) (fun _ =>
    peffect (Printed (deb_name ++ ["010"%char]))))))))).
End script.
