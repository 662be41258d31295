(** * SpecPacking: vocabulary for the packaging script as a whole (C105)

    Of the script nothing is used but the types; the contents of the package are those of C104. *)
From Verif Require Import RustBase SpecProcess Package SpecPackage Packing.

(** The path of the file [name] in the directory [dir]. *)
Definition path_in (dir name path : str) : Prop :=
  (dir = [] \/ exists d, dir = d ++ lit "/") /\ path = dir ++ name \/
  ~ (dir = [] \/ exists d, dir = d ++ lit "/") /\ path = dir ++ lit "/" ++ name.

(** The programs run for the package [name], with their arguments; [file] is the path of the copied
    binary. *)
Definition commands (file name : str) : list (list str) :=
  [map lit ["git"; "rev-list"; "--count"; "HEAD"]%string;
   map lit ["date"; "+%a, %d %b %Y %H:%M:%S %z"]%string;
   [lit "strip"; file];
   map lit ["tar"; "-cJ"; "-f"; "../data.tar.xz"; "--owner=root:0"; "--group=root:0"; "."]%string;
   [lit "readelf"; lit "-V"; file];
   map lit ["tar"; "-cz"; "-f"; "../control.tar.gz"; "--owner=root:0"; "--group=root:0"; "."]%string;
   [lit "ar"; lit "rcD"; name; lit "debian-binary"; lit "control.tar.gz"; lit "data.tar.xz"]].

(** An answer that is text, and one that is no use. *)
Definition says (answer : option str) (out : str) : Prop := answer = Some out /\ unicode out.
Definition useless (answer : option str) : Prop := forall out, ~ says answer out.

(** The tools, having answered this. *)
Definition told `{Programs} (count date stripped versions : str) : Tools := {|
  git_count := count; mail_date := date; strip := fun _ => stripped; readelf := fun _ => versions;
  gzip := gzip_bytes; md5 := md5_bytes |}.

(** What the control archive is made of. *)
Definition control_files (p : package) : list (str * str) := [(lit "control", Package.control p); (lit "md5sums", md5sums p)].

(** The members of a Debian package, in the order they must have. *)
Definition members (control_archive data_archive : str) : list (str * str) :=
  [(lit "debian-binary", lit "2.0" ++ [byte 10]); (lit "control.tar.gz", control_archive); (lit "data.tar.xz", data_archive)].

(** What is seen other than the programs run. *)
Definition lasting (e : effect) : bool := match e with Ran _ => false | _ => true end.

(** ** For examples *)
(** Archives are texts of names and lengths; [fails] says which programs fail. *)
Definition demo_archive (files : list (str * str)) : str :=
  flat_map (fun '(n, c) => n ++ lit "=" ++ fmt_dec (N.of_nat (List.length c)) ++ lit ";") files.
Definition demo_programs (fails : string -> bool) : Programs := {|
  git_cmd := if fails "git"%string then None else Some (lit "57" ++ [byte 10]);
  date_cmd := if fails "date"%string then Some [byte 255] else Some (lit "Mon, 16 Nov 2026 12:00:00 +0000" ++ [byte 10]);
  strip_cmd := fun f => if fails "strip"%string then None else Some (firstn 20 f);
  readelf_cmd := fun _ => if fails "readelf"%string then None else Some demo_readelf;
  tar_xz := fun fs => if fails "tar_xz"%string then None else Some (lit "xz:" ++ demo_archive fs);
  tar_gz := fun fs => if fails "tar_gz"%string then None else Some (lit "gz:" ++ demo_archive fs);
  ar_cmd := fun fs => if fails "ar"%string then None else Some (flat_map (fun '(n, c) => lit "[" ++ n ++ lit " " ++ c ++ lit "]") fs);
  gzip_bytes := fun t => firstn 10 t;
  md5_bytes := fun t => fmt_hex (N.of_nat (List.length t));
  listing := fun l => rev l;
  listing_perm := fun l => Permutation_sym (Permutation_rev l) |}.
