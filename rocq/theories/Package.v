(** * Package: the packaging script, /repo/contrib/debianize.py.

    A Python program, run by the continuous integration on the built binary. Texts and files are
    lists of bytes. What other programs do (git, date, strip, readelf, gzip, md5) is given by the
    class [Tools]; that they all succeed, and that files can be read and written, is taken for
    granted, as is the packing by tar and ar. The output of readelf is taken to be ASCII. *)
From Verif Require Export RustBase.

(** The exceptions the modelled code raises. *)
Inductive py_error := ValueError | KeyError | StructError.

(** [file.read(k)]: what is read and what is left; at the end of the file less is read. *)
Definition py_read (k : nat) (f : str) : str * str := (firstn k f, skipn k f).

(** [dict[k]]; a dict is the list of its items in order of insertion. *)
Fixpoint dict_get {K V : Type} (eqb : K -> K -> bool) (k : K) (d : list (K * V)) : option V :=
  match d with
  | [] => None
  | (k', v) :: d' => if eqb k k' then Some v else dict_get eqb k d'
  end.

(** [dict[k] = v]: an old item keeps its place. *)
Fixpoint dict_set {K V : Type} (eqb : K -> K -> bool) (k : K) (v : V) (d : list (K * V)) : list (K * V) :=
  match d with
  | [] => [(k, v)]
  | (k', v') :: d' => if eqb k k' then (k', v) :: d' else (k', v') :: dict_set eqb k v d'
  end.

(** [struct.unpack("<H", b)] and [struct.unpack(">H", b)]. *)
Definition unpack_H (big_endian : bool) (b : str) : result N py_error :=
  match b with
  | [x; y] => ROk (if big_endian then N_of_ascii x * 256 + N_of_ascii y else N_of_ascii y * 256 + N_of_ascii x)
  | _ => RErr StructError
  end.

Definition elf_magic : str := "127"%char :: lit "ELF".

(** contrib/debianize.py:58-100 [get_elf_machine], from the contents of the file. *)
Definition get_elf_machine (file : str) : result str py_error :=
  let '(magic, f) := py_read 4 file in
  if negb (str_eqb magic elf_magic) then RErr ValueError else
  let '(bitness, f) := py_read 1 f in
  rbind (if str_eqb bitness ["002"%char] then ROk 64 else RErr ValueError) (fun bits =>
  let '(endianness, f) := py_read 1 f in
  rbind (if str_eqb endianness ["002"%char] then ROk true
         else if negb (str_eqb endianness ["001"%char]) then RErr ValueError
         else ROk false) (fun machine_struct =>
  let '(version, f) := py_read 1 f in
  if negb (str_eqb version ["001"%char]) then RErr ValueError else
  let '(_abi, f) := py_read 1 f in
  let '(_abi_ver, f) := py_read 1 f in
  let '(_pad, f) := py_read 7 f in
  let '(_file_type, f) := py_read 2 f in
  let '(machine, f) := py_read 2 f in
  rbind (unpack_H machine_struct machine) (fun machine_num =>
  match dict_get N.eqb machine_num
    [(40, lit "armel"); (62, lit "amd64"); (183, lit "arm64"); (3, lit "i386");
     (8, if bits =? 32 then lit "mipsel" else lit "mips64el"); (21, lit "ppc64el"); (22, lit "s390x")] with
  | Some name => ROk name
  | None => RErr KeyError
  end))).

(** ** Regular expressions, as far as the script uses them: literals, one or more characters of a
    class (greedy), alternatives, groups. *)
Inductive regex :=
| RLit (s : str)
| RMany (p : ascii -> bool)
| RSeq (a b : regex)
| RAlt (a b : regex)
| RGroup (a : regex).

(** What is left of [s] after one or more characters of the class, the longest match first. *)
Fixpoint re_many (p : ascii -> bool) (s : str) : list str :=
  match s with
  | [] => []
  | c :: s' => if p c then re_many p s' ++ [s'] else []
  end.

Fixpoint re_lit (l s : str) : list str :=
  match l, s with
  | [], _ => [s]
  | x :: l', y :: s' => if Ascii.eqb x y then re_lit l' s' else []
  | _ :: _, [] => []
  end.

(** All ways to match at the beginning of [s], in the order in which the engine tries them: the
    groups, and what is left. *)
Fixpoint re_run (r : regex) (s : str) : list (list str * str) :=
  match r with
  | RLit l => map (pair []) (re_lit l s)
  | RMany p => map (pair []) (re_many p s)
  | RSeq a b =>
      flat_map (fun '(g, s') => map (fun '(g', s'') => (g ++ g', s'')) (re_run b s')) (re_run a s)
  | RAlt a b => re_run a s ++ re_run b s
  | RGroup a => map (fun '(g, s') => (firstn (List.length s - List.length s')%nat s :: g, s')) (re_run a s)
  end.

(** [re.match] for a pattern that ends in [$], on a text without line breaks: the groups. *)
Definition re_match (r : regex) (s : str) : option (list str) :=
  match filter (fun '(_, rest) => match rest with [] => true | _ => false end) (re_run r s) with
  | [] => None
  | (g, _) :: _ => Some g
  end.

Definition in_range (lo hi : ascii) (c : ascii) : bool :=
  (N_of_ascii lo <=? N_of_ascii c) && (N_of_ascii c <=? N_of_ascii hi).
(** The classes \s (and [str.isspace], within ASCII) and the dot. *)
Definition py_space (c : ascii) : bool := in_range "009" "013" c || in_range "028" "032" c.
Definition py_dot (c : ascii) : bool := negb (Ascii.eqb c "010").

(** debianize.py:42 [VERSION_LINE_RE]. *)
Definition version_line_re : regex :=
  RSeq (RMany py_space)
  (RSeq (RAlt (RMany (Ascii.eqb "0"))
              (RSeq (RLit (lit "0x")) (RMany (fun c => in_range "0" "9" c || in_range "a" "f" c))))
  (RSeq (RLit (lit ":"))
  (RSeq (RMany py_space)
  (RSeq (RLit (lit "Name: "))
  (RSeq (RGroup (RMany (in_range "A" "Z")))
  (RSeq (RLit (lit "_"))
  (RSeq (RGroup (RMany (fun c => in_range "0" "9" c || Ascii.eqb "." c)))
  (RSeq (RMany py_space)
  (RSeq (RLit (lit "Flags: "))
  (RSeq (RMany py_dot)
  (RSeq (RMany py_space)
  (RSeq (RLit (lit "Version: "))
        (RMany py_dot))))))))))))).

(** ** debianize.py:103-129 [get_elf_versions] *)

(** [int(piece)]; only digits get here, and at least one unless two dots meet. (Recent versions of
    Python raise ValueError beyond 4300 digits.) *)
Fixpoint py_digits (acc : N) (s : str) : result N py_error :=
  match s with
  | [] => ROk acc
  | c :: s' => match to_digit 10 c with
               | Some d => py_digits (acc * 10 + d) s'
               | None => RErr ValueError
               end
  end.
Definition py_int (s : str) : result N py_error :=
  match s with [] => RErr ValueError | _ => py_digits 0 s end.

Fixpoint map_result {A B E : Type} (f : A -> result B E) (l : list A) : result (list B) E :=
  match l with
  | [] => ROk []
  | x :: l' => rbind (f x) (fun y => rbind (map_result f l') (fun ys => ROk (y :: ys)))
  end.

(** [<] on tuples of integers. *)
Fixpoint tuple_lt (a b : list N) : bool :=
  match a, b with
  | [], [] => false
  | [], _ :: _ => true
  | _ :: _, [] => false
  | x :: a', y :: b' => if x =? y then tuple_lt a' b' else x <? y
  end.

(** [str.lstrip()], [str.strip()]. *)
Fixpoint py_lstrip (s : str) : str :=
  match s with
  | c :: s' => if py_space c then py_lstrip s' else s
  | [] => []
  end.
Definition py_strip (s : str) : str := rev (py_lstrip (rev (py_lstrip s))).

Definition versions : Type := list (str * list N).

Definition needs_header : str := lit "Version needs section '.gnu.version_r' contains ".

(** The loop over the lines, lines 108-129. *)
Fixpoint version_lines (correct_section : bool) (elf_lines : list str) (lib_to_ver : versions) : result versions py_error :=
  match elf_lines with
  | [] => ROk lib_to_ver
  | ln :: rest =>
      if negb (starts_with (lit " ") ln) then version_lines (starts_with needs_header ln) rest lib_to_ver
      else if negb correct_section then version_lines correct_section rest lib_to_ver
      else match re_match version_line_re ln with
           | Some [library; ver_str] =>
               rbind (map_result py_int (split_on "." ver_str)) (fun ver =>
               version_lines correct_section rest
                 (match dict_get str_eqb library lib_to_ver with
                  | None => dict_set str_eqb library ver lib_to_ver
                  | Some exist_ver => if tuple_lt exist_ver ver then dict_set str_eqb library ver lib_to_ver else lib_to_ver
                  end))
           | _ => version_lines correct_section rest lib_to_ver
           end
  end.

(** From the output of readelf -V. *)
Definition get_elf_versions (elf_output : str) (lib_to_ver : versions) : result versions py_error :=
  version_lines false (split_on "010" (py_strip elf_output)) lib_to_ver.

(** debianize.py:132-143 [libver_to_deps]. *)
Definition deb_mapping : list (str * str) := [(lit "GLIBC", lit "libc6"); (lit "GCC", lit "libgcc1")].
Definition libver_to_deps (lib_to_ver : versions) : result (list str) py_error :=
  map_result (fun '(lib, ver) =>
    match dict_get str_eqb lib deb_mapping with
    | None => RErr KeyError
    | Some n => ROk (n ++ lit " (>= " ++ join (lit ".") (map fmt_dec ver) ++ lit ")")
    end) lib_to_ver.

(** [sorted]: stable; texts are compared character by character. *)
Fixpoint str_compare (a b : str) : comparison :=
  match a, b with
  | [], [] => Eq
  | [], _ :: _ => Lt
  | _ :: _, [] => Gt
  | x :: a', y :: b' => match N_of_ascii x ?= N_of_ascii y with Eq => str_compare a' b' | o => o end
  end.
Definition py_sorted {T : Type} (cmp : T -> T -> comparison) (l : list T) : list T := isort_by cmp l.

(** The field Depends, lines 285-292 and 320; DEPS is empty. *)
Definition deb_depends (elf_output : str) : result str py_error :=
  rbind (get_elf_versions elf_output []) (fun lib_to_ver =>
  rbind (libver_to_deps lib_to_ver) (fun deb_deps =>
  ROk (join (lit ", ") (py_sorted str_compare (deb_deps ++ []))))).

(** ** The files of the package *)

(** What other programs answer. *)
Class Tools : Type := {
  (** git rev-list --count HEAD *)
  git_count : str;
  (** date +... *)
  mail_date : str;
  (** the binary after strip *)
  strip : str -> str;
  (** readelf -V of a file with these contents *)
  readelf : str -> str;
  (** [compress_gzip_without_timestamp] (lines 152-158) *)
  gzip : str -> str;
  (** [hashlib.md5(...).hexdigest()] *)
  md5 : str -> str
}.

(** debianize.py:18-37, the constants. *)
Definition package_name : str := lit "ripcalc".
Definition target_file : str := lit "usr/bin/ripcalc".
Definition author : str := lit "Ondřej Hošek <ondra.hosek@gmail.com>".
Definition author_years : str := lit "2021".
Definition section_name : str := lit "net".
Definition priority_name : str := lit "optional".
Definition homepage : str := lit "https://gitlab.tuwien.ac.at/ondrej.hosek/ripcalc".
Definition license : str := lit "CC0-1.0".
Definition short_descr : str := lit "IPv4 and IPv6 subnet calculator".
Definition long_descr : str := lit "It calculates subnets.".

Definition py_lines (ls : list str) : str := flat_map (fun l => l ++ ["010"%char]) ls.

(** debianize.py:161-177 [fake_changelog], before compression. *)
Definition fake_changelog `{Tools} (code_revision : str) : str :=
  py_lines [package_name ++ lit " (" ++ code_revision ++ lit ") unstable; urgency=medium"; [];
            lit "  * Just read the git log, no need to maintain a second changelog."; [];
            lit " -- " ++ author ++ lit "  " ++ mail_date].

(** debianize.py:180-199 [make_copyright]. *)
Definition make_copyright : str :=
  py_lines [lit "Format: https://www.debian.org/doc/packaging-manuals/copyright-format/1.0/";
            lit "Upstream-Name: " ++ package_name; lit "Upstream-Contact: " ++ author; lit "Source: " ++ homepage; [];
            lit "Files: *"; lit "Copyright: " ++ author_years ++ lit " " ++ author; lit "License: " ++ license].

(** The loop of lines 268-272: the bytes fed to the checksum, 1024 at a time. The fuel is one more
    than the length of the file, so it is never exhausted. *)
Fixpoint md5_feed (fuel : nat) (fed f : str) : str :=
  match fuel with
  | O => fed
  | Datatypes.S fuel' =>
      let '(bs, f') := py_read 1024 f in
      match bs with [] => fed | _ => md5_feed fuel' (fed ++ bs) f' end
  end.

(** debianize.py:262-277: the checksums and the sum of the sizes, over the files that are copied
    and those that are generated. *)
Definition checksums `{Tools} (files generated : list (str * str)) : list (str * str) * N :=
  let copied := fold_left (fun '(sums, total) '(path, contents) =>
                   (dict_set str_eqb path (md5 (md5_feed (Datatypes.S (List.length contents)) [] contents)) sums,
                    total + N.of_nat (List.length contents))) files ([], 0) in
  fold_left (fun '(sums, total) '(path, bs) =>
               (dict_set str_eqb path (md5 bs) sums, total + N.of_nat (List.length bs))) generated copied.

(** debianize.py:295-300: the long description, indented. *)
Definition long_descr_fmt : str :=
  join ["010"%char] (map (fun ln => match ln with [] => lit " ." | _ => lit " " ++ ln end)
                         (split_on "010" (py_strip long_descr))).

(** debianize.py:301-327: the file control. *)
Definition control_file (code_revision deb_arch depends : str) (total_size_kib : N) : str :=
  py_lines [lit "Package: " ++ package_name; lit "Source: " ++ package_name; lit "Version: " ++ code_revision;
            lit "Architecture: " ++ deb_arch; lit "Maintainer: " ++ author; lit "Installed-Size: " ++ fmt_dec total_size_kib;
            lit "Depends: " ++ depends; lit "Section: " ++ section_name; lit "Priority: " ++ priority_name;
            lit "Homepage: " ++ homepage; lit "Description: " ++ short_descr; long_descr_fmt].

(** debianize.py:332-339: the file md5sums, sorted by checksum, then by path. *)
Definition pair_compare (a b : str * str) : comparison :=
  match str_compare (snd a) (snd b) with Eq => str_compare (fst a) (fst b) | o => o end.
Definition md5sums_file (sums : list (str * str)) : str :=
  py_lines (map (fun '(path, m) => m ++ lit "  " ++ path) (py_sorted pair_compare sums)).

Record package := { deb_name : str; control : str; md5sums : str; data : list (str * str) }.

(** [str.rstrip] of line breaks. *)
Fixpoint drop_newlines (s : str) : str :=
  match s with
  | c :: s' => if Ascii.eqb c "010" then drop_newlines s' else s
  | [] => []
  end.
Definition rstrip_newlines (s : str) : str := rev (drop_newlines (rev s)).

(** debianize.py:202-255, 258-339 and 355-401: [collect_data], [collect_control] and [main], from the
    contents of target/release/ripcalc. *)
Definition debianize `{Tools} (elf : str) : result package py_error :=
  let code_revision := rstrip_newlines git_count in
  let docdir := lit "usr/share/doc/" ++ package_name in
  let generated := [(docdir ++ lit "/changelog.gz", gzip (fake_changelog code_revision));
                    (docdir ++ lit "/copyright", make_copyright)] in
  rbind (get_elf_machine elf) (fun deb_arch =>
  let files := [(target_file, strip elf)] in
  let '(sums, total_size_bytes) := checksums files generated in
  rbind (deb_depends (readelf (strip elf))) (fun depends =>
  ROk {| deb_name := package_name ++ lit "_" ++ code_revision ++ lit "_" ++ deb_arch ++ lit ".deb";
         control := control_file code_revision deb_arch depends (total_size_bytes / 1024);
         md5sums := md5sums_file sums;
         data := files ++ generated |})).
