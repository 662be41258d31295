(** * SpecPackage: vocabulary for the packaging script (C102 to C104)

    Nothing of the script's own functions is used, only its types of results. *)
From Verif Require Import RustBase SpecText SpecOrdering Package.

(** ** C102: the header of an ELF file *)
Definition byte (n : N) : ascii := ascii_of_N n.

(** The file begins with an ELF header that has these bytes for the class (1: 32 bits, 2: 64 bits),
    the byte order (1: little-endian, 2: big-endian), the version and the machine. *)
Definition elf_header (f : str) (class order version m0 m1 : ascii) : Prop :=
  exists abi_and_padding type rest, List.length abi_and_padding = 9%nat /\ List.length type = 2%nat /\
    f = byte 127 :: lit "ELF" ++ [class; order; version] ++ abi_and_padding ++ type ++ [m0; m1] ++ rest.

(** The number of the machine, the byte order being known. *)
Definition machine_number (order m0 m1 : ascii) (n : N) : Prop :=
  order = byte 1 /\ n = N_of_ascii m0 + 256 * N_of_ascii m1 \/
  order = byte 2 /\ n = N_of_ascii m1 + 256 * N_of_ascii m0.

(** Debian's names. *)
Definition debian_names : list (N * str) :=
  [(3, lit "i386"); (8, lit "mips64el"); (21, lit "ppc64el"); (22, lit "s390x"); (40, lit "armel"); (62, lit "amd64"); (183, lit "arm64")].

(** ** C103: what readelf -V says *)
Definition blank (c : ascii) : Prop := In (N_of_ascii c) [9; 10; 11; 12; 13; 28; 29; 30; 31; 32].

(** [t] is [out] without white space at both ends. *)
Definition trimmed (out t : str) : Prop :=
  exists before after, out = before ++ t ++ after /\ Forall blank before /\ Forall blank after /\
    (forall c t', t = c :: t' -> ~ blank c) /\ (forall c t', t = t' ++ [c] -> ~ blank c).

(** [ls] are the lines of [out]. *)
Definition output_lines (out : str) (ls : list str) : Prop :=
  exists t, trimmed out t /\ ls <> [] /\ t = separated (byte 10) ls /\ Forall (fun l => ~ In (byte 10) l) ls.

Definition some (P : ascii -> Prop) (t : str) : Prop := t <> [] /\ Forall P t.
Definition indented (l : str) : Prop := exists l', l = " "%char :: l'.

(** A line that asks for the version [v] of the library [lib]. *)
Definition version_line (l lib v : str) : Prop :=
  exists s0 offset s1 s2 flags s3 number,
    l = s0 ++ offset ++ lit ":" ++ s1 ++ lit "Name: " ++ lib ++ lit "_" ++ v ++ s2 ++ lit "Flags: " ++ flags ++ s3 ++ lit "Version: " ++ number /\
    some blank s0 /\ some blank s1 /\ some blank s2 /\ some blank s3 /\
    (some (eq "0"%char) offset \/ exists h, offset = lit "0x" ++ h /\ some (fun c => In c (lit "0123456789abcdef")) h) /\
    some (fun c => In c (lit "ABCDEFGHIJKLMNOPQRSTUVWXYZ")) lib /\ some (fun c => In c (lit "0123456789.")) v /\
    flags <> [] /\ number <> [].

(** [out] has such a line in a section of needed versions. *)
Definition needs (out lib v : str) : Prop :=
  exists ls before header between l after,
    output_lines out ls /\ ls = before ++ header :: between ++ l :: after /\
    (exists h, header = lit "Version needs section '.gnu.version_r' contains " ++ h) /\
    Forall indented between /\ indented l /\ version_line l lib v.

(** Versions are numbers with dots between them, compared number by number. *)
Definition version_text (t : str) (v : list N) : Prop :=
  exists ts, ts <> [] /\ t = separated "." ts /\ Forall2 (fun t x => numeral 10 t = Some x) ts v.

Inductive older : list N -> list N -> Prop :=
| older_shorter x w : older [] (x :: w)
| older_number x y v w : x < y -> older (x :: v) (y :: w)
| older_later x v w : older v w -> older (x :: v) (x :: w).

Definition newest (out lib : str) (v : list N) : Prop :=
  (exists t, needs out lib t /\ version_text t v) /\
  forall t w, needs out lib t -> version_text t w -> w = v \/ older w v.

(** The entry for a library that is provided by the package [deb], if there is one. *)
Definition requirement (out lib deb : str) (entries : list str) : Prop :=
  (forall t, ~ needs out lib t) /\ entries = [] \/
  exists v ts, newest out lib v /\ Forall2 (usual 10) v ts /\ entries = [deb ++ lit " (>= " ++ separated "." ts ++ lit ")"].

(** What the field Depends is to say: of each library the newest version asked for. *)
Definition dependencies (out deps : str) : Prop :=
  (forall lib t, needs out lib t -> In lib [lit "GLIBC"; lit "GCC"] /\ exists v, version_text t v) /\
  exists c g, requirement out (lit "GLIBC") (lit "libc6") c /\ requirement out (lit "GCC") (lit "libgcc1") g /\
    deps = parted (lit ", ") (c ++ g).

(** The architecture of the package for the binary [f]: it is a 64-bit ELF file of a machine with a
    name. *)
Definition architecture (f name : str) : Prop :=
  exists order m0 m1 n, elf_header f (byte 2) order (byte 1) m0 m1 /\ machine_number order m0 m1 n /\ In (n, name) debian_names.

(** ** C104: the files of the package *)
Definition text_of_lines (ls : list str) : str := flat_map (fun l => l ++ [byte 10]) ls.

(** The line for the field [k] of a control file; there is just one. *)
Definition field (text k v : str) : Prop :=
  exists before after, text = text_of_lines (before ++ (k ++ lit ": " ++ v) :: after) /\
    ~ In (byte 10) v /\ Forall (fun l => ~ In (byte 10) l /\ forall v', l <> k ++ lit ": " ++ v') (before ++ after).

(** All bytes of all files. *)
Definition size (files : list (str * str)) : N := N.of_nat (List.length (flat_map snd files)).

(** The order of the alphabet (of the codes). *)
Inductive before_in_alphabet : str -> str -> Prop :=
| before_empty c t : before_in_alphabet [] (c :: t)
| before_char c d s t : N_of_ascii c < N_of_ascii d -> before_in_alphabet (c :: s) (d :: t)
| before_later c s t : before_in_alphabet s t -> before_in_alphabet (c :: s) (c :: t).

(** ** For examples *)
Definition demo_elf : str :=
  byte 127 :: lit "ELF" ++ [byte 2; byte 1; byte 1] ++ repeat (byte 0) 9 ++ [byte 3; byte 0; byte 62; byte 0] ++ lit "rest".
Definition demo_readelf : str :=
  text_of_lines [[]; lit "Version symbols section '.gnu.version' contains 2 entries:";
    lit "  0x0010:   Name: GLIBC_9.9  Flags: none  Version: 12";
    lit "Version needs section '.gnu.version_r' contains 2 entries:";
    lit " Addr: 0x0000000000001258  Offset: 0x001258  Link: 7 (.dynstr)";
    lit "  000000: Version: 1  File: libgcc_s.so.1  Cnt: 2";
    lit "  0x0010:   Name: GCC_3.0  Flags: none  Version: 9";
    lit "  0x0020:   Name: GCC_4.2.0  Flags: none  Version: 6";
    lit "  0x0030: Version: 1  File: libc.so.6  Cnt: 3";
    lit "  0x0040:   Name: GLIBC_2.18  Flags: none  Version: 4";
    lit "  0x0050:   Name: GLIBC_2.9  Flags: WEAK  Version: 3"; []].
(** Tools for examples: "checksums" that are lengths. *)
Definition demo_tools : Tools := {|
  git_count := lit "57" ++ [byte 10];
  mail_date := lit "Mon, 16 Nov 2026 12:00:00 +0000" ++ [byte 10];
  strip := fun f => firstn 20 f ++ repeat (byte 0) 1600;
  readelf := fun _ => demo_readelf;
  gzip := fun t => t;
  md5 := fun t => fmt_hex (N.of_nat (List.length t)) |}.
