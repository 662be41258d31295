(** * SpecText: the vocabulary for properties about text.

    Strings are lists of characters. Of the model only data types are used, none of its parsing and
    formatting functions. *)
From Verif Require Export RustBase Spec Parse.

(** The value of a digit, up to hexadecimal. *)
Definition digit (c : ascii) : option N :=
  match c with
  | "0" => Some 0 | "1" => Some 1 | "2" => Some 2 | "3" => Some 3 | "4" => Some 4
  | "5" => Some 5 | "6" => Some 6 | "7" => Some 7 | "8" => Some 8 | "9" => Some 9
  | "a" | "A" => Some 10 | "b" | "B" => Some 11 | "c" | "C" => Some 12
  | "d" | "D" => Some 13 | "e" | "E" => Some 14 | "f" | "F" => Some 15
  | _ => None
  end%char.

Definition digit_below (radix : N) (c : ascii) : option N :=
  match digit c with
  | Some d => if d <? radix then Some d else None
  | None => None
  end.

Fixpoint numeral_from (radix acc : N) (s : str) : option N :=
  match s with
  | [] => Some acc
  | c :: s' =>
      match digit_below radix c with
      | Some d => numeral_from radix (acc * radix + d) s'
      | None => None
      end
  end.

(** The number written by the non-empty digit string [s]; leading zeros allowed. *)
Definition numeral (radix : N) (s : str) : option N :=
  match s with [] => None | _ => numeral_from radix 0 s end.

(** Rust's integer parser tolerates one leading plus sign. *)
Definition written (radix : N) (s : str) (x : N) : Prop :=
  numeral radix s = Some x \/ exists s', s = "+"%char :: s' /\ numeral radix s' = Some x.

(** The usual way of writing [x]: lower case, no superfluous zero. *)
Definition upper_case (c : ascii) : Prop := In c (lit "ABCDEF").
Definition usual (radix x : N) (s : str) : Prop :=
  numeral radix s = Some x /\ Forall (fun c => ~ upper_case c) s /\
  (forall s', s = "0"%char :: s' -> s' = []).

(** Texts with a separator between them. *)
Fixpoint separated (c : ascii) (ts : list str) : str :=
  match ts with
  | [] => []
  | t :: ts' => match ts' with [] => t | _ => t ++ c :: separated c ts' end
  end.

(** ** IPv4: [s] is four numbers up to 255 with dots between them. *)
Definition v4_text (s : str) (a : addr V4) : Prop :=
  exists t0 t1 t2 t3 x0 x1 x2 x3,
    s = t0 ++ "."%char :: t1 ++ "."%char :: t2 ++ "."%char :: t3 /\
    written 10 t0 x0 /\ written 10 t1 x1 /\ written 10 t2 x2 /\ written 10 t3 x3 /\
    x0 <= 255 /\ x1 <= 255 /\ x2 <= 255 /\ x3 <= 255 /\
    value a = x0 * 2 ^ 24 + x1 * 2 ^ 16 + x2 * 2 ^ 8 + x3.

(** ** IPv6. *)
(** [t] writes the 16-bit group [g] in hexadecimal. *)
Definition group_text (g : N) (t : str) : Prop := written 16 t g /\ g <= 65535.

(** [t] is eight groups with colons between them. *)
Definition v6_full (t : str) (gs : list N) : Prop :=
  exists ts, List.length ts = 8%nat /\ Forall2 group_text gs ts /\ t = separated ":" ts.

(** [t] is groups [l], two colons, groups [r]; the colons stand for zeros. *)
Definition v6_short (t : str) (l r gs : list N) : Prop :=
  exists ls rs, Forall2 group_text l ls /\ Forall2 group_text r rs /\
    t = separated ":" ls ++ lit "::" ++ separated ":" rs /\
    gs = l ++ repeat 0 (8 - List.length l - List.length r) ++ r.

(** [s] with a zero added before a colon at the start and after one at the end. *)
Definition padded (s : str) : str :=
  let s := match s with ":"%char :: _ => "0"%char :: s | _ => s end in
  match rev s with ":"%char :: _ => s ++ lit "0" | _ => s end.

(** [a] is the address with groups [gs]. *)
Definition has_groups (a : addr V6) (gs : list N) : Prop :=
  valid a /\ List.length gs = 8%nat /\ u16s gs /\ value a = groups_value gs.

(** The groups from index [z], [k] of them, are zero. *)
Definition zero_run (gs : list N) (z k : nat) : Prop :=
  (1 <= k)%nat /\ (z + k <= 8)%nat /\ forall i, (z <= i < z + k)%nat -> nth_error gs i = Some 0.

(** It is the first of the longest such runs. *)
Definition first_longest_run (gs : list N) (z k : nat) : Prop :=
  zero_run gs z k /\
  forall z' k', zero_run gs z' k' -> (k' < k)%nat \/ (k' = k /\ (z <= z')%nat).

(** The longest run of zero groups, the first such, is a single group at the
    start or the end. *)
Definition lonely (gs : list N) : Prop := first_longest_run gs 0 1 \/ first_longest_run gs 7 1.

(** ** What the IPv6 parser reads: eight groups; groups around two colons that
    stand for at least one zero group, not counting the zero it adds to a text
    that starts or ends with a colon; or nothing at all. *)
Definition v6_text (s : str) (a : addr V6) : Prop :=
  exists gs, has_groups a gs /\
    (v6_full (padded s) gs \/
     (exists l r, l <> [] /\ r <> [] /\ (List.length l + List.length r <= 7)%nat /\
        v6_short (padded s) l r gs) \/
     (s = [] /\ gs = repeat 0 8)).

(** ** Network specifications: address, slash, possibly a minus sign, and a mask
    or a number. *)
Definition decimal (s : str) : Prop := s <> [] /\ Forall (fun c => In c (lit "0123456789")) s.
Definition dotted (s : str) : Prop :=
  exists t0 t1 t2 t3, decimal t0 /\ decimal t1 /\ decimal t2 /\ decimal t3 /\
    s = t0 ++ "."%char :: t1 ++ "."%char :: t2 ++ "."%char :: t3.
Definition hexcolon (s : str) : Prop := Forall (fun c => In c (lit "0123456789abcdef:")) s.

Definition addr_shape (F : family) (s : str) : Prop :=
  match F with V4 => dotted s | V6 => s <> [] /\ hexcolon s end.
Definition mask_shape (F : family) (s : str) : Prop :=
  match F with V4 => dotted s | V6 => hexcolon s /\ In ":"%char s end.

Definition spec_text (A : str) (w : bool) (M : str) : str :=
  A ++ "/"%char :: (if w then ["-"%char] else []) ++ M.

(** The text [s] is read as the address [a]. *)
Definition reads (F : family) : str -> addr F -> Prop :=
  match F as F return str -> addr F -> Prop with
  | V4 => fun s a => valid (F := V4) a /\ v4_text s a
  | V6 => v6_text
  end.

(** The network of the addresses that agree with [a] where [mask] has a one. *)
Definition network_of {F : family} (n : net F) (a : addr F) (mask : N) : Prop :=
  wf_net n /\ value (subnet_mask n) = mask /\ member n a.

(** The mask described by the part of a specification after the slash. *)
Definition describes (F : family) (w : bool) (M : str) (mask : N) : Prop :=
  (exists m : addr F, mask_shape F M /\ reads F M m /\
     mask = if w then 2 ^ width F - 1 - value m else value m) \/
  (exists p, numeral 10 M = Some p /\ p <= width F /\
     mask = prefix_mask F (if w then width F - p else p)).

(** The results of parsing, by family. *)
Definition spec_of (F : family) : addr F -> net F -> network_spec :=
  match F as F return addr F -> net F -> network_spec with V4 => Spec4 | V6 => Spec6 end.
Definition specs_of (F : family) : list (addr F * net F) -> network_specs :=
  match F as F return list (addr F * net F) -> network_specs with V4 => Specs4 | V6 => Specs6 end.
Definition parsed_of (F : family) : addr F -> parsed_addr :=
  match F as F return addr F -> parsed_addr with V4 => PAddr4 | V6 => PAddr6 end.

(** The IPv6 addresses whose text the parser rejects. *)
Definition unreadable (F : family) : addr F -> Prop :=
  match F as F return addr F -> Prop with
  | V4 => fun _ => False
  | V6 => fun a => exists gs, has_groups a gs /\ lonely gs
  end.
