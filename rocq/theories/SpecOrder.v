(** * SpecOrder: what a comparison should be (C90) *)
From Verif Require Export Spec.

(** A total order in which only equal values compare equal. *)
Record total_order {T : Type} (cmp : T -> T -> comparison) : Prop := {
  same_eq : forall a b, cmp a b = Eq <-> a = b;
  other_way : forall a b, cmp a b = Lt <-> cmp b a = Gt;
  goes_on : forall a b c, cmp a b = Lt -> cmp b c = Lt -> cmp a c = Lt
}.

(** The orders in full: what is declared first decides first. *)
From Verif Require Import Addr Net Parse Console.
Definition addr_before {F : family} (a b : addr F) : Prop := value a < value b.
Definition prefix_before (p q : option N) : Prop :=
  match p, q with None, Some _ => True | Some p, Some q => p < q | _, None => False end.
Definition net_before {F : family} (n n' : net F) : Prop :=
  addr_before (base_addr n) (base_addr n') \/ base_addr n = base_addr n' /\
    (addr_before (subnet_mask n) (subnet_mask n') \/ subnet_mask n = subnet_mask n' /\
       prefix_before (cidr_prefix n) (cidr_prefix n')).
(** An address together with a network. *)
Definition both_before {F : family} (x y : addr F * net F) : Prop :=
  addr_before (fst x) (fst y) \/ fst x = fst y /\ net_before (snd x) (snd y).
(** The order of a dictionary. *)
Inductive dictionary {T : Type} (lt : T -> T -> Prop) : list T -> list T -> Prop :=
| dictionary_shorter x l : dictionary lt [] (x :: l)
| dictionary_first x y l l' : lt x y -> dictionary lt (x :: l) (y :: l')
| dictionary_later x l l' : dictionary lt l l' -> dictionary lt (x :: l) (x :: l').

(** The places of the variants in their declarations. *)
Definition parsed_place (a : parsed_addr) : N := match a with PAddr4 _ => 0 | PAddr6 _ => 1 end.
Definition spec_place (s : network_spec) : N := match s with Spec4 _ _ => 0 | Spec6 _ _ => 1 end.
Definition specs_place (s : network_specs) : N :=
  match s with SpecsNothing => 0 | SpecsMixed => 1 | Specs4 _ => 2 | Specs6 _ => 3 end.
Definition subnet_place (s : parsed_subnet) : N := match s with PSCidr _ => 0 | PSMask4 _ => 1 | PSMask6 _ => 2 end.
Definition color_place (c : color) : N :=
  match c with
  | Black => 0 | DarkBlue => 1 | DarkGreen => 2 | DarkCyan => 3 | DarkRed => 4 | DarkMagenta => 5 | DarkYellow => 6 | Gray => 7
  | DarkGray => 8 | Blue => 9 | Green => 10 | Cyan => 11 | Red => 12 | Magenta => 13 | Yellow => 14 | White => 15
  end.

Definition spec_before (s s' : network_spec) : Prop :=
  spec_place s < spec_place s' \/
  match s, s' with
  | Spec4 a n, Spec4 b m => both_before (F := V4) (a, n) (b, m)
  | Spec6 a n, Spec6 b m => both_before (F := V6) (a, n) (b, m)
  | _, _ => False
  end.
Definition specs_before (s s' : network_specs) : Prop :=
  specs_place s < specs_place s' \/
  match s, s' with
  | Specs4 l, Specs4 l' => dictionary (both_before (F := V4)) l l'
  | Specs6 l, Specs6 l' => dictionary (both_before (F := V6)) l l'
  | _, _ => False
  end.
Definition subnet_before (s s' : parsed_subnet) : Prop :=
  subnet_place s < subnet_place s' \/
  match s, s' with
  | PSCidr p, PSCidr q => p < q
  | PSMask4 m, PSMask4 m' => addr_before (F := V4) m m'
  | PSMask6 m, PSMask6 m' => addr_before (F := V6) m m'
  | _, _ => False
  end.

(** Values made of machine words. *)
Definition sound_both {F : family} (x : addr F * net F) : Prop :=
  valid (fst x) /\ valid (base_addr (snd x)) /\ valid (subnet_mask (snd x)).
Definition sound_spec (s : network_spec) : Prop :=
  match s with Spec4 a n => sound_both (F := V4) (a, n) | Spec6 a n => sound_both (F := V6) (a, n) end.
Definition sound_specs (s : network_specs) : Prop :=
  match s with
  | Specs4 l => Forall (sound_both (F := V4)) l
  | Specs6 l => Forall (sound_both (F := V6)) l
  | _ => True
  end.
Definition sound_subnet (s : parsed_subnet) : Prop :=
  match s with PSCidr _ => True | PSMask4 m => valid (F := V4) m | PSMask6 m => valid (F := V6) m end.
