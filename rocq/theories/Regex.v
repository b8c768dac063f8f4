(** A backtracking regular-expression matcher with the semantics of CPython's
    [re] for the constructs used by castep_outputs.

    The matcher is written in continuation-passing style: alternatives are
    tried in the same order as [re] does, and the first overall success wins.
    Nothing here models a file of /repo; the patterns themselves are in
    [CastepRes.v].  Simplification: every iteration of a repetition must
    consume at least one character (true of all the patterns modelled). *)
From Verif Require Import PyBase.

Inductive re : Type :=
| REps                                             (* empty pattern *)
| RChr (f : ascii -> bool)                         (* one character of a class *)
| RSeq (a b : re)
| RAlt (a b : re)                                  (* a|b *)
| RRep (greedy : bool) (lo : nat) (hi : option nat) (a : re)   (* a{lo,hi} / a{lo,hi}? *)
| RGrp (name : string) (a : re)                    (* (?P<name>a) *)
| RAhead (positive : bool) (a : re)                (* (?=a) / (?!a) *)
| RBehind (positive : bool) (f : ascii -> bool)    (* (?<=c) / (?<!c), one character *)
| RBol                                             (* ^ *)
| REol                                             (* $ *)
| RWordB                                           (* \b *)
| RBackref (name : string)                         (* \1, (?P=name) *)
| RCond (name : string) (a b : re).                (* (?(name)a|b) *)

(** Captured groups, latest first. *)
Definition caps := list (string * str).

Fixpoint cap (c : caps) (n : string) : option str :=
  match c with
  | [] => None
  | (n', v) :: c' => if String.eqb n' n then Some v else cap c' n
  end.

(** A position is the preceding character (if any) and the remaining text. *)
Definition kont (R : Type) := option ascii -> str -> caps -> option R.
Definition mt (R : Type) := option ascii -> str -> caps -> kont R -> option R.

Definition orelse {A} (a : option A) (b : option A) : option A :=
  match a with Some x => Some x | None => b end.

(** Exactly [n] iterations. *)
Fixpoint rep_lo {R} (M : mt R) (n : nat) (p : option ascii) (s : str) (c : caps) (k : kont R)
  : option R :=
  match n with
  | O => k p s c
  | S n' => M p s c (fun p' s' c' => rep_lo M n' p' s' c' k)
  end.

(** Up to [n] further iterations, as many (greedy) or as few (lazy) as possible. *)
Fixpoint rep_hi {R} (M : mt R) (greedy : bool) (n : nat)
  (p : option ascii) (s : str) (c : caps) (k : kont R) : option R :=
  match n with
  | O => k p s c
  | S n' =>
      if greedy
      then match M p s c (fun p' s' c' =>
                   if length s' <? length s then rep_hi M greedy n' p' s' c' k else None) with
           | Some x => Some x
           | None => k p s c
           end
      else match k p s c with
           | Some x => Some x
           | None => M p s c (fun p' s' c' =>
                   if length s' <? length s then rep_hi M greedy n' p' s' c' k else None)
           end
  end.

Definition at_end (s : str) : bool :=
  match s with
  | [] => true
  | [c] => Ascii.eqb c newline
  | _ => false
  end.

Definition word_boundary (p : option ascii) (s : str) : bool :=
  let w o := match o with Some c => is_word c | None => false end in
  negb (Bool.eqb (w p) (w (hd_error s))).

Fixpoint m {R : Type} (r : re) (p : option ascii) (s : str) (c : caps) (k : kont R) {struct r}
  : option R :=
  match r with
  | REps => k p s c
  | RChr f => match s with
              | [] => None
              | x :: s' => if f x then k (Some x) s' c else None
              end
  | RSeq a b => m a p s c (fun p' s' c' => m b p' s' c' k)
  | RAlt a b => match m a p s c k with
                | Some x => Some x
                | None => m b p s c k
                end
  | RRep g lo hi a =>
      rep_lo (m a) lo p s c
        (fun p' s' c' => rep_hi (m a) g (match hi with Some h => h - lo | None => length s' end)
                           p' s' c' k)
  | RGrp n a => m a p s c (fun p' s' c' => k p' s' ((n, firstn (length s - length s') s) :: c'))
  | RAhead true a => match m a p s c (fun _ _ c' => Some c') with
                     | Some c' => k p s c'
                     | None => None
                     end
  | RAhead false a => match m a p s c (fun _ _ c' => Some c') with
                      | Some _ => None
                      | None => k p s c
                      end
  | RBehind b f => if Bool.eqb b (match p with Some x => f x | None => false end)
                   then k p s c else None
  | RBol => match p with None => k p s c | Some _ => None end
  | REol => if at_end s then k p s c else None
  | RWordB => if word_boundary p s then k p s c else None
  | RBackref n => match cap c n with
                  | None => None
                  | Some v => match strip_prefix v s with
                              | None => None
                              | Some s' => k (match rev v with x :: _ => Some x | [] => p end) s' c
                              end
                  end
  | RCond n a b => match cap c n with
                   | Some _ => m a p s c k
                   | None => m b p s c k
                   end
  end.

(** A match: the text of group 0, the groups, and the position after it. *)
Record mres := { m_text : str; m_caps : caps; m_prev : option ascii; m_rest : str }.

Definition match_at (r : re) (p : option ascii) (s : str) : option mres :=
  m r p s [] (fun p' s' c' =>
    Some {| m_text := firstn (length s - length s') s; m_caps := c'; m_prev := p'; m_rest := s' |}).

(** [re.match(r, s)]. *)
Definition re_match (r : re) (s : str) : option mres := match_at r None s.

(** [re.search(r, s)]: the skipped text and the match. *)
Fixpoint search_from (r : re) (p : option ascii) (s : str) : option (str * mres) :=
  match match_at r p s with
  | Some x => Some ([], x)
  | None => match s with
            | [] => None
            | c :: s' => match search_from r (Some c) s' with
                         | Some (pre, x) => Some (c :: pre, x)
                         | None => None
                         end
            end
  end.
Definition re_search (r : re) (s : str) : option mres := option_map snd (search_from r None s).
Definition re_test (r : re) (s : str) : bool :=
  match re_search r s with Some _ => true | None => false end.
Definition re_match_test (r : re) (s : str) : bool :=
  match re_match r s with Some _ => true | None => false end.

(** [re.finditer(r, s)]: non-overlapping matches from the left, each with the
    text skipped before it.  (For an empty match the scan moves on by one
    character.) *)
Fixpoint iter_from (fuel : nat) (r : re) (p : option ascii) (s : str) : list (str * mres) :=
  match fuel with
  | O => []
  | S f =>
      match search_from r p s with
      | None => []
      | Some (pre, x) =>
          (pre, x) ::
          (match m_text x with
           | _ :: _ => iter_from f r (m_prev x) (m_rest x)
           | [] => match m_rest x with
                   | [] => []
                   | ch :: s' => iter_from f r (Some ch) s'
                   end
           end)
      end
  end.
Definition finditer (r : re) (s : str) : list mres :=
  map snd (iter_from (S (length s)) r None s).
(** [r.findall(s)] for a pattern without groups. *)
Definition findall (r : re) (s : str) : list str := map m_text (finditer r s).

(** [r.sub(rep, s)] for a literal replacement, patterns not matching the empty string. *)
Fixpoint sub_from (fuel : nat) (r : re) (rep : str) (p : option ascii) (s : str) : str :=
  match fuel with
  | O => s
  | S f =>
      match search_from r p s with
      | None => s
      | Some (pre, x) =>
          match m_text x with
          | _ :: _ => pre ++ rep ++ sub_from f r rep (m_prev x) (m_rest x)
          | [] => s
          end
      end
  end.
Definition re_sub (r : re) (rep : str) (s : str) : str := sub_from (S (length s)) r rep None s.

(** ** Pattern-building shorthands *)
Definition RChar (c : ascii) : re := RChr (Ascii.eqb c).
Fixpoint RLit_l (s : str) : re :=
  match s with [] => REps | [c] => RChar c | c :: s' => RSeq (RChar c) (RLit_l s') end.
Definition RLit (s : string) : re := RLit_l (list_ascii_of_string s).
(** A literal under IGNORECASE. *)
Definition RCharI (c : ascii) : re := RChr (fun x => Ascii.eqb (lower_c c) (lower_c x)).
Fixpoint RLitI_l (s : str) : re :=
  match s with [] => REps | [c] => RCharI c | c :: s' => RSeq (RCharI c) (RLitI_l s') end.
Definition RLitI (s : string) : re := RLitI_l (list_ascii_of_string s).
Fixpoint RSeqs (l : list re) : re :=
  match l with [] => REps | [a] => a | a :: l' => RSeq a (RSeqs l') end.
Fixpoint RAlts (l : list re) : re :=
  match l with [] => RChr (fun _ => false) | [a] => a | a :: l' => RAlt a (RAlts l') end.
Definition RStar (a : re) := RRep true 0 None a.
Definition RPlus (a : re) := RRep true 1 None a.
Definition ROpt (a : re) := RRep true 0 (Some 1) a.
Definition RPlusLazy (a : re) := RRep false 1 None a.
Definition RTimes (n : nat) (a : re) := RRep true n (Some n) a.

Definition c_space := RChr is_space.                 (* \s *)
Definition c_nspace := RChr (fun c => negb (is_space c)).  (* \S *)
Definition c_digit := RChr is_digit.                 (* \d *)
Definition c_word := RChr is_word.                   (* \w *)
Definition c_any := RChr (fun c => negb (Ascii.eqb c newline)).  (* . *)
Definition c_of (s : string) := RChr (fun c => chr_in c (list_ascii_of_string s)).   (* [abc] *)
Definition c_notof (s : string) := RChr (fun c => negb (chr_in c (list_ascii_of_string s))).  (* [^abc] *)
Definition ws_star := RStar c_space.
Definition ws_plus := RPlus c_space.
