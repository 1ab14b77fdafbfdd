(* What reporting the modules of a process promises. *)
From Verif Require Import Base ProcModel.

(* ---- the text of a line ---- *)
Definition hexdigit (c : Z) (d : Z) : Prop := (d = c - 48 /\ 48 <= c <= 57) \/ (d = c - 87 /\ 97 <= c <= 102).
(* a text that is the number v in a base *)
Inductive writes (base : Z) : bytes -> Z -> Prop :=
| W1 : forall c d, hexdigit c d -> d < base -> writes base [c] d
| W2 : forall s v c d, writes base s v -> hexdigit c d -> d < base -> writes base (s ++ [c]) (v * base + d).
Definition blank (s : bytes) : Prop := Forall (fun c => c = 32) s.
Definition word (s : bytes) : Prop := s <> [] /\ Forall (fun c => is_ws c = false) s.

(* ---- the modules ---- *)
(* what a line stands for: the special mapping, a mapping of a file, both or neither *)
Inductive item := V (s e : Z) | F (l : mline).
Definition special_line (vdso : Z) (l : mline) : Prop := m_start l = vdso /\ vdso <> 0.
Definition file_line (l : mline) : Prop := (exists r, m_name l = 47 :: r) /\ ~ (m_ino l = 0 /\ m_maj l = 0 /\ m_min l = 0).
Inductive items_of (vdso : Z) : list mline -> list item -> Prop :=
| I0 : items_of vdso [] []
| I1 : forall l r a b i, items_of vdso r i ->
    ((special_line vdso l /\ a = [V (m_start l) (m_end l)]) \/ (~ special_line vdso l /\ a = [])) ->
    ((file_line l /\ b = [F l]) \/ (~ file_line l /\ b = [])) ->
    items_of vdso (l :: r) (a ++ b ++ i).

(* a group of items that makes one module *)
Definition same_file (k : key) (g : list item) : Prop := g <> [] /\ Forall (fun x => exists l, x = F l /\ key_of l = k) g.
Definition kind (g : list item) : option key := match g with F l :: _ => Some (key_of l) | _ => None end.
Definition one_module (g : list item) : Prop := (exists s e, g = [V s e]) \/ (exists k, same_file k g).
(* groups are as large as can be *)
Definition apart (gs : list (list item)) : Prop := forall a g h b, gs = a ++ g :: h :: b -> kind g = None \/ kind g <> kind h.
Definition start_of (x : item) : Z := match x with V s _ => s | F l => m_start l end.
Definition end_of (x : item) : Z := match x with V _ e => e | F l => m_end l end.
Definition name_of (vname : bytes) (x : item) : bytes := match x with V _ _ => vname | F l => m_name l end.
Definition module_of (vname : bytes) (g : list item) : modl :=
  (name_of vname (hd (V 0 0) g), start_of (hd (V 0 0) g), end_of (last g (V 0 0))).
(* all lines of a group have the name of its first *)
Definition one_name (vname : bytes) (g : list item) : Prop := Forall (fun x => name_of vname x = name_of vname (hd (V 0 0) g)) g.

(* the kernel gives lines in ascending order, without overlap *)
Fixpoint ascending (low : Z) (l : list (Z * Z)) : Prop :=
  match l with [] => True | (s, e) :: r => low <= s /\ s <= e /\ ascending e r end.
(* the names of the lines of one file agree *)
Definition names_agree (ls : list mline) : Prop :=
  forall x y, In x ls -> In y ls -> file_line x -> file_line y -> key_of x = key_of y -> m_name x = m_name y.

(* ---- the auxiliary vector ---- *)
(* a file that is a sequence of entries of two words of w bytes, and perhaps the start of one more *)
Definition vector (w : Z) (f : bytes) (es : list (bytes * bytes)) : Prop :=
  exists tail, f = concat (map (fun e => fst e ++ snd e) es) ++ tail /\ zlen tail < 2 * w /\ Forall (fun e => zlen (fst e) = w /\ zlen (snd e) = w) es.
(* the value of the last entry of a type, if there is one *)
Definition last_of (dec : bytes -> Z) (t : Z) (es : list (bytes * bytes)) (dflt v : Z) : Prop :=
  (exists a e b, es = a ++ e :: b /\ dec (fst e) = t /\ v = dec (snd e) /\ Forall (fun x => dec (fst x) <> t) b) \/
  (Forall (fun x => dec (fst x) <> t) es /\ v = dflt).
Definition AT_PAGESZ : Z := 6.
Definition AT_SYSINFO_EHDR : Z := 33.
Definition reading (dec : bytes -> Z) (w : Z) (f : bytes) (align : Z) (vdso page : Z) : Prop :=
  exists es, vector w f es /\ last_of dec AT_SYSINFO_EHDR es 0 vdso /\ last_of dec AT_PAGESZ es align page.
