(** Per-document parser state and the On*/End* handlers of xml*.go.

    Handlers get the type resolver [gvt value tree world] (GetValueType) as a
    parameter.  When a handler returns a Go error Parse returns at once, and
    nobody in the repository looks at the parser's own fields afterwards, so
    [Fail] carries only the world. *)

From Coq Require Import String Ascii List NArith ZArith Bool.
From Verif Require Import GoStr Base Utils World.
Import ListNotations.
Local Open Scope string_scope.

(** An entry of ProtoTree while parsing.  Elements are pointers that can also
    still be on the Element stack and be modified through it (xmlElement.go:58
    and :90 push the same pointer twice, xmlCharData.go:29, xmlLength.go:18), so
    they are references into a heap; everything else is no longer reachable
    from a stack once it is in the tree. *)
Inductive pnode : Type := PN (p : proto) | PRef (i : nat).

(** parser.go:37-52.  Stacks are lists with the top first (stack.go; the
    refinement to container/list is property C04). *)
Record PState : Type := mkP {
  p_tree : list pnode;  (* ProtoTree *)
  p_heap : list Element;  (* every Element object allocated so far *)
  p_in_element : string;  (* InElement *)
  p_current : string;  (* CurrentEle *)
  p_in_group : Z;  (* InGroup *)
  p_in_union : bool;  (* InUnion *)
  p_in_ag : bool;  (* InAttributeGroup *)
  p_simple : list SimpleType;  (* SimpleType *)
  p_complex : list ComplexType;  (* ComplexType *)
  p_element : list nat;  (* Element (heap references) *)
  p_attribute : list Attribute;  (* Attribute *)
  p_group : list Group;  (* Group *)
  p_attrgroup : list AttributeGroup;  (* AttributeGroup *)
  p_choice : list bool  (* Choice (only Plural is ever used) *)
}.

Definition set_tree (v : list pnode) (p : PState) : PState :=
  mkP v (p_heap p) (p_in_element p) (p_current p) (p_in_group p) (p_in_union p) (p_in_ag p) (p_simple p) (p_complex p) (p_element p) (p_attribute p) (p_group p) (p_attrgroup p) (p_choice p).
Definition set_heap (v : list Element) (p : PState) : PState :=
  mkP (p_tree p) v (p_in_element p) (p_current p) (p_in_group p) (p_in_union p) (p_in_ag p) (p_simple p) (p_complex p) (p_element p) (p_attribute p) (p_group p) (p_attrgroup p) (p_choice p).
Definition set_in_element (v : string) (p : PState) : PState :=
  mkP (p_tree p) (p_heap p) v (p_current p) (p_in_group p) (p_in_union p) (p_in_ag p) (p_simple p) (p_complex p) (p_element p) (p_attribute p) (p_group p) (p_attrgroup p) (p_choice p).
Definition set_current (v : string) (p : PState) : PState :=
  mkP (p_tree p) (p_heap p) (p_in_element p) v (p_in_group p) (p_in_union p) (p_in_ag p) (p_simple p) (p_complex p) (p_element p) (p_attribute p) (p_group p) (p_attrgroup p) (p_choice p).
Definition set_in_group (v : Z) (p : PState) : PState :=
  mkP (p_tree p) (p_heap p) (p_in_element p) (p_current p) v (p_in_union p) (p_in_ag p) (p_simple p) (p_complex p) (p_element p) (p_attribute p) (p_group p) (p_attrgroup p) (p_choice p).
Definition set_in_union (v : bool) (p : PState) : PState :=
  mkP (p_tree p) (p_heap p) (p_in_element p) (p_current p) (p_in_group p) v (p_in_ag p) (p_simple p) (p_complex p) (p_element p) (p_attribute p) (p_group p) (p_attrgroup p) (p_choice p).
Definition set_in_ag (v : bool) (p : PState) : PState :=
  mkP (p_tree p) (p_heap p) (p_in_element p) (p_current p) (p_in_group p) (p_in_union p) v (p_simple p) (p_complex p) (p_element p) (p_attribute p) (p_group p) (p_attrgroup p) (p_choice p).
Definition set_simple (v : list SimpleType) (p : PState) : PState :=
  mkP (p_tree p) (p_heap p) (p_in_element p) (p_current p) (p_in_group p) (p_in_union p) (p_in_ag p) v (p_complex p) (p_element p) (p_attribute p) (p_group p) (p_attrgroup p) (p_choice p).
Definition set_complex (v : list ComplexType) (p : PState) : PState :=
  mkP (p_tree p) (p_heap p) (p_in_element p) (p_current p) (p_in_group p) (p_in_union p) (p_in_ag p) (p_simple p) v (p_element p) (p_attribute p) (p_group p) (p_attrgroup p) (p_choice p).
Definition set_element (v : list nat) (p : PState) : PState :=
  mkP (p_tree p) (p_heap p) (p_in_element p) (p_current p) (p_in_group p) (p_in_union p) (p_in_ag p) (p_simple p) (p_complex p) v (p_attribute p) (p_group p) (p_attrgroup p) (p_choice p).
Definition set_attribute (v : list Attribute) (p : PState) : PState :=
  mkP (p_tree p) (p_heap p) (p_in_element p) (p_current p) (p_in_group p) (p_in_union p) (p_in_ag p) (p_simple p) (p_complex p) (p_element p) v (p_group p) (p_attrgroup p) (p_choice p).
Definition set_group (v : list Group) (p : PState) : PState :=
  mkP (p_tree p) (p_heap p) (p_in_element p) (p_current p) (p_in_group p) (p_in_union p) (p_in_ag p) (p_simple p) (p_complex p) (p_element p) (p_attribute p) v (p_attrgroup p) (p_choice p).
Definition set_attrgroup (v : list AttributeGroup) (p : PState) : PState :=
  mkP (p_tree p) (p_heap p) (p_in_element p) (p_current p) (p_in_group p) (p_in_union p) (p_in_ag p) (p_simple p) (p_complex p) (p_element p) (p_attribute p) (p_group p) v (p_choice p).
Definition set_choice (v : list bool) (p : PState) : PState :=
  mkP (p_tree p) (p_heap p) (p_in_element p) (p_current p) (p_in_group p) (p_in_union p) (p_in_ag p) (p_simple p) (p_complex p) (p_element p) (p_attribute p) (p_group p) (p_attrgroup p) v.

(** parser.go:84-98 *)
Definition p_init : PState := mkP [] [] "" "" 0 false false [] [] [] [] [] [] [].

Definition zero_element : Element := mkElement "" "" "" false false.
Definition deref (heap : list Element) (i : nat) : Element := nth i heap zero_element.

(** The tree with the present values of the Elements it points to. *)
Definition freeze_node (heap : list Element) (n : pnode) : proto :=
  match n with PN p => p | PRef i => PElement (deref heap i) end.
Definition freeze (p : PState) : list proto := map (freeze_node (p_heap p)) (p_tree p).

Fixpoint update_nth {A} (i : nat) (f : A -> A) (l : list A) : list A :=
  match l, i with
  | [], _ => []
  | x :: r, O => f x :: r
  | x :: r, S i' => x :: update_nth i' f r
  end.

Definition append_tree (n : pnode) (p : PState) : PState := set_tree (p_tree p ++ [n]) p.

(** opt.ProtoTree = append(opt.ProtoTree, stack.Pop()): an empty stack pops nil *)
Definition pop_node {A} (mk : A -> proto) (st : list A) : pnode :=
  match st with [] => PN PNil | x :: _ => PN (mk x) end.

(** Modify the top of a stack *)
Definition on_top {A} (f : A -> A) (st : list A) : list A :=
  match st with [] => [] | x :: r => f x :: r end.

(** Modify the Element on top of the Element stack through its pointer *)
Definition on_top_element (f : Element -> Element) (p : PState) : PState :=
  match p_element p with
  | [] => p
  | i :: _ => set_heap (update_nth i f (p_heap p)) p
  end.

Definition el_set_type (t : string) (e : Element) : Element :=
  mkElement (el_doc e) (el_name e) t (el_plural e) (el_optional e).
Definition el_set_doc (d : string) (e : Element) : Element :=
  mkElement d (el_name e) (el_type e) (el_plural e) (el_optional e).
Definition el_set_name (n : string) (e : Element) : Element :=
  mkElement (el_doc e) n (el_type e) (el_plural e) (el_optional e).
Definition el_set_plural (b : bool) (e : Element) : Element :=
  mkElement (el_doc e) (el_name e) (el_type e) b (el_optional e).

Definition at_set_name (n : string) (a : Attribute) : Attribute :=
  mkAttribute n (at_doc a) (at_type a) (at_plural a) (at_optional a).
Definition at_set_doc (d : string) (a : Attribute) : Attribute :=
  mkAttribute (at_name a) d (at_type a) (at_plural a) (at_optional a).
Definition at_set_type (t : string) (a : Attribute) : Attribute :=
  mkAttribute (at_name a) (at_doc a) t (at_plural a) (at_optional a).
Definition at_set_optional (b : bool) (a : Attribute) : Attribute :=
  mkAttribute (at_name a) (at_doc a) (at_type a) (at_plural a) b.

Definition st_set_doc (d : string) (s : SimpleType) : SimpleType :=
  mkSimple d (st_name s) (st_base s) (st_list s) (st_union s) (st_members s) (st_enum s).
Definition st_set_name (n : string) (s : SimpleType) : SimpleType :=
  mkSimple (st_doc s) n (st_base s) (st_list s) (st_union s) (st_members s) (st_enum s).
Definition st_set_base (b : string) (s : SimpleType) : SimpleType :=
  mkSimple (st_doc s) (st_name s) b (st_list s) (st_union s) (st_members s) (st_enum s).
Definition st_set_list (b : bool) (s : SimpleType) : SimpleType :=
  mkSimple (st_doc s) (st_name s) (st_base s) b (st_union s) (st_members s) (st_enum s).
Definition st_set_union (b : bool) (s : SimpleType) : SimpleType :=
  mkSimple (st_doc s) (st_name s) (st_base s) (st_list s) b (st_members s) (st_enum s).
Definition st_set_members (m : smap string) (s : SimpleType) : SimpleType :=
  mkSimple (st_doc s) (st_name s) (st_base s) (st_list s) (st_union s) m (st_enum s).
Definition st_set_enum (l : list string) (s : SimpleType) : SimpleType :=
  mkSimple (st_doc s) (st_name s) (st_base s) (st_list s) (st_union s) (st_members s) l.

Definition ct_set_doc (d : string) (c : ComplexType) : ComplexType :=
  mkComplex d (ct_name c) (ct_base c) (ct_elements c) (ct_attributes c) (ct_groups c) (ct_attrgroups c).
Definition ct_set_name (n : string) (c : ComplexType) : ComplexType :=
  mkComplex (ct_doc c) n (ct_base c) (ct_elements c) (ct_attributes c) (ct_groups c) (ct_attrgroups c).
Definition ct_set_base (b : string) (c : ComplexType) : ComplexType :=
  mkComplex (ct_doc c) (ct_name c) b (ct_elements c) (ct_attributes c) (ct_groups c) (ct_attrgroups c).
Definition ct_set_elements (l : list Element) (c : ComplexType) : ComplexType :=
  mkComplex (ct_doc c) (ct_name c) (ct_base c) l (ct_attributes c) (ct_groups c) (ct_attrgroups c).
Definition ct_set_attributes (l : list Attribute) (c : ComplexType) : ComplexType :=
  mkComplex (ct_doc c) (ct_name c) (ct_base c) (ct_elements c) l (ct_groups c) (ct_attrgroups c).
Definition ct_set_groups (l : list Group) (c : ComplexType) : ComplexType :=
  mkComplex (ct_doc c) (ct_name c) (ct_base c) (ct_elements c) (ct_attributes c) l (ct_attrgroups c).
Definition ct_set_attrgroups (l : list AttributeGroup) (c : ComplexType) : ComplexType :=
  mkComplex (ct_doc c) (ct_name c) (ct_base c) (ct_elements c) (ct_attributes c) (ct_groups c) l.

Definition gr_set_name (n : string) (g : Group) : Group :=
  mkGroup (gr_doc g) n (gr_elements g) (gr_groups g) (gr_plural g) (gr_ref g).
Definition gr_set_ref (r : string) (g : Group) : Group :=
  mkGroup (gr_doc g) (gr_name g) (gr_elements g) (gr_groups g) (gr_plural g) r.
Definition gr_set_plural (b : bool) (g : Group) : Group :=
  mkGroup (gr_doc g) (gr_name g) (gr_elements g) (gr_groups g) b (gr_ref g).
Definition gr_set_elements (l : list Element) (g : Group) : Group :=
  mkGroup (gr_doc g) (gr_name g) l (gr_groups g) (gr_plural g) (gr_ref g).
Definition gr_set_groups (l : list Group) (g : Group) : Group :=
  mkGroup (gr_doc g) (gr_name g) (gr_elements g) l (gr_plural g) (gr_ref g).

Definition ag_set_doc (d : string) (a : AttributeGroup) : AttributeGroup :=
  mkAttrGroup d (ag_name a) (ag_ref a) (ag_attributes a).
Definition ag_set_name (n : string) (a : AttributeGroup) : AttributeGroup :=
  mkAttrGroup (ag_doc a) n (ag_ref a) (ag_attributes a).
Definition ag_set_ref (r : string) (a : AttributeGroup) : AttributeGroup :=
  mkAttrGroup (ag_doc a) (ag_name a) r (ag_attributes a).
Definition ag_set_attributes (l : list Attribute) (a : AttributeGroup) : AttributeGroup :=
  mkAttrGroup (ag_doc a) (ag_name a) (ag_ref a) l.

Definition nonempty {A} (l : list A) : bool := match l with [] => false | _ => true end.

(** maxOccurs of xmlChoice.go:22-32 and xmlElement.go:37-45: [None] is the
    strconv.Atoi error, otherwise the plurality. *)
Definition max_occurs (v : string) : option bool :=
  if String.eqb v "unbounded" then Some true
  else match atoi v with
       | None => None
       | Some n => Some (1 <? n)%Z
       end.

(** opt.Choice.Len() > 0 && opt.Choice.Peek().Plural *)
Definition choice_plural (p : PState) : bool :=
  match p_choice p with [] => false | b :: _ => b end.

Section Handlers.
Context {E : Env}.
Variable gvt : string -> list proto -> World -> out string.

(** xmlAttribute.go:19-41 *)
Fixpoint attribute_attrs (tree : list proto) (l : list xattr) (a : Attribute) (w : World)
  : out Attribute :=
  match l with
  | [] => Ret a w
  | x :: r =>
      let k := a_local x in let v := a_value x in
      if String.eqb k "ref" then
        bind (gvt v tree w) (fun t w => attribute_attrs tree r (at_set_type t (at_set_name v a)) w)
      else if String.eqb k "name" then attribute_attrs tree r (at_set_name v a) w
      else if String.eqb k "type" then
        bind (gvt v tree w) (fun t w => attribute_attrs tree r (at_set_type t a) w)
      else if String.eqb k "use" then
        attribute_attrs tree r (if String.eqb v "required" then at_set_optional false a else a) w
      else attribute_attrs tree r a w
  end.

(** xmlAttribute.go:15-44 OnAttribute *)
Definition on_attribute (l : list xattr) (p : PState) (w : World) : out PState :=
  bind (attribute_attrs (freeze p) l (mkAttribute "" "" "" false true) w)
       (fun a w => Ret (set_attribute (a :: p_attribute p) p) w).

(** xmlAttribute.go:47-63 EndAttribute *)
Definition end_attribute (p : PState) (w : World) : out PState :=
  match p_attribute p with
  | [] => Ret p w
  | a :: r =>
      let p' := set_attribute r p in
      if nonempty (p_attrgroup p) then
        Ret (set_attrgroup (on_top (fun g => ag_set_attributes (ag_attributes g ++ [a]) g) (p_attrgroup p)) p') w
      else if nonempty (p_complex p) then
        Ret (set_complex (on_top (fun c => ct_set_attributes (ct_attributes c ++ [a]) c) (p_complex p)) p') w
      else Ret (append_tree (PN (PAttribute a)) p') w
  end.

(** xmlAttributeGroup.go:19-30 *)
Fixpoint attrgroup_attrs (tree : list proto) (l : list xattr) (a : AttributeGroup) (w : World)
  : out AttributeGroup :=
  match l with
  | [] => Ret a w
  | x :: r =>
      let k := a_local x in let v := a_value x in
      if String.eqb k "name" then attrgroup_attrs tree r (ag_set_name v a) w
      else if String.eqb k "ref" then
        bind (gvt v tree w) (fun t w => attrgroup_attrs tree r (ag_set_ref t (ag_set_name v a)) w)
      else attrgroup_attrs tree r a w
  end.

(** xmlAttributeGroup.go:17-43 OnAttributeGroup *)
Definition on_attribute_group (l : list xattr) (p : PState) (w : World) : out PState :=
  bind (attrgroup_attrs (freeze p) l (mkAttrGroup "" "" "" []) w)
    (fun a w =>
       if nonempty (p_complex p) then
         Ret (set_complex (on_top (fun c => ct_set_attrgroups (ct_attrgroups c ++ [a]) c) (p_complex p)) p) w
       else
         Ret (set_attrgroup (a :: p_attrgroup p)
                (set_current (p_in_element p) (set_in_ag true p))) w).

(** xmlAttributeGroup.go:46-53 EndAttributeGroup *)
Definition end_attribute_group (p : PState) (w : World) : out PState :=
  match p_attrgroup p with
  | [] => Ret p w
  | a :: r =>
      Ret (set_in_ag false (set_current "" (set_attrgroup r (append_tree (PN (PAttrGroup a)) p)))) w
  end.

(** xmlCharData.go:51: Attributes[l-1].Doc = ele *)
Fixpoint last_attr_doc (d : string) (l : list Attribute) : list Attribute :=
  match l with
  | [] => []
  | [a] => [at_set_doc d a]
  | a :: r => a :: last_attr_doc d r
  end.

(** xmlCharData.go:48-55 *)
Definition complex_doc (d : string) (c : ComplexType) : ComplexType :=
  match ct_attributes c with
  | [] => ct_set_doc d c
  | l => ct_set_attributes (last_attr_doc d l) c
  end.

(** xmlCharData.go:16-60 OnCharData (never an error).  The test of
    opt.Attribute at lines 44-47 repeats lines 33-36. *)
Definition on_char_data (data : string) (p : PState) : PState :=
  let d := trim_space data in
  if String.eqb d "" then p
  else if p_in_ag p && nonempty (p_attrgroup p) then
    set_attrgroup (on_top (ag_set_doc d) (p_attrgroup p)) p
  else if negb (String.eqb (p_in_element p) "") && nonempty (p_element p) then
    on_top_element (el_set_doc d) p
  else if nonempty (p_attribute p) then
    set_attribute (on_top (at_set_doc d) (p_attribute p)) p
  else if String.eqb (p_current p) "simpleType" then
    set_simple (on_top (st_set_doc d) (p_simple p)) p
  else if String.eqb (p_current p) "complexType" then
    set_complex (on_top (complex_doc d) (p_complex p)) p
  else p.

(** xmlChoice.go:21-33 *)
Fixpoint choice_attrs (l : list xattr) (pl : bool) (w : World) : out bool :=
  match l with
  | [] => Ret pl w
  | x :: r =>
      if String.eqb (a_local x) "maxOccurs" then
        match max_occurs (a_value x) with
        | None => Fail (EAtoi (a_value x)) w
        | Some b => choice_attrs r b w
        end
      else choice_attrs r pl w
  end.

(** xmlChoice.go:19-42 OnChoice *)
Definition on_choice (l : list xattr) (p : PState) (w : World) : out PState :=
  bind (choice_attrs l false w)
       (fun b w => Ret (set_choice ((b || choice_plural p) :: p_choice p) p) w).

(** xmlChoice.go:45-49 EndChoice *)
Definition end_choice (p : PState) (w : World) : out PState :=
  Ret (set_choice (tl (p_choice p)) p) w.

(** xmlComplexType.go:26-30 *)
Definition name_attr (l : list xattr) (init : string) : string :=
  fold_left (fun n x => if String.eqb (a_local x) "name" then a_value x else n) l init.

(** xmlComplexType.go:15-38 OnComplexType.  Popping an empty Element stack
    makes the type assertion on nil panic. *)
Definition on_complex_type (l : list xattr) (p : PState) (w : World) : out PState :=
  let anonymous (p : PState) :=
    match p_element p with
    | [] => Crash Panic w
    | i :: r =>
        Ret (set_complex (mkComplex "" (el_name (deref (p_heap p) i)) "" [] [] [] [] :: p_complex p)
               (set_element r p)) w
    end in
  if nonempty (p_complex p) then anonymous p
  else
    let p := set_current (p_in_element p) p in
    let n := name_attr l "" in
    if String.eqb n "" then anonymous p
    else Ret (set_complex (mkComplex "" n "" [] [] [] [] :: p_complex p) p) w.

(** xmlComplexType.go:41-45 EndComplexType *)
Definition end_complex_type (p : PState) (w : World) : out PState :=
  Ret (set_current "" (set_complex (tl (p_complex p))
         (append_tree (pop_node PComplex (p_complex p)) p))) w.

(** xmlElement.go:19-51 *)
Fixpoint element_attrs (tree : list proto) (l : list xattr) (e : Element) (w : World)
  : out Element :=
  match l with
  | [] => Ret e w
  | x :: r =>
      let k := a_local x in let v := a_value x in
      if String.eqb k "ref" then
        bind (gvt v tree w) (fun t w => element_attrs tree r (el_set_type t (el_set_name v e)) w)
      else if String.eqb k "name" then element_attrs tree r (el_set_name v e) w
      else if String.eqb k "type" then
        bind (gvt v tree w) (fun t w => element_attrs tree r (el_set_type t e) w)
      else if String.eqb k "maxOccurs" then
        match max_occurs v with
        | None => Fail (EAtoi v) w
        | Some b => element_attrs tree r (if b then el_set_plural true e else e) w
        end
      else if String.eqb k "unbounded" then
        element_attrs tree r (if String.eqb v "0" then e else el_set_plural true e) w
      else element_attrs tree r e w
  end.

(** xmlElement.go:102-109 findElement and xmlElement.go:66-79: the first entry
    of the same name decides *)
Fixpoint merge_element (e : Element) (l : list Element) : option (list Element) :=
  match l with
  | [] => None
  | x :: r =>
      if String.eqb (el_name e) (el_name x) then
        if String.eqb (el_type x) (el_type e)
        then Some (el_set_plural (el_plural x || el_plural e) x :: r)
        else None
      else match merge_element e r with
           | None => None
           | Some r' => Some (x :: r')
           end
  end.

Definition add_element (e : Element) (l : list Element) : list Element :=
  match merge_element e l with Some l' => l' | None => l ++ [e] end.

(** xmlElement.go:58 and :90: push a pointer *)
Definition push_element (i : nat) (p : PState) : PState := set_element (i :: p_element p) p.

(** xmlElement.go:61-91: after the type of [e] is known.  [e] has been
    allocated at index [i]; the copies appended at lines 76, 78 and 85 are
    values. *)
Definition place_element (i : nat) (p : PState) (w : World) : out PState :=
  let p := set_heap (update_nth i (fun e => el_set_plural (el_plural e || choice_plural p) e) (p_heap p)) p in
  let e := deref (p_heap p) i in
  if nonempty (p_complex p) then
    Ret (set_complex (on_top (fun c => ct_set_elements (add_element e (ct_elements c)) c) (p_complex p)) p) w
  else if (0 <? p_in_group p)%Z then
    Ret (set_group (on_top (fun g => gr_set_elements (gr_elements g ++ [e]) g) (p_group p)) p) w
  else Ret (push_element i p) w.

(** xmlElement.go:17-92 OnElement *)
Definition on_element (l : list xattr) (p : PState) (w : World) : out PState :=
  bind (element_attrs (freeze p) l zero_element w)
    (fun e w =>
       let i := length (p_heap p) in
       if String.eqb (el_type e) "" then
         bind (gvt (el_name e) (freeze p) w)
           (fun t w => place_element i (push_element i (set_heap (p_heap p ++ [el_set_type t e]) p)) w)
       else place_element i (set_heap (p_heap p ++ [e]) p) w).

(** xmlElement.go:95-100 EndElement *)
Definition end_element (p : PState) (w : World) : out PState :=
  match p_element p with
  | [] => Ret p w
  | i :: r =>
      if nonempty (p_complex p) then Ret p w
      else Ret (set_element r (append_tree (PRef i) p)) w
  end.

(** xmlEnumeration.go:14-23 OnEnumeration *)
Definition on_enumeration (l : list xattr) (p : PState) (w : World) : out PState :=
  Ret (set_simple
         (fold_left
            (fun st x => if String.eqb (a_local x) "value"
                         then on_top (fun s => st_set_enum (st_enum s ++ [a_value x]) s) st else st)
            l (p_simple p)) p) w.

(** The step shared by the facet handlers: resolve the base of the simple type
    on top and store it into the attribute on top (xmlEnumeration.go:28-33,
    xmlPattern.go:16-22, ...); [pop] tells whether the simple type is popped. *)
Definition base_to_attribute (pop : bool) (p : PState) (w : World) : out PState :=
  match p_attribute p, p_simple p with
  | _ :: _, s :: r =>
      bind (gvt (st_base s) (freeze p) w)
        (fun t w =>
           Ret (set_current ""
                  (set_simple (if pop then r else p_simple p)
                     (set_attribute (on_top (at_set_type t) (p_attribute p)) p))) w)
  | _, _ => Ret p w
  end.

(** Likewise for the element on top (xmlLength.go:17-22, ...) *)
Definition base_to_element (pop : bool) (p : PState) (w : World) : out PState :=
  match p_simple p, p_element p with
  | s :: r, _ :: _ =>
      bind (gvt (st_base s) (freeze p) w)
        (fun t w =>
           Ret (set_current ""
                  (set_simple (if pop then r else p_simple p)
                     (on_top_element (el_set_type t) p))) w)
  | _, _ => Ret p w
  end.

(** xmlEnumeration.go:27-41 EndEnumeration *)
Definition end_enumeration (p : PState) (w : World) : out PState :=
  bind (base_to_attribute false p w) (base_to_element false).

(** xmlExtension.go:16-34 *)
Fixpoint extension_attrs (tree : list proto) (l : list xattr) (p : PState) (w : World)
  : out PState :=
  match l with
  | [] => Ret p w
  | x :: r =>
      if String.eqb (a_local x) "base" then
        bind (gvt (a_value x) tree w)
          (fun t w =>
             if nonempty (p_complex p) then
               bind (gvt t tree w)
                 (fun t2 w =>
                    extension_attrs tree r
                      (set_complex
                         (on_top (fun c => let c := ct_set_base t2 c in
                                           if String.eqb (ct_name c) "" then ct_set_name (a_value x) c else c)
                            (p_complex p)) p) w)
             else extension_attrs tree r p w)
      else extension_attrs tree r p w
  end.

(** xmlExtension.go:15-36 OnExtension *)
Definition on_extension (l : list xattr) (p : PState) (w : World) : out PState :=
  extension_attrs (freeze p) l p w.

(** xmlExtension.go:39-48 EndExtension *)
Definition end_extension (p : PState) (w : World) : out PState := base_to_attribute true p w.

(** xmlFractionDigits.go:17-25, xmlLength.go:16-24, xmlMaxExclusive.go:16-24,
    xmlMaxInclusive.go:16-24, xmlMaxLength.go:16-24, xmlMinExclusive.go:16-24,
    xmlMinInclusive.go:16-24, xmlMinLength.go:16-24, xmlTotalDigits.go:16-24,
    xmlWhiteSpace.go:16-24: the same body *)
Definition end_facet (p : PState) (w : World) : out PState := base_to_element true p w.

(** xmlPattern.go:15-30 EndPattern *)
Definition end_pattern (p : PState) (w : World) : out PState :=
  bind (base_to_attribute true p w) (base_to_element true).

(** xmlGroup.go:18-34 *)
Fixpoint group_attrs (tree : list proto) (l : list xattr) (g : Group) (w : World) : out Group :=
  match l with
  | [] => Ret g w
  | x :: r =>
      let k := a_local x in let v := a_value x in
      if String.eqb k "name" then group_attrs tree r (gr_set_name v g) w
      else if String.eqb k "ref" then
        bind (gvt v tree w) (fun t w => group_attrs tree r (gr_set_ref t (gr_set_name v g)) w)
      else if String.eqb k "maxOccurs" then
        group_attrs tree r (if String.eqb v "0" then g else gr_set_plural true g) w
      else group_attrs tree r g w
  end.

(** xmlGroup.go:75-82 inGroups *)
Definition in_groups (g : Group) (l : list Group) : bool :=
  existsb (fun x => String.eqb (gr_name x) (gr_name g)) l.

(** xmlGroup.go:16-60 OnGroup *)
Definition on_group (l : list xattr) (p : PState) (w : World) : out PState :=
  bind (group_attrs (freeze p) l (mkGroup "" "" [] [] false "") w)
    (fun g w =>
       let g := gr_set_plural (gr_plural g || choice_plural p) g in
       if nonempty (p_complex p) then
         Ret (set_complex
                (on_top (fun c => if in_groups g (ct_groups c) then c
                                  else ct_set_groups (ct_groups c ++ [g]) c) (p_complex p)) p) w
       else if (p_in_group p =? 0)%Z then
         Ret (set_group (g :: p_group p)
                (set_current (p_in_element p) (set_in_group (p_in_group p + 1)%Z p))) w
       else if (0 <? p_in_group p)%Z then
         match p_group p with
         | [] => Crash Panic w
         | _ =>
             Ret (set_group (on_top (fun t => gr_set_groups (gr_groups t ++ [g]) t) (p_group p))
                    (set_in_group (p_in_group p + 1)%Z p)) w
         end
       else Ret p w).

(** xmlGroup.go:63-73 EndGroup *)
Definition end_group (local : string) (p : PState) (w : World) : out PState :=
  let p :=
    if String.eqb local (p_current p) && (p_in_group p =? 1)%Z then
      set_in_group (p_in_group p - 1)%Z
        (set_current "" (set_group (tl (p_group p)) (append_tree (pop_node PGroup (p_group p)) p)))
    else p in
  Ret (if String.eqb local (p_current p) then set_in_group (p_in_group p - 1)%Z p else p) w.

(** schema.go:21-42 prepareNSSchemaLocationMap *)
Fixpoint prepare_nsl (l : list xattr) (currentNS : string) (m : smap string) : smap string :=
  match l with
  | [] => m
  | x :: r =>
      let ns := if String.eqb (a_local x) "namespace" then a_value x else currentNS in
      let m := if String.eqb (a_local x) "schemaLocation" then
                 if has_key ns m then m
                 else if is_valid_url (a_value x) then m
                 else put ns (a_value x) m
               else m in
      prepare_nsl r ns m
  end.

(** xmlImport.go:16-19 OnImport *)
Definition on_import (l : list xattr) (p : PState) (w : World) : out PState :=
  Ret p (set_nsl (prepare_nsl l "" (w_nsl w)) w).

(** xmlInclude.go:16-26 OnInclude *)
Definition on_include (l : list xattr) (p : PState) (w : World) : out PState :=
  Ret p (set_inc (fold_left (fun m x => if String.eqb (a_local x) "schemaLocation"
                                        then add_key (a_value x) m else m) l (w_inc w)) w).

(** xmlList.go:21-27 *)
Fixpoint list_attrs (tree : list proto) (l : list xattr) (p : PState) (w : World) : out PState :=
  match l with
  | [] => Ret p w
  | x :: r =>
      if String.eqb (a_local x) "itemType" then
        bind (gvt (a_value x) tree w)
          (fun t w => list_attrs tree r (set_simple (on_top (st_set_base t) (p_simple p)) p) w)
      else list_attrs tree r p w
  end.

(** xmlList.go:16-29 OnList *)
Definition on_list (l : list xattr) (p : PState) (w : World) : out PState :=
  if nonempty (p_simple p)
  then list_attrs (freeze p) l (set_simple (on_top (st_set_list true) (p_simple p)) p) w
  else Ret p w.

(** xmlRestriction.go:17-34 *)
Fixpoint restriction_attrs (tree : list proto) (l : list xattr) (p : PState) (w : World)
  : out PState :=
  match l with
  | [] => Ret p w
  | x :: r =>
      if String.eqb (a_local x) "base" then
        bind (gvt (a_value x) tree w)
          (fun t w =>
             if nonempty (p_simple p) then
               bind (gvt t tree w)
                 (fun t2 w =>
                    restriction_attrs tree r
                      (set_simple
                         (on_top (fun s => let s := st_set_base t2 s in
                                           if String.eqb (st_name s) "" then st_set_name (a_value x) s else s)
                            (p_simple p)) p) w)
             else restriction_attrs tree r p w)
      else restriction_attrs tree r p w
  end.

(** xmlRestriction.go:16-36 OnRestriction *)
Definition on_restriction (l : list xattr) (p : PState) (w : World) : out PState :=
  restriction_attrs (freeze p) l p w.

(** Elements[len-1] = e *)
Fixpoint replace_last {A} (e : A) (l : list A) : list A :=
  match l with
  | [] => []
  | [_] => [e]
  | x :: r => x :: replace_last e r
  end.

(** xmlRestriction.go:39-53 EndRestriction *)
Definition end_restriction (p : PState) (w : World) : out PState :=
  bind (base_to_attribute true p w)
    (fun p w =>
       match p_element p with
       | [] => Ret p w
       | i :: _ =>
           Ret (set_complex
                  (on_top (fun c => ct_set_elements (replace_last (deref (p_heap p) i) (ct_elements c)) c)
                     (p_complex p)) p) w
       end).

(** schema.go:13-19 prepareLocalNameNSMap; xmlSchema.go:15-18 OnSchema *)
Definition on_schema (l : list xattr) (p : PState) (w : World) : out PState :=
  Ret p (set_lns (fold_left (fun m x => if String.eqb (a_space x) "xmlns"
                                        then put (a_local x) (a_value x) m else m) l (w_lns w)) w).

Definition zero_simple : SimpleType := mkSimple "" "" "" false false [] [].

(** xmlSimpleType.go:16-30 OnSimpleType *)
Definition on_simple_type (l : list xattr) (p : PState) (w : World) : out PState :=
  let st := match p_simple p with [] => [zero_simple] | s => s end in
  let st := on_top (fun s => st_set_name (name_attr l (st_name s)) s) st in
  Ret (set_simple st (set_current (p_in_element p) p)) w.

(** xmlSimpleType.go:33-48 EndSimpleType *)
Definition end_simple_type (local : string) (p : PState) (w : World) : out PState :=
  match p_simple p, p_attribute p with
  | s :: r, _ :: _ =>
      Ret (set_simple r (set_attribute (on_top (at_set_type (st_base s)) (p_attribute p)) p)) w
  | _, _ =>
      let p :=
        if String.eqb local (p_current p) && Nat.eqb (length (p_complex p)) 1 then
          set_current "" (set_complex (tl (p_complex p))
            (append_tree (pop_node PComplex (p_complex p)) p))
        else p in
      Ret (if String.eqb local (p_current p) && negb (p_in_union p) then
             set_current "" (set_simple (tl (p_simple p))
               (append_tree (pop_node PSimple (p_simple p)) p))
           else p) w
  end.

(** xmlUnion.go:29-34 *)
Fixpoint union_members (tree : list proto) (ms : list string) (p : PState) (w : World)
  : out PState :=
  match ms with
  | [] => Ret p w
  | m :: r =>
      bind (gvt m tree w)
        (fun t w =>
           union_members tree r
             (set_simple (on_top (fun s => st_set_members (put (trim_ns_prefix m) t (st_members s)) s)
                            (p_simple p)) p) w)
  end.

(** xmlUnion.go:26-37 *)
Fixpoint union_attrs (tree : list proto) (l : list xattr) (p : PState) (w : World) : out PState :=
  match l with
  | [] => Ret p w
  | x :: r =>
      if String.eqb (a_local x) "memberTypes" then
        bind (union_members tree (split_on " " (a_value x)) p w) (union_attrs tree r)
      else union_attrs tree r p w
  end.

(** xmlUnion.go:19-39 OnUnion *)
Definition on_union (l : list xattr) (p : PState) (w : World) : out PState :=
  let p := set_in_union true p in
  if nonempty (p_simple p) then
    union_attrs (freeze p) l
      (set_simple (on_top (fun s => st_set_members [] (st_set_union true s)) (p_simple p)) p) w
  else Ret p w.

(** xmlUnion.go:42-47 EndUnion *)
Definition end_union (p : PState) (w : World) : out PState :=
  Ret (if nonempty (p_simple p) then set_in_union false p else p) w.

(** parser.go:111-115 and utils.go:207-220: the method "On" ++ ToTitle(name).
    OnCharData exists but takes a string first, so calling it through
    reflection with a StartElement panics. *)
Definition dispatch_start (local : string) (l : list xattr) (p : PState) (w : World) : out PState :=
  let p := set_in_element local p in
  let m := to_title local in
  if String.eqb m "Attribute" then on_attribute l p w
  else if String.eqb m "AttributeGroup" then on_attribute_group l p w
  else if String.eqb m "CharData" then Crash Panic w
  else if String.eqb m "Choice" then on_choice l p w
  else if String.eqb m "ComplexType" then on_complex_type l p w
  else if String.eqb m "Element" then on_element l p w
  else if String.eqb m "Enumeration" then on_enumeration l p w
  else if String.eqb m "Extension" then on_extension l p w
  else if String.eqb m "Group" then on_group l p w
  else if String.eqb m "Import" then on_import l p w
  else if String.eqb m "Include" then on_include l p w
  else if String.eqb m "List" then on_list l p w
  else if String.eqb m "Restriction" then on_restriction l p w
  else if String.eqb m "Schema" then on_schema l p w
  else if String.eqb m "SimpleType" then on_simple_type l p w
  else if String.eqb m "Union" then on_union l p w
  else Ret p w.

(** The end handlers with the shared body [end_facet] *)
Definition facet_names : list string :=
  ["FractionDigits"; "Length"; "MaxExclusive"; "MaxInclusive"; "MaxLength"; "MinExclusive";
   "MinInclusive"; "MinLength"; "TotalDigits"; "WhiteSpace"].

(** parser.go:117-121: the method "End" ++ ToTitle(name) *)
Definition dispatch_end (local : string) (p : PState) (w : World) : out PState :=
  let m := to_title local in
  if String.eqb m "Attribute" then end_attribute p w
  else if String.eqb m "AttributeGroup" then end_attribute_group p w
  else if String.eqb m "Choice" then end_choice p w
  else if String.eqb m "ComplexType" then end_complex_type p w
  else if String.eqb m "Element" then end_element p w
  else if String.eqb m "Enumeration" then end_enumeration p w
  else if String.eqb m "Extension" then end_extension p w
  else if String.eqb m "Group" then end_group local p w
  else if String.eqb m "Pattern" then end_pattern p w
  else if String.eqb m "Restriction" then end_restriction p w
  else if String.eqb m "SimpleType" then end_simple_type local p w
  else if String.eqb m "Union" then end_union p w
  else if in_set m facet_names then end_facet p w
  else Ret p w.

(** parser.go:108-127 *)
Definition on_token (t : token) (p : PState) (w : World) : out PState :=
  match t with
  | TStart local l => dispatch_start local l p w
  | TEnd local => dispatch_end local p w
  | TChar data => Ret (on_char_data data p) w
  | TOther => Ret p w
  end.

(** parser.go:102-129 *)
Fixpoint run_tokens (ts : list token) (p : PState) (w : World) : out PState :=
  match ts with
  | [] => Ret p w
  | t :: r => bind (on_token t p w) (run_tokens r)
  end.

End Handlers.
