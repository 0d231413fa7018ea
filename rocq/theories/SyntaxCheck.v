(** Proofs for C64: a check for given trees. *)

From Coq Require Import String Ascii List NArith Bool.
From Verif Require Import GoStr Utf8 Base Utils SpecStr SpecTables SpecGen SpecOut SpecSyntax StrLemmas StrProofs GenLemmas GenOutline SyntaxProofs SyntaxDecls.
Import ListNotations.
Local Open Scope string_scope.

Section Check.
Context {E : Env} {P : Pool}.
Variable pb : lang -> string -> bool.
Hypothesis pb_ok : forall l t, pb l t = true -> pooled l t.

Definition nameb (s : string) : bool := match s with String a r => letter a && all_bytes name_char r | _ => false end.
Definition improperb (l : lang) (t : string) : bool :=
  match l with Go => String.eqb t "interface" | C => String.eqb t "enum" | Rust => String.eqb (solid t) "Self" | _ => false end.
Definition typeb (l : lang) (t : string) : bool :=
  existsb (String.eqb t) (targets l) || (nameb t && (negb (has_char ":" t) && (negb (improperb l t) && pb l t))).
Definition java (l : lang) : bool := match l with Java => true | _ => false end.
Definition maybeb (l : lang) (t : string) : bool := (String.eqb t "" && negb (java l)) || typeb l t.
Definition orb_type (l : lang) (t : string) : bool := String.eqb t "" || typeb l t.

Definition namedb (l : lang) (n t : string) : bool := nameb n && maybeb l t.
Definition memberb (l : lang) (m : string * string) : bool :=
  nameb (fst m) && (negb (has_char ":" (fst m)) && (negb (improperb l (fst m)) && ((negb (String.eqb (snd m) "") || pb l (fst m)) && orb_type l (snd m)))).

Definition fineb (l : lang) (p : proto) : bool :=
  match p with
  | PNil => true
  | PSimple v => nameb (st_name v) && (forallb (memberb l) (st_members v) && (maybeb l (st_base v) || (negb (st_list v) && is_union v)))
  | PComplex v => nameb (ct_name v) && (orb_type l (ct_base v) && (forallb (fun a => namedb l (ag_name a) (ag_ref a)) (ct_attrgroups v) &&
      (forallb (fun a => namedb l (at_name a) (at_type a)) (ct_attributes v) &&
      (forallb (fun x => namedb l (gr_name x) (gr_ref x)) (ct_groups v) && forallb (fun e => namedb l (el_name e) (el_type e)) (ct_elements v)))))
  | PElement v => namedb l (el_name v) (el_type v)
  | PAttribute v => namedb l (at_name v) (at_type v)
  | PGroup v => nameb (gr_name v) && (forallb (fun e => namedb l (el_name e) (el_type e)) (gr_elements v) &&
      forallb (fun x => namedb l (gr_name x) (gr_ref x)) (gr_groups v))
  | PAttrGroup v => nameb (ag_name v) && forallb (fun a => namedb l (at_name a) (at_type a)) (ag_attributes v)
  end.

Definition valueb (base value : string) : bool :=
  if string_dec base "string" then match value with String a r => letter a && all_bytes ident_char r | _ => false end
  else if string_dec base "number" then negb (String.eqb value "") && all_bytes is_digit value
  else all_bytes ident_char value.

Definition flat (t : string) : bool := match strip_suffix t "[]" with None => true | _ => false end.

Definition manageb (l : lang) (pt : list proto) (p : proto) : bool :=
  match l, p with
  | Go, PSimple v => negb (st_list v) || negb (String.eqb (resolved pt (local_part (st_base v))) "")
  | C, PSimple v => negb (st_list v) || flat (shown C pt (st_base v))
  | C, PComplex v => forallb (fun a => flat (shown C pt (ag_ref a))) (ct_attrgroups v) && forallb (fun x => flat (shown C pt (gr_ref x))) (ct_groups v)
  | C, PGroup v => forallb (fun e => flat (shown C pt (el_type e))) (gr_elements v) && forallb (fun x => flat (shown C pt (gr_ref x))) (gr_groups v)
  | Java, PAttrGroup v => forallb (fun a => negb (has_char "<" (shown Java pt (at_type a)))) (ag_attributes v)
  | Rust, PSimple v => negb (String.eqb (type_ident Rust (st_name v)) "Self")
  | Rust, PComplex v => negb (String.eqb (type_ident Rust (ct_name v)) "Self") &&
                        (String.eqb (ct_base v) "" || (builtin Rust (ct_base v) || negb (has_char "<" (shown Rust pt (ct_base v)))))
  | Rust, PGroup v => negb (String.eqb (type_ident Rust (gr_name v)) "Self")
  | Rust, PAttrGroup v => negb (String.eqb (type_ident Rust (ag_name v)) "Self")
  | TypeScript, PSimple v => negb (enumerated TypeScript p) || forallb (valueb (shown_ts pt (st_base v) false)) (st_enum v)
  | _, _ => true
  end.

Lemma nameb_ok : forall s, nameb s = true -> name_ok s.
Proof.
  intros [|a r] H; [discriminate|]. apply andb_true_iff in H as [Ha Hr]. exists a, r. split; [reflexivity|]. split; [exact Ha|]. now apply every_bytes.
Qed.

Lemma no_char : forall c s, negb (has_char c s) = true -> free_of c s.
Proof. intros c s H. apply free_of_has_char. now apply negb_true_iff. Qed.

Lemma negb_eqb : forall a b, negb (String.eqb a b) = true -> a <> b.
Proof. intros a b H. apply negb_true_iff in H. now apply String.eqb_neq. Qed.

Lemma improperb_ok : forall l t, negb (improperb l t) = true -> ~ improper l t.
Proof. intros [] t H; cbn in *; try (now apply negb_eqb); intros Hf; exact Hf. Qed.

Lemma typeb_ok : forall l t, typeb l t = true -> type_ok l t.
Proof.
  intros l t H. unfold typeb in H. apply orb_true_iff in H as [H|H].
  - left. apply existsb_exists in H as [x [Hx He]]. apply String.eqb_eq in He. now subst x.
  - right. apply andb_true_iff in H as [H1 H]. apply andb_true_iff in H as [H2 H]. apply andb_true_iff in H as [H3 H4].
    split; [now apply nameb_ok|]. split; [now apply no_char|]. split; [now apply improperb_ok | now apply pb_ok].
Qed.

Lemma maybeb_ok : forall l t, maybeb l t = true -> maybe_type l t.
Proof.
  intros l t H. unfold maybeb in H. apply orb_true_iff in H as [H|H]; [left|right; now apply typeb_ok].
  apply andb_true_iff in H as [H1 H2]. apply String.eqb_eq in H1. split; [exact H1|]. intros ->. discriminate.
Qed.

Lemma orb_type_ok : forall l t, orb_type l t = true -> t = "" \/ type_ok l t.
Proof. intros l t H. unfold orb_type in H. apply orb_true_iff in H as [H|H]; [left; now apply String.eqb_eq | right; now apply typeb_ok]. Qed.

Lemma forallb_Forall : forall A (f : A -> bool) (Q : A -> Prop) xs, (forall x, f x = true -> Q x) -> forallb f xs = true -> Forall Q xs.
Proof. intros A f Q xs Hf H. apply Forall_forall. intros x Hx. apply Hf. now apply (proj1 (forallb_forall f xs) H). Qed.

Lemma namedb_ok : forall l n t, namedb l n t = true -> name_ok n /\ maybe_type l t.
Proof. intros l n t H. apply andb_true_iff in H as [H1 H2]. split; [now apply nameb_ok | now apply maybeb_ok]. Qed.

Lemma memberb_ok : forall l m, memberb l m = true -> member_fine l m.
Proof.
  intros l m H. unfold memberb in H. apply andb_true_iff in H as [H1 H]. apply andb_true_iff in H as [H2 H]. apply andb_true_iff in H as [H3 H].
  apply andb_true_iff in H as [H4 H5]. split; [now apply nameb_ok|]. split; [now apply no_char|]. split; [now apply improperb_ok|].
  split; [|now apply orb_type_ok]. intros He. rewrite He in H4. cbn in H4. now apply pb_ok.
Qed.

Ltac parts := repeat match goal with H : _ && _ = true |- _ => apply andb_true_iff in H as [? H] end.

Lemma fineb_ok : forall l p, fineb l p = true -> component_fine l p.
Proof.
  intros l [|v|v|v|v|v|v] H; cbn [fineb component_fine] in *; parts.
  - exact I.
  - split; [now apply nameb_ok|]. split; [now apply (forallb_Forall _ (memberb l)); [apply memberb_ok|]|].
    apply orb_true_iff in H as [H|H]; [left; now apply maybeb_ok | right]. apply andb_true_iff in H as [Hl Hu]. split; [now apply negb_true_iff | exact Hu].
  - split; [now apply nameb_ok|]. split; [now apply orb_type_ok|].
    split; [eapply forallb_Forall; [|eassumption]; intros x Hx; now apply namedb_ok|].
    split; [eapply forallb_Forall; [|eassumption]; intros x Hx; now apply namedb_ok|].
    split; eapply forallb_Forall; [|eassumption| |eassumption]; intros x Hx; now apply namedb_ok.
  - now apply namedb_ok.
  - now apply namedb_ok.
  - split; [now apply nameb_ok|]. split; eapply forallb_Forall; [|eassumption| |eassumption]; intros x Hx; now apply namedb_ok.
  - split; [now apply nameb_ok|]. eapply forallb_Forall; [|eassumption]. intros x Hx; now apply namedb_ok.
Qed.

Lemma flat_ok : forall t, flat t = true -> ~ array_type t.
Proof. intros t H [u ->]. unfold flat in H. now rewrite strip_suffix_app in H. Qed.

Lemma valueb_ok : forall b v, valueb b v = true -> value_fine b v.
Proof.
  intros b v. unfold valueb, value_fine. destruct (string_dec b "string"); [apply ident_check|]. destruct (string_dec b "number").
  - intros H. apply andb_true_iff in H as [H1 H2]. split; [now apply negb_eqb | now apply every_bytes].
  - apply every_bytes.
Qed.

Lemma manageb_ok : forall l pt p, manageb l pt p = true -> manageable l pt p.
Proof.
  intros l pt p H. destruct l, p as [|v|v|v|v|v|v]; cbn [manageb manageable] in *; try exact I; try (now apply negb_eqb).
  - intros Hl. rewrite Hl in H. now apply negb_eqb.
  - intros Hl. rewrite Hl in H. now apply flat_ok.
  - parts. split; eapply forallb_Forall; [|eassumption| |eassumption]; intros x Hx; now apply flat_ok.
  - parts. split; eapply forallb_Forall; [|eassumption| |eassumption]; intros x Hx; now apply flat_ok.
  - eapply forallb_Forall; [|eassumption]. intros x Hx. now apply no_char.
  - parts. split; [now apply negb_eqb|]. apply orb_true_iff in H as [H|H]; [left; now apply String.eqb_eq|].
    apply orb_true_iff in H as [H|H]; [right; now left | right; right; now apply no_char].
  - intros He. apply orb_true_iff in H as [H|H]; [apply negb_true_iff in H; congruence|]. eapply forallb_Forall; [|exact H]. intros x Hx. now apply valueb_ok.
Qed.

Lemma check_ok : forall l pt, forallb (fineb l) pt = true -> forallb (manageb l pt) pt = true -> tree_fine l pt /\ Forall (manageable l pt) pt.
Proof.
  intros l pt H1 H2. split; [eapply forallb_Forall; [|exact H1]; apply fineb_ok | eapply forallb_Forall; [|exact H2]; apply manageb_ok].
Qed.

End Check.

(** * Texts that are no programs *)

Section Texts.
Context {S : Scope}.

Lemma declaration_nonempty : forall l i d, declaration l i d -> d <> [].
Proof. intros l i d H. destruct H; discriminate. Qed.

Lemma program_first : forall l it r, program l (it :: r) -> exists i d, declaration l i (it :: d) /\ exists q, r = (d ++ q)%list.
Proof.
  intros l it r [[|[i d] ds] [He Hd]]; [discriminate|]. inversion Hd; subst. cbn [fst snd] in *. destruct d as [|x d]; [now apply declaration_nonempty in H1|].
  cbn in He. injection He as -> ->. exists i, d. split; [exact H1|]. now exists (concat (map snd ds)).
Qed.

Definition alone (n base : string) (many : bool) : proto := PSimple (mkSimple "" n base many false [] []).

Lemma go_first : forall it n d, declaration Go n (it :: d) -> exists i rest, head it = "type " ++ i ++ rest /\ identifier Go i /\
  (rest = " struct {" \/ exists gap t, rest = gap ++ t /\ typing Go t /\ In gap [" "; TAB]).
Proof.
  intros it n d H. inversion H; subst; cbn [head].
  - exists n, " struct {". split; [reflexivity|]. split; [assumption | now left].
  - exists n, (gap ++ t). split; [reflexivity|]. split; [assumption|]. right. now exists gap, t.
Qed.

(** The characters of an identifier in front of a given text. *)
Lemma ident_eq : forall i rest c s, ident i -> i ++ rest = String c s -> letter c = true.
Proof. intros i rest c s [a [r [-> [Ha _]]]] H. cbn in H. injection H as <- _. exact Ha. Qed.

Lemma go_underscore : forall ns, ~ program Go [mkItem ns "type 1 string" []].
Proof.
  intros ns H. apply program_first in H as [n [d [H _]]]. apply go_first in H as [i [rest [He [[Hi _] _]]]]. cbn in He. injection He as He. symmetry in He.
  apply ident_eq in He; [discriminate | exact Hi].
Qed.

Lemma go_no_name : forall l t, typing l t -> l = Go -> t <> "Interface{}" /\ t <> "*Interface{}" /\ t <> "[]*Interface{}".
Proof.
  intros l t H. induction H; intros Hl; try discriminate Hl; subst; try (specialize (IHtyping eq_refl)); try (split; [discriminate | split; discriminate]).
  - destruct H as [[a [r [-> [Ha Hr]]]] _].
    assert (Hc : has_char "{" (String a r) = false).
    { apply (every_free ident_char); [|reflexivity]. cbn. split; [now apply letter_ident | exact Hr]. }
    split; [|split]; intros He; rewrite He in Hc; discriminate.
  - destruct H as [[a0 [r [-> [Ha Hr]]]] _]. destruct H0 as [[b0 [q [-> [Hb Hq]]]] _].
    assert (Hc : has_char "{" (String a0 r ++ "." ++ String b0 q) = false).
    { rewrite !has_char_app. apply orb_false_iff. split; [|apply orb_false_iff; split; [reflexivity|]];
        (apply (every_free ident_char); [cbn; split; [now apply letter_ident | assumption] | reflexivity]). }
    split; [|split]; intros He; rewrite He in Hc; discriminate.
  - destruct IHtyping as [H1 _]. split; [discriminate|]. split; [|discriminate]. intros [= He]. now elim H1.
  - destruct IHtyping as [_ [H1 _]]. split; [discriminate|]. split; [discriminate|]. intros [= He]. now elim H1.
Qed.

Lemma go_list_of_nothing : forall ns, ~ program Go [mkItem ns "type X []*Interface{}" []].
Proof.
  intros ns H. apply program_first in H as [n [d [H _]]]. apply go_first in H as [i [rest [He [[Hi _] Hr]]]]. cbn in He. injection He as He. symmetry in He.
  destruct Hi as [a [r [-> [Ha Hc]]]]. cbn in He. injection He as ? He; subst. destruct r as [|b r].
  - cbn in He. subst rest. destruct Hr as [Hr|[gap [t [Hr [Ht Hg]]]]]; [discriminate|]. cbn in Hg. destruct Hg as [<-|[<-|[]]]; [|discriminate].
    cbn in Hr. injection Hr as Hr. destruct (go_no_name Go t Ht eq_refl) as [_ [_ H]]. now apply H.
  - cbn in He. injection He as ? He; subst. destruct Hc as [Hc _]. discriminate.
Qed.

(** C: an array type in front of the name. *)
Lemma c_bracket : forall m, member C m -> m <> "char[] X;".
Proof.
  intros m H. inversion H; subst; clear H; intros He.
  - apply typing_c_bracket in H0. do 4 (destruct t as [|? t]; [discriminate|]; cbn in He; injection He as ? He; subst).
    destruct t as [|? t]; [discriminate|]. cbn in He. injection He as ? He; subst. cbn in H0. discriminate.
  - apply typing_c_bracket in H0. do 4 (destruct t as [|? t]; [discriminate|]; cbn in He; injection He as ? He; subst).
    destruct t as [|? t]; [discriminate|]. cbn in He. injection He as ? He; subst. cbn in H0. discriminate.
Qed.

(** Java: no type. *)
Lemma java_no_space : forall l t, typing l t -> l = Java -> has_char " " t = false.
Proof.
  intros l t H. induction H; intros Hl; try discriminate Hl; subst; try (specialize (IHtyping eq_refl)).
  - destruct H as [[a [r [-> [Ha Hr]]]] _]. apply (every_free ident_char); [|reflexivity]. cbn. split; [now apply letter_ident | exact Hr].
  - rewrite !has_char_app, IHtyping. reflexivity.
Qed.

Lemma java_fields : forall l m, member l m -> l = Java -> exists t i, m = "protected " ++ t ++ " " ++ i ++ ";" /\ typing Java t.
Proof. intros l m H. destruct H; intros Hl; try discriminate Hl. now exists t, i. Qed.

Lemma java_void_member : forall m, member Java m -> m <> "protected void X;".
Proof.
  intros m H He. subst m. apply java_fields in H as [t [i [He Ht]]]; [|reflexivity]. cbn in He. injection He as He. symmetry in He.
  pose proof (java_no_space Java t Ht eq_refl) as Hs.
  assert (Hv : t = "void").
  { do 4 (destruct t as [|? t]; [discriminate|]; cbn in He; injection He as ? He; subst). destruct t as [|? t]; [reflexivity|].
    cbn in He. injection He as ? ?; subst. cbn in Hs. discriminate. }
  subst t. inversion Ht as [l s0 H Hk| | | | | | | | | | | ]; subst. destruct H as [_ H]. apply H. vm_compute. tauto.
Qed.

(** TypeScript: values. *)
Lemma ts_value : forall m, enumerator m -> m <> "a-b = 'a-b',".
Proof.
  intros m H. assert (Hi : exists i rest, ident i /\ m = i ++ rest /\ exists r, rest = String " " r).
  { destruct H as [i s0 Hi _|i s0 Hi _ _]; eexists; eexists; (split; [exact Hi|]; split; [reflexivity|]; eexists; reflexivity). }
  destruct Hi as [i [rest [[a [r [-> [_ Hr]]]] [-> [q ->]]]]]. intros He. cbn in He. injection He as ? He; subst.
  destruct r as [|b r]; [discriminate|]. cbn in He. injection He as ? He; subst. destruct Hr as [Hr _]. discriminate.
Qed.

Lemma ts_fields : forall l m, member l m -> l = TypeScript -> exists i rest, ident i /\ m = i ++ String ":" rest.
Proof. intros l m H. destruct H; intros Hl; try discriminate Hl. exists i, (" " ++ t ++ ";"). split; [apply H0 | reflexivity]. Qed.

Lemma ts_no_member : forall r, ~ members TypeScript ("a-b = 'a-b'," :: r).
Proof.
  intros r H. inversion H as [|m r0 Hm Hr|a m r0 Ha]; subst; [|now inversion Ha]. apply ts_fields in Hm as [i [rest [[a [q [-> [_ Hq]]]] He]]]; [|reflexivity].
  cbn in He. injection He as ? He; subst. destruct q as [|b q]; [discriminate|]. cbn in He. injection He as ? He; subst. destruct Hq as [Hq _]. discriminate.
Qed.

(** What stands in a declaration. *)
Lemma declaration_rows : forall l i its, declaration l i its ->
  Forall (fun it => members l (rows it) \/ (l = TypeScript /\ Forall enumerator (rows it))) its.
Proof.
  intros l i its H. induction H;
    try solve [repeat (apply Forall_cons; [cbn [rows]; left; (assumption || constructor)|]); apply Forall_nil].
  - apply Forall_cons; [left; constructor|]. apply Forall_cons; [left; constructor | assumption].
  - apply Forall_cons; [right; now split|]. apply Forall_cons; [left; constructor | apply Forall_nil].
Qed.

Lemma program_rows : forall l its it, program l its -> In it its -> members l (rows it) \/ (l = TypeScript /\ Forall enumerator (rows it)).
Proof.
  intros l its it [ds [-> Hd]] Hin. apply in_concat in Hin as [d0 [Hd1 Hd2]]. apply in_map_iff in Hd1 as [d [<- Hd1]]. pose proof (proj1 (Forall_forall _ _) Hd d Hd1) as H.
  exact (proj1 (Forall_forall _ _) (declaration_rows l _ _ H) it Hd2).
Qed.

(** Rust: Self. *)
Lemma rust_self : forall ns h ms its, ~ program Rust (mkItem ns h [] :: mkItem [] "pub struct Self {" ms :: its).
Proof.
  intros ns h ms its H. apply program_first in H as [n [d [H [q Hq]]]]. inversion H as [| | | | | | | |ns' i ms' Hi Hm He| | | |]; subst; clear H.
  cbn in Hq. injection Hq as Hq _ _. destruct Hi as [[a [r [-> [_ Hr]]]] Hk]. cbn in Hq. injection Hq as ? Hq; subst.
  do 3 (destruct r as [|? r]; [discriminate|]; cbn in Hq; injection Hq as ? Hq; subst).
  destruct r as [|? r]; [apply Hk; vm_compute; tauto|]. cbn in Hq. injection Hq as ? ?; subst. cbn in Hr. intuition discriminate.
Qed.

End Texts.
