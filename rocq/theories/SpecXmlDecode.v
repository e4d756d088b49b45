(** SpecXmlDecode.v - specification side: the tree that an XML document
    describes. *)
From Verif Require Import Base RbxlValues RbxValues Tree SpecTree XmlText XmlDoc XmlCodec.
Local Notation string := String.string.

(** An instance is an Item tag with a class. *)
Definition is_item (t : tag) : bool :=
  bytes_eqb (t_start t) (str "Item") && match attr_value (t_attr t) (str "class") with Some _ => true | None => false end.
Definition item_tags (tags : list tag) : list tag := filter is_item tags.
(** Its properties are the tags in its first Properties tag that have a name. *)
Definition prop_tags (t : tag) : list tag :=
  match find (fun t => bytes_eqb (t_start t) (str "Properties")) (t_tags t) with Some p => t_tags p | None => [] end.
Definition named (pt : tag) (name : bytes) : Prop := attr_value (t_attr pt) (str "name") = Some name.
(** [built h t tr]: the heap holds the instances of the Item tag t as the tree
    tr: class and reference are the attributes, the children are the Items in
    it in order, and every property comes from a property tag with its name. *)
Inductive built (h : heap) : tag -> rtree -> Prop :=
| Built t class i p ts :
    attr_value (t_attr t) (str "class") = Some class -> hget h p = Some i ->
    i_class i = class -> i_ref i = (match attr_value (t_attr t) (str "referent") with Some r => r | None => [] end) ->
    i_service i = false -> i_children i = map rroot ts ->
    (forall name v, In (name, v) (i_props i) -> exists pt, In pt (prop_tags t) /\ named pt name) ->
    Forall2 (built h) (item_tags (t_tags t)) ts ->
    built h t (RNode p ts).
(** A tag inside another. *)
Inductive within : tag -> tag -> Prop :=
| within_here t : within t t
| within_sub u s t : In s (t_tags t) -> within u s -> within u t.
(** A Font tag whose first Weight is a number outside of the 16-bit integers
    and comes before any Family. *)
Definition font_trap (t : tag) : Prop :=
  map lower (t_start t) = str "font" /\
  exists pre w post z, t_tags t = pre ++ w :: post /\ t_start w = str "Weight" /\ ParseInt 16 (getContent w) = PRange z /\
    Forall (fun u => t_start u <> str "Family" /\ t_start u <> str "Weight") pre.
(** The same instance with at least these properties. *)
Record inst_more (i j : inst) : Prop := InstMore {
  im_class : i_class i = i_class j; im_ref : i_ref i = i_ref j; im_service : i_service i = i_service j; im_children : i_children i = i_children j;
  im_names : incl (map fst (i_props i)) (map fst (i_props j)) }.
(** Items without a class: in these tags, or in an Item with a class. *)
Fixpoint classless (t : tag) : nat :=
  let 'Tag start _ attr _ _ _ _ _ tags := t in
  if bytes_eqb start (str "Item") then
    match attr_value attr (str "class") with
    | None => 1
    | Some _ => fold_right (fun t n => classless t + n) 0 tags
    end
  else 0.
Definition classless_in (tags : list tag) : nat := fold_right (fun t n => classless t + n) 0 tags.
Definition no_class : xerr := XMsg "item with missing class attribute".
Definition no_binary : xerr := XMsg "not reading binary data".
Definition xerr_is_no_class (e : xerr) : bool := match e with XMsg m => String.eqb m "item with missing class attribute" | _ => false end.
(** The types of values, other than optional. *)
Definition type_known (t : Type_) : Prop :=
  In t [TypeAxes; TypeBinaryString; TypeBool; TypeBrickColor; TypeCFrame; TypeColor3; TypeContent; TypeDouble; TypeFaces; TypeFloat; TypeInt; TypeProtectedString;
        TypeRay; TypeReference; TypeString; TypeToken; TypeUDim; TypeUDim2; TypeVector2; TypeVector2int16; TypeVector3; TypeVector3int16; TypeNumberSequence;
        TypeColorSequence; TypeNumberRange; TypeRect; TypePhysicalProperties; TypeColor3uint8; TypeInt64; TypeSharedString; TypeUniqueId; TypeFont].
