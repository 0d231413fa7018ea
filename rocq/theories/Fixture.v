(** Test, not a property: the repository's own fixture test/xsd/base64.xsd is
    run through the model and compared with the expected outputs in
    test/{c,java,rs,ts,go} that parser_test.go:48-110 compares against.  The
    Go output passes through gofmt, which only changes white space here, so it
    is compared with all white space removed. *)

From Coq Require Import String Ascii List NArith ZArith Bool.
From Verif Require Import GoStr GoPath Base Utils World Handlers Parser Cli.
Import ListNotations.
Local Open Scope string_scope.

Definition fixture_tokens : list token :=
  [TStart "schema" [mkAttr "" "xmlns" "http://www.w3.org/2001/XMLSchema"; mkAttr "xmlns" "here" "http://example.org/"; mkAttr "" "targetNamespace" "http://example.org/"];
   TChar (sjoin NL ["";  "  "]);
   TStart "simpleType" [mkAttr "" "name" "myType1"];
   TChar (sjoin NL ["";  "    "]);
   TStart "restriction" [mkAttr "" "base" "base64Binary"];
   TChar (sjoin NL ["";  "      "]);
   TStart "length" [mkAttr "" "value" "10"];
   TEnd "length";
   TChar (sjoin NL ["";  "    "]);
   TEnd "restriction";
   TChar (sjoin NL ["";  "  "]);
   TEnd "simpleType";
   TChar (sjoin NL ["";  "";  "  "]);
   TStart "complexType" [mkAttr "" "name" "myType2"];
   TChar (sjoin NL ["";  "    "]);
   TStart "simpleContent" [];
   TChar (sjoin NL ["";  "      "]);
   TStart "extension" [mkAttr "" "base" "base64Binary"];
   TChar (sjoin NL ["";  "        "]);
   TStart "attribute" [mkAttr "" "name" "length"; mkAttr "" "type" "int"];
   TEnd "attribute";
   TChar (sjoin NL ["";  "      "]);
   TEnd "extension";
   TChar (sjoin NL ["";  "    "]);
   TEnd "simpleContent";
   TChar (sjoin NL ["";  "  "]);
   TEnd "complexType";
   TChar (sjoin NL ["";  "";  "  "]);
   TStart "complexType" [mkAttr "" "name" "myType3"];
   TChar (sjoin NL ["";  "    "]);
   TStart "simpleContent" [];
   TChar (sjoin NL ["";  "      "]);
   TStart "extension" [mkAttr "" "base" "date"];
   TChar (sjoin NL ["";  "        "]);
   TStart "attribute" [mkAttr "" "name" "length"; mkAttr "" "type" "int"];
   TEnd "attribute";
   TChar (sjoin NL ["";  "      "]);
   TEnd "extension";
   TChar (sjoin NL ["";  "    "]);
   TEnd "simpleContent";
   TChar (sjoin NL ["";  "  "]);
   TEnd "complexType";
   TChar (sjoin NL ["";  "";  "  "]);
   TStart "complexType" [mkAttr "" "name" "myType4"];
   TChar (sjoin NL ["";  "    "]);
   TStart "sequence" [];
   TChar (sjoin NL ["";  "      "]);
   TStart "element" [mkAttr "" "name" "title"; mkAttr "" "type" "string"];
   TEnd "element";
   TChar (sjoin NL ["";  "      "]);
   TStart "element" [mkAttr "" "name" "blob"; mkAttr "" "type" "base64Binary"];
   TEnd "element";
   TChar (sjoin NL ["";  "      "]);
   TStart "element" [mkAttr "" "name" "timestamp"; mkAttr "" "type" "dateTime"];
   TEnd "element";
   TChar (sjoin NL ["";  "    "]);
   TEnd "sequence";
   TChar (sjoin NL ["";  "  "]);
   TEnd "complexType";
   TChar (sjoin NL ["";  "";  "  "]);
   TStart "simpleType" [mkAttr "" "name" "myType5"];
   TChar (sjoin NL ["";  "    "]);
   TStart "restriction" [mkAttr "" "base" "gDay"];
   TEnd "restriction";
   TChar (sjoin NL ["";  "  "]);
   TEnd "simpleType";
   TChar (sjoin NL ["";  "";  "  "]);
   TStart "complexType" [mkAttr "" "name" "MyType6"];
   TChar (sjoin NL ["";  "    "]);
   TStart "attribute" [mkAttr "" "name" "code"];
   TChar (sjoin NL ["";  "      "]);
   TStart "simpleType" [];
   TChar (sjoin NL ["";  "        "]);
   TStart "restriction" [mkAttr "" "base" "string"];
   TChar (sjoin NL ["";  "          "]);
   TStart "enumeration" [mkAttr "" "value" "value1"];
   TEnd "enumeration";
   TChar (sjoin NL ["";  "          "]);
   TStart "enumeration" [mkAttr "" "value" "value2"];
   TEnd "enumeration";
   TChar (sjoin NL ["";  "        "]);
   TEnd "restriction";
   TChar (sjoin NL ["";  "      "]);
   TEnd "simpleType";
   TChar (sjoin NL ["";  "    "]);
   TEnd "attribute";
   TChar (sjoin NL ["";  "    "]);
   TStart "attribute" [mkAttr "" "name" "identifier"; mkAttr "" "type" "int"];
   TEnd "attribute";
   TChar (sjoin NL ["";  "  "]);
   TEnd "complexType";
   TChar (sjoin NL ["";  "";  "  "]);
   TStart "complexType" [mkAttr "" "name" "MyType7"];
   TChar (sjoin NL ["";  "    "]);
   TStart "simpleContent" [];
   TChar (sjoin NL ["";  "      "]);
   TStart "extension" [mkAttr "" "base" "string"];
   TChar (sjoin NL ["";  "        "]);
   TStart "attribute" [mkAttr "" "type" "string"; mkAttr "" "name" "origin"; mkAttr "" "use" "required"];
   TEnd "attribute";
   TChar (sjoin NL ["";  "      "]);
   TEnd "extension";
   TChar (sjoin NL ["";  "    "]);
   TEnd "simpleContent";
   TChar (sjoin NL ["";  "  "]);
   TEnd "complexType";
   TChar (sjoin NL ["";  "";  "  "]);
   TStart "element" [mkAttr "" "name" "TopLevel"];
   TChar (sjoin NL ["";  "    "]);
   TStart "complexType" [];
   TChar (sjoin NL ["";  "      "]);
   TStart "complexContent" [];
   TChar (sjoin NL ["";  "        "]);
   TStart "extension" [mkAttr "" "base" "here:MyType6"];
   TChar (sjoin NL ["";  "          "]);
   TStart "sequence" [];
   TChar (sjoin NL ["";  "            "]);
   TStart "element" [mkAttr "" "name" "nested"; mkAttr "" "type" "here:MyType7"; mkAttr "" "minOccurs" "0"; mkAttr "" "maxOccurs" "1"];
   TEnd "element";
   TChar (sjoin NL ["";  "            "]);
   TStart "choice" [mkAttr "" "minOccurs" "0"; mkAttr "" "maxOccurs" "unbounded"];
   TChar (sjoin NL ["";  "              "]);
   TStart "element" [mkAttr "" "name" "myType1"; mkAttr "" "type" "here:myType1"];
   TEnd "element";
   TChar (sjoin NL ["";  "              "]);
   TStart "element" [mkAttr "" "name" "myType2"; mkAttr "" "type" "here:myType2"];
   TEnd "element";
   TChar (sjoin NL ["";  "            "]);
   TEnd "choice";
   TChar (sjoin NL ["";  "          "]);
   TEnd "sequence";
   TChar (sjoin NL ["";  "          "]);
   TStart "attribute" [mkAttr "" "name" "cost"; mkAttr "" "type" "double"];
   TEnd "attribute";
   TChar (sjoin NL ["";  "          "]);
   TStart "attribute" [mkAttr "" "name" "LastUpdated"; mkAttr "" "type" "dateTime"];
   TEnd "attribute";
   TChar (sjoin NL ["";  "        "]);
   TEnd "extension";
   TChar (sjoin NL ["";  "      "]);
   TEnd "complexContent";
   TChar (sjoin NL ["";  "    "]);
   TEnd "complexType";
   TChar (sjoin NL ["";  "  "]);
   TEnd "element";
   TChar (sjoin NL ["";  ""]);
   TEnd "schema"].

(** An environment whose only file has the bytes "xsd". *)
Definition fixture_env : Env := {|
  env_upper := fun r => r; env_lower := fun r => r; env_valid_url := fun _ => true;
  env_tokens := fun b => if String.eqb b "xsd" then fixture_tokens else [];
  env_gofmt := fun s => Some s; env_choose := fun _ => 0;
  env_stat_fail := fun _ => false; env_open_fail := fun _ => false;
  env_create_fail := fun _ => false; env_mkdir_fail := fun _ => false;
  env_write := fun _ b => b |}.

Definition fixture_world : World :=
  mkW [("test", NDir); ("test/xsd", NDir); ("test/xsd/base64.xsd", NFile "xsd")] [] [] [] [] [] 0 [].

Definition fixture_run (lang ext : string) : option string :=
  match @parse fixture_env 3 3
          (mkO "test/xsd/base64.xsd" "test/xsd" "test/out" false lang "" p_init) fixture_world with
  | Ret _ w => match get ("test/out/base64.xsd" ++ ext) (w_fs w) with
               | Some (NFile b) => Some b
               | _ => None
               end
  | _ => None
  end.

Fixpoint squeeze (s : string) : string :=
  match s with
  | EmptyString => EmptyString
  | String a r => if rune_is_space (N_of_ascii a) then squeeze r else String a (squeeze r)
  end.

(** test/c/base64.xsd.h *)
Definition expected_c : string :=
  sjoin NL
    ["// Code generated by xgen. DO NOT EDIT.";
     CR;
     "// MyType1 ..." ++ CR;
     "typedef char MyType1[];";
     CR;
     "// MyType2 ..." ++ CR;
     "typedef struct {";
     TAB ++ "int LengthAttr; // attr, optional";
     "} MyType2;";
     CR;
     "// MyType3 ..." ++ CR;
     "typedef struct {";
     TAB ++ "int LengthAttr; // attr, optional";
     "} MyType3;";
     CR;
     "// MyType4 ..." ++ CR;
     "typedef struct {";
     TAB ++ "char Title;";
     TAB ++ "char Blob[];";
     TAB ++ "char Timestamp;";
     "} MyType4;";
     CR;
     "// MyType5 ..." ++ CR;
     "typedef char MyType5;";
     CR;
     "// MyType6 ..." ++ CR;
     "typedef struct {";
     TAB ++ "char CodeAttr; // attr, optional";
     TAB ++ "int IdentifierAttr; // attr, optional";
     "} MyType6;";
     CR;
     "// MyType7 ..." ++ CR;
     "typedef struct {";
     TAB ++ "char OriginAttr; // attr";
     "} MyType7;";
     CR;
     "// TopLevel ..." ++ CR;
     "typedef struct {";
     TAB ++ "float CostAttr; // attr, optional";
     TAB ++ "char LastUpdatedAttr; // attr, optional";
     TAB ++ "MyType7 Nested;";
     TAB ++ "char MyType1[];";
     TAB ++ "MyType2 MyType2[];";
     "} TopLevel;";
     ""].

Example fixture_c : fixture_run "C" ".h" = Some expected_c.
Proof. vm_compute. reflexivity. Qed.

(** test/java/base64.xsd.java *)
Definition expected_java : string :=
  sjoin NL
    ["// Code generated by xgen. DO NOT EDIT.";
     "";
     "package schema;";
     "";
     "import java.util.ArrayList;";
     "import java.util.List;";
     "import javax.xml.bind.annotation.XmlAccessType;";
     "import javax.xml.bind.annotation.XmlAccessorType;";
     "import javax.xml.bind.annotation.XmlAttribute;";
     "import javax.xml.bind.annotation.XmlElement;";
     "import javax.xml.bind.annotation.XmlSchemaType;";
     "import javax.xml.bind.annotation.XmlType;";
     "import javax.xml.bind.annotation.XmlValue;";
     CR;
     "// MyType1 ..." ++ CR;
     "@XmlAccessorType(XmlAccessType.FIELD)";
     "@XmlAttribute(required = true, name = ""myType1"")";
     "public class MyType1 {";
     TAB ++ "protected List<Byte> MyType1;";
     "}";
     CR;
     "// MyType2 ..." ++ CR;
     "public class MyType2 {";
     TAB ++ "@XmlAttribute(name = ""length"")";
     TAB ++ "protected Integer LengthAttr;";
     TAB ++ "@XmlValue";
     TAB ++ "protected List<Byte> value;";
     "}";
     CR;
     "// MyType3 ..." ++ CR;
     "public class MyType3 {";
     TAB ++ "@XmlAttribute(name = ""length"")";
     TAB ++ "protected Integer LengthAttr;";
     TAB ++ "@XmlValue";
     TAB ++ "protected String value;";
     "}";
     CR;
     "// MyType4 ..." ++ CR;
     "public class MyType4 {";
     TAB ++ "@XmlElement(required = true, name = ""title"")";
     TAB ++ "protected String Title;";
     TAB ++ "@XmlElement(required = true, name = ""blob"")";
     TAB ++ "protected List<Byte> Blob;";
     TAB ++ "@XmlElement(required = true, name = ""timestamp"")";
     TAB ++ "protected String Timestamp;";
     "}";
     CR;
     "// MyType5 ..." ++ CR;
     "@XmlAccessorType(XmlAccessType.FIELD)";
     "@XmlAttribute(required = true, name = ""myType5"")";
     "public class MyType5 {";
     TAB ++ "protected String MyType5;";
     "}";
     CR;
     "// MyType6 ..." ++ CR;
     "public class MyType6 {";
     TAB ++ "@XmlAttribute(name = ""code"")";
     TAB ++ "protected String CodeAttr;";
     TAB ++ "@XmlAttribute(name = ""identifier"")";
     TAB ++ "protected Integer IdentifierAttr;";
     "}";
     CR;
     "// MyType7 ..." ++ CR;
     "public class MyType7 {";
     TAB ++ "@XmlAttribute(name = ""origin"", required = true)";
     TAB ++ "protected String OriginAttr;";
     TAB ++ "@XmlValue";
     TAB ++ "protected String value;";
     "}";
     CR;
     "// TopLevel ..." ++ CR;
     "public class TopLevel extends MyType6  {";
     TAB ++ "@XmlAttribute(name = ""cost"")";
     TAB ++ "protected Float CostAttr;";
     TAB ++ "@XmlAttribute(name = ""LastUpdated"")";
     TAB ++ "protected String LastUpdatedAttr;";
     TAB ++ "@XmlElement(required = true, name = ""nested"")";
     TAB ++ "protected MyType7 Nested;";
     TAB ++ "@XmlElement(required = true, name = ""myType1"")";
     TAB ++ "protected List<List<Byte>> MyType1;";
     TAB ++ "@XmlElement(required = true, name = ""myType2"")";
     TAB ++ "protected List<MyType2> MyType2;";
     "}";
     ""].

Example fixture_java : fixture_run "Java" ".java" = Some expected_java.
Proof. vm_compute. reflexivity. Qed.

(** test/rs/base64.xsd.rs *)
Definition expected_rust : string :=
  sjoin NL
    ["// Code generated by xgen. DO NOT EDIT.";
     "";
     "#[macro_use]";
     "extern crate serde_derive;";
     "extern crate serde;";
     "extern crate serde_xml_rs;";
     "";
     "use serde_xml_rs::from_reader;";
     "";
     CR;
     "// MyType1 ..." ++ CR;
     "#[derive(Debug, Deserialize, Serialize, PartialEq)]";
     "pub struct MyType1 {";
     TAB ++ "#[serde(rename = ""myType1"")]";
     TAB ++ "pub my_type1: String,";
     "}";
     "";
     CR;
     "// MyType2 ..." ++ CR;
     "#[derive(Debug, Deserialize, Serialize, PartialEq)]";
     "pub struct MyType2 {";
     TAB ++ "#[serde(rename = ""length"")]";
     TAB ++ "pub length: Option<i32>,";
     TAB ++ "#[serde(rename = ""$value"")]";
     TAB ++ "pub value: String,";
     "}";
     "";
     CR;
     "// MyType3 ..." ++ CR;
     "#[derive(Debug, Deserialize, Serialize, PartialEq)]";
     "pub struct MyType3 {";
     TAB ++ "#[serde(rename = ""length"")]";
     TAB ++ "pub length: Option<i32>,";
     TAB ++ "#[serde(rename = ""$value"")]";
     TAB ++ "pub value: u8,";
     "}";
     "";
     CR;
     "// MyType4 ..." ++ CR;
     "#[derive(Debug, Deserialize, Serialize, PartialEq)]";
     "pub struct MyType4 {";
     TAB ++ "#[serde(rename = ""title"")]";
     TAB ++ "pub title: String,";
     TAB ++ "#[serde(rename = ""blob"")]";
     TAB ++ "pub blob: String,";
     TAB ++ "#[serde(rename = ""timestamp"")]";
     TAB ++ "pub timestamp: u8,";
     "}";
     "";
     CR;
     "// MyType5 ..." ++ CR;
     "#[derive(Debug, Deserialize, Serialize, PartialEq)]";
     "pub struct MyType5 {";
     TAB ++ "#[serde(rename = ""myType5"")]";
     TAB ++ "pub my_type5: String,";
     "}";
     "";
     CR;
     "// MyType6 ..." ++ CR;
     "#[derive(Debug, Deserialize, Serialize, PartialEq)]";
     "pub struct MyType6 {";
     TAB ++ "#[serde(rename = ""code"")]";
     TAB ++ "pub code: Option<String>,";
     TAB ++ "#[serde(rename = ""identifier"")]";
     TAB ++ "pub identifier: Option<i32>,";
     "}";
     "";
     CR;
     "// MyType7 ..." ++ CR;
     "#[derive(Debug, Deserialize, Serialize, PartialEq)]";
     "pub struct MyType7 {";
     TAB ++ "#[serde(rename = ""origin"")]";
     TAB ++ "pub origin: String,";
     TAB ++ "#[serde(rename = ""$value"")]";
     TAB ++ "pub value: String,";
     "}";
     "";
     CR;
     "// TopLevel ..." ++ CR;
     "#[derive(Debug, Deserialize, Serialize, PartialEq)]";
     "pub struct TopLevel {";
     TAB ++ "#[serde(rename = ""cost"")]";
     TAB ++ "pub cost: Option<f64>,";
     TAB ++ "#[serde(rename = ""LastUpdated"")]";
     TAB ++ "pub last_updated: Option<u8>,";
     TAB ++ "#[serde(rename = ""nested"")]";
     TAB ++ "pub nested: MyType7,";
     TAB ++ "#[serde(rename = ""myType1"")]";
     TAB ++ "pub my_type1: Vec<String>,";
     TAB ++ "#[serde(rename = ""myType2"")]";
     TAB ++ "pub my_type2: Vec<MyType2>,";
     TAB ++ "#[serde(flatten)]";
     TAB ++ "pub my_type6: MyType6,";
     "}";
     ""].

Example fixture_rust : fixture_run "Rust" ".rs" = Some expected_rust.
Proof. vm_compute. reflexivity. Qed.

(** test/ts/base64.xsd.ts *)
Definition expected_ts : string :=
  sjoin NL
    ["// Code generated by xgen. DO NOT EDIT.";
     CR;
     "// MyType1 ..." ++ CR;
     "export type MyType1 = Uint8Array;";
     CR;
     "// MyType2 ..." ++ CR;
     "export class MyType2 {";
     TAB ++ "LengthAttr: number | null;";
     TAB ++ "Value: Uint8Array;";
     "}";
     CR;
     "// MyType3 ..." ++ CR;
     "export class MyType3 {";
     TAB ++ "LengthAttr: number | null;";
     TAB ++ "Value: string;";
     "}";
     CR;
     "// MyType4 ..." ++ CR;
     "export class MyType4 {";
     TAB ++ "Title: string;";
     TAB ++ "Blob: Uint8Array;";
     TAB ++ "Timestamp: string;";
     "}";
     CR;
     "// MyType5 ..." ++ CR;
     "export type MyType5 = string;";
     CR;
     "// MyType6 ..." ++ CR;
     "export class MyType6 {";
     TAB ++ "CodeAttr: string | null;";
     TAB ++ "IdentifierAttr: number | null;";
     "}";
     CR;
     "// MyType7 ..." ++ CR;
     "export class MyType7 {";
     TAB ++ "OriginAttr: string;";
     TAB ++ "Value: string;";
     "}";
     CR;
     "// TopLevel ..." ++ CR;
     "export class TopLevel extends MyType6  {";
     TAB ++ "CostAttr: number | null;";
     TAB ++ "LastUpdatedAttr: string | null;";
     TAB ++ "Nested: MyType7;";
     TAB ++ "MyType1: Uint8Array;";
     TAB ++ "MyType2: Array<MyType2>;";
     "}";
     ""].

Example fixture_ts : fixture_run "TypeScript" ".ts" = Some expected_ts.
Proof. vm_compute. reflexivity. Qed.

(** test/go/base64.xsd.go *)
Definition expected_go : string :=
  sjoin NL
    ["// Code generated by xgen. DO NOT EDIT.";
     "";
     "package schema";
     "";
     "import (";
     TAB ++ """encoding/xml""";
     ")";
     "";
     "// MyType1 ...";
     "type MyType1 string";
     "";
     "// MyType2 ...";
     "type MyType2 struct {";
     TAB ++ "XMLName    xml.Name `xml:""myType2""`";
     TAB ++ "LengthAttr int      `xml:""length,attr,omitempty""`";
     TAB ++ "Value      string   `xml:"",chardata""`";
     "}";
     "";
     "// MyType3 ...";
     "type MyType3 struct {";
     TAB ++ "XMLName    xml.Name `xml:""myType3""`";
     TAB ++ "LengthAttr int      `xml:""length,attr,omitempty""`";
     TAB ++ "Value      string   `xml:"",chardata""`";
     "}";
     "";
     "// MyType4 ...";
     "type MyType4 struct {";
     TAB ++ "XMLName   xml.Name `xml:""myType4""`";
     TAB ++ "Title     string   `xml:""title""`";
     TAB ++ "Blob      string   `xml:""blob""`";
     TAB ++ "Timestamp string   `xml:""timestamp""`";
     "}";
     "";
     "// MyType5 ...";
     "type MyType5 string";
     "";
     "// MyType6 ...";
     "type MyType6 struct {";
     TAB ++ "CodeAttr       string `xml:""code,attr,omitempty""`";
     TAB ++ "IdentifierAttr int    `xml:""identifier,attr,omitempty""`";
     "}";
     "";
     "// MyType7 ...";
     "type MyType7 struct {";
     TAB ++ "OriginAttr string `xml:""origin,attr""`";
     TAB ++ "Value      string `xml:"",chardata""`";
     "}";
     "";
     "// TopLevel ...";
     "type TopLevel struct {";
     TAB ++ "CostAttr        float64    `xml:""cost,attr,omitempty""`";
     TAB ++ "LastUpdatedAttr string     `xml:""LastUpdated,attr,omitempty""`";
     TAB ++ "Nested          *MyType7   `xml:""nested""`";
     TAB ++ "MyType1         []string   `xml:""myType1""`";
     TAB ++ "MyType2         []*MyType2 `xml:""myType2""`";
     TAB ++ "*MyType6";
     "}";
     ""].

Example fixture_go :
  option_map squeeze (fixture_run "Go" ".go") = Some (squeeze expected_go).
Proof. vm_compute. reflexivity. Qed.

