(* The names of elements and attributes in SVG and MathML.
   Model of src/justhtml/parser/engine.py (_prepare_raw_element, _prepare_foreign_attrs) and its tables in core/constants.py.  No proofs in this file. *)
From Coq Require Import NArith List Bool String.
From Verif Require Import Str AttrModel.
Import ListNotations.
Open Scope list_scope.
Open Scope N_scope.

(* core/constants.py:13-25 FOREIGN_ATTRIBUTE_ADJUSTMENTS, without the namespace URLs, which nothing reads here *)
Definition foreign_attribute_adjustments : list (str * (option str * str)) :=
  [(u "xlink:actuate", (Some (u "xlink"), u "actuate"));
   (u "xlink:arcrole", (Some (u "xlink"), u "arcrole"));
   (u "xlink:href", (Some (u "xlink"), u "href"));
   (u "xlink:role", (Some (u "xlink"), u "role"));
   (u "xlink:show", (Some (u "xlink"), u "show"));
   (u "xlink:title", (Some (u "xlink"), u "title"));
   (u "xlink:type", (Some (u "xlink"), u "type"));
   (u "xml:lang", (Some (u "xml"), u "lang"));
   (u "xml:space", (Some (u "xml"), u "space"));
   (u "xmlns", (None, u "xmlns"));
   (u "xmlns:xlink", (Some (u "xmlns"), u "xlink"))].
(* core/constants.py:28-30 MATHML_ATTRIBUTE_ADJUSTMENTS *)
Definition mathml_attribute_adjustments : list (str * str) :=
  [(u "definitionurl", u "definitionURL")].
(* core/constants.py:33-92 SVG_ATTRIBUTE_ADJUSTMENTS *)
Definition svg_attribute_adjustments : list (str * str) :=
  [(u "attributename", u "attributeName"); (u "attributetype", u "attributeType"); (u "basefrequency", u "baseFrequency"); (u "baseprofile", u "baseProfile");
   (u "calcmode", u "calcMode"); (u "clippathunits", u "clipPathUnits"); (u "diffuseconstant", u "diffuseConstant"); (u "edgemode", u "edgeMode");
   (u "filterunits", u "filterUnits"); (u "glyphref", u "glyphRef"); (u "gradienttransform", u "gradientTransform"); (u "gradientunits", u "gradientUnits");
   (u "kernelmatrix", u "kernelMatrix"); (u "kernelunitlength", u "kernelUnitLength"); (u "keypoints", u "keyPoints"); (u "keysplines", u "keySplines");
   (u "keytimes", u "keyTimes"); (u "lengthadjust", u "lengthAdjust"); (u "limitingconeangle", u "limitingConeAngle"); (u "markerheight", u "markerHeight");
   (u "markerunits", u "markerUnits"); (u "markerwidth", u "markerWidth"); (u "maskcontentunits", u "maskContentUnits"); (u "maskunits", u "maskUnits");
   (u "numoctaves", u "numOctaves"); (u "pathlength", u "pathLength"); (u "patterncontentunits", u "patternContentUnits"); (u "patterntransform", u "patternTransform");
   (u "patternunits", u "patternUnits"); (u "pointsatx", u "pointsAtX"); (u "pointsaty", u "pointsAtY"); (u "pointsatz", u "pointsAtZ");
   (u "preservealpha", u "preserveAlpha"); (u "preserveaspectratio", u "preserveAspectRatio"); (u "primitiveunits", u "primitiveUnits"); (u "refx", u "refX");
   (u "refy", u "refY"); (u "repeatcount", u "repeatCount"); (u "repeatdur", u "repeatDur"); (u "requiredextensions", u "requiredExtensions");
   (u "requiredfeatures", u "requiredFeatures"); (u "specularconstant", u "specularConstant"); (u "specularexponent", u "specularExponent"); (u "spreadmethod", u "spreadMethod");
   (u "startoffset", u "startOffset"); (u "stddeviation", u "stdDeviation"); (u "stitchtiles", u "stitchTiles"); (u "surfacescale", u "surfaceScale");
   (u "systemlanguage", u "systemLanguage"); (u "tablevalues", u "tableValues"); (u "targetx", u "targetX"); (u "targety", u "targetY");
   (u "textlength", u "textLength"); (u "viewbox", u "viewBox"); (u "viewtarget", u "viewTarget"); (u "xchannelselector", u "xChannelSelector");
   (u "ychannelselector", u "yChannelSelector"); (u "zoomandpan", u "zoomAndPan")].
(* core/constants.py:379-416 SVG_TAG_NAME_ADJUSTMENTS *)
Definition svg_tag_name_adjustments : list (str * str) :=
  [(u "altglyph", u "altGlyph"); (u "altglyphdef", u "altGlyphDef"); (u "altglyphitem", u "altGlyphItem"); (u "animatecolor", u "animateColor");
   (u "animatemotion", u "animateMotion"); (u "animatetransform", u "animateTransform"); (u "clippath", u "clipPath"); (u "feblend", u "feBlend");
   (u "fecolormatrix", u "feColorMatrix"); (u "fecomponenttransfer", u "feComponentTransfer"); (u "fecomposite", u "feComposite"); (u "feconvolvematrix", u "feConvolveMatrix");
   (u "fediffuselighting", u "feDiffuseLighting"); (u "fedisplacementmap", u "feDisplacementMap"); (u "fedistantlight", u "feDistantLight"); (u "feflood", u "feFlood");
   (u "fefunca", u "feFuncA"); (u "fefuncb", u "feFuncB"); (u "fefuncg", u "feFuncG"); (u "fefuncr", u "feFuncR");
   (u "fegaussianblur", u "feGaussianBlur"); (u "feimage", u "feImage"); (u "femerge", u "feMerge"); (u "femergenode", u "feMergeNode");
   (u "femorphology", u "feMorphology"); (u "feoffset", u "feOffset"); (u "fepointlight", u "fePointLight"); (u "fespecularlighting", u "feSpecularLighting");
   (u "fespotlight", u "feSpotLight"); (u "fetile", u "feTile"); (u "feturbulence", u "feTurbulence"); (u "foreignobject", u "foreignObject");
   (u "glyphref", u "glyphRef"); (u "lineargradient", u "linearGradient"); (u "radialgradient", u "radialGradient"); (u "textpath", u "textPath")].

Definition svg : str := u "svg".
Definition math : str := u "math".
Notation attrs := (list (str * option str)).
Definition has_key (k : str) (l : attrs) : bool := existsb (fun a => str_eqb k (fst a)) l.

(* engine.py:4359-4371, the name of one attribute.  s if s.islower() else s.lower() is s.lower(): str.lower() changes no lower-case string. *)
Definition attr_name (namespace name : str) : str :=
  let lower_name := lower name in
  let '(name, lower_name) :=
    match (if str_eqb namespace math then assoc lower_name mathml_attribute_adjustments else None) with
    | Some n => (n, lower n)
    | None =>
      match (if str_eqb namespace svg then assoc lower_name svg_attribute_adjustments else None) with
      | Some n => (n, lower n)
      | None => (name, lower_name)
      end
    end in
  match assoc lower_name foreign_attribute_adjustments with
  | Some (Some prefix, local) => prefix ++ [58] ++ local
  | Some (None, local) => local
  | None => name
  end.
(* engine.py:4354-4374 _prepare_foreign_attrs *)
Definition prepare_foreign_attrs (namespace : str) (l : attrs) : attrs :=
  fold_left (fun adjusted a => let n := attr_name namespace (fst a) in if has_key n adjusted then adjusted else adjusted ++ [(n, snd a)]) l [].
(* engine.py:4290-4300 _prepare_raw_element, once the namespace is known *)
Definition element_name (namespace name : str) : str :=
  if str_eqb namespace svg then match assoc name svg_tag_name_adjustments with Some n => n | None => name end else name.
Definition prepare (namespace name : str) (l : attrs) : str * attrs :=
  (element_name namespace name, if str_eqb namespace svg || str_eqb namespace math then prepare_foreign_attrs namespace l else l).
