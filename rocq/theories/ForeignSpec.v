(* The standard's adjustments of names in foreign content (13.2.6.1 "adjust MathML attributes", "adjust SVG attributes", "adjust foreign attributes" and
   the table of SVG tag names in 13.2.6.5).  Adjusting foreign attributes splits a name into prefix and local name; printed, it is the same name.
   No proofs in this file. *)
From Coq Require Import NArith List Bool String.
From Verif Require Import Str.
Import ListNotations.
Open Scope N_scope.

Definition svg_attribute_names : list str := map u [
   "attributeName"; "attributeType"; "baseFrequency"; "baseProfile"; "calcMode"; "clipPathUnits"; "diffuseConstant"; "edgeMode";
   "filterUnits"; "glyphRef"; "gradientTransform"; "gradientUnits"; "kernelMatrix"; "kernelUnitLength"; "keyPoints"; "keySplines";
   "keyTimes"; "lengthAdjust"; "limitingConeAngle"; "markerHeight"; "markerUnits"; "markerWidth"; "maskContentUnits"; "maskUnits";
   "numOctaves"; "pathLength"; "patternContentUnits"; "patternTransform"; "patternUnits"; "pointsAtX"; "pointsAtY"; "pointsAtZ";
   "preserveAlpha"; "preserveAspectRatio"; "primitiveUnits"; "refX"; "refY"; "repeatCount"; "repeatDur"; "requiredExtensions";
   "requiredFeatures"; "specularConstant"; "specularExponent"; "spreadMethod"; "startOffset"; "stdDeviation"; "stitchTiles"; "surfaceScale";
   "systemLanguage"; "tableValues"; "targetX"; "targetY"; "textLength"; "viewBox"; "viewTarget"; "xChannelSelector";
   "yChannelSelector"; "zoomAndPan"]%string.
Definition svg_element_names : list str := map u [
   "altGlyph"; "altGlyphDef"; "altGlyphItem"; "animateColor"; "animateMotion"; "animateTransform"; "clipPath"; "feBlend";
   "feColorMatrix"; "feComponentTransfer"; "feComposite"; "feConvolveMatrix"; "feDiffuseLighting"; "feDisplacementMap"; "feDistantLight"; "feDropShadow";
   "feFlood"; "feFuncA"; "feFuncB"; "feFuncG"; "feFuncR"; "feGaussianBlur"; "feImage"; "feMerge";
   "feMergeNode"; "feMorphology"; "feOffset"; "fePointLight"; "feSpecularLighting"; "feSpotLight"; "feTile"; "feTurbulence";
   "foreignObject"; "glyphRef"; "linearGradient"; "radialGradient"; "textPath"]%string.
(* The name in mixed case, when the name is one of these in lower case. *)
Fixpoint mixed_case (names : list str) (n : str) : str :=
  match names with [] => n | m :: r => if str_eqb (alow m) n then m else mixed_case r n end.
Definition svg_attribute (n : str) : str := mixed_case svg_attribute_names n.
Definition mathml_attribute (n : str) : str := mixed_case [u "definitionURL"] n.
Definition svg_element (n : str) : str := mixed_case svg_element_names n.
