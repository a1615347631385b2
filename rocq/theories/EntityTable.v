(* GENERATED by tools/gen_entities.py. Data only: html.entities.html5 of the Python standard library (the
   WHATWG named character reference table) and LEGACY_ENTITIES of /repo/src/justhtml/core/entities.py:36-142. *)
From Verif Require Import Str.
Open Scope string_scope.
Definition html5_raw : list (string * list N) := [
  ("AElig", [198]%N);
  ("AElig;", [198]%N);
  ("AMP", [38]%N);
  ("AMP;", [38]%N);
  ("Aacute", [193]%N);
  ("Aacute;", [193]%N);
  ("Abreve;", [258]%N);
  ("Acirc", [194]%N);
  ("Acirc;", [194]%N);
  ("Acy;", [1040]%N);
  ("Afr;", [120068]%N);
  ("Agrave", [192]%N);
  ("Agrave;", [192]%N);
  ("Alpha;", [913]%N);
  ("Amacr;", [256]%N);
  ("And;", [10835]%N);
  ("Aogon;", [260]%N);
  ("Aopf;", [120120]%N);
  ("ApplyFunction;", [8289]%N);
  ("Aring", [197]%N);
  ("Aring;", [197]%N);
  ("Ascr;", [119964]%N);
  ("Assign;", [8788]%N);
  ("Atilde", [195]%N);
  ("Atilde;", [195]%N);
  ("Auml", [196]%N);
  ("Auml;", [196]%N);
  ("Backslash;", [8726]%N);
  ("Barv;", [10983]%N);
  ("Barwed;", [8966]%N);
  ("Bcy;", [1041]%N);
  ("Because;", [8757]%N);
  ("Bernoullis;", [8492]%N);
  ("Beta;", [914]%N);
  ("Bfr;", [120069]%N);
  ("Bopf;", [120121]%N);
  ("Breve;", [728]%N);
  ("Bscr;", [8492]%N);
  ("Bumpeq;", [8782]%N);
  ("CHcy;", [1063]%N);
  ("COPY", [169]%N);
  ("COPY;", [169]%N);
  ("Cacute;", [262]%N);
  ("Cap;", [8914]%N);
  ("CapitalDifferentialD;", [8517]%N);
  ("Cayleys;", [8493]%N);
  ("Ccaron;", [268]%N);
  ("Ccedil", [199]%N);
  ("Ccedil;", [199]%N);
  ("Ccirc;", [264]%N);
  ("Cconint;", [8752]%N);
  ("Cdot;", [266]%N);
  ("Cedilla;", [184]%N);
  ("CenterDot;", [183]%N);
  ("Cfr;", [8493]%N);
  ("Chi;", [935]%N);
  ("CircleDot;", [8857]%N);
  ("CircleMinus;", [8854]%N);
  ("CirclePlus;", [8853]%N);
  ("CircleTimes;", [8855]%N);
  ("ClockwiseContourIntegral;", [8754]%N);
  ("CloseCurlyDoubleQuote;", [8221]%N);
  ("CloseCurlyQuote;", [8217]%N);
  ("Colon;", [8759]%N);
  ("Colone;", [10868]%N);
  ("Congruent;", [8801]%N);
  ("Conint;", [8751]%N);
  ("ContourIntegral;", [8750]%N);
  ("Copf;", [8450]%N);
  ("Coproduct;", [8720]%N);
  ("CounterClockwiseContourIntegral;", [8755]%N);
  ("Cross;", [10799]%N);
  ("Cscr;", [119966]%N);
  ("Cup;", [8915]%N);
  ("CupCap;", [8781]%N);
  ("DD;", [8517]%N);
  ("DDotrahd;", [10513]%N);
  ("DJcy;", [1026]%N);
  ("DScy;", [1029]%N);
  ("DZcy;", [1039]%N);
  ("Dagger;", [8225]%N);
  ("Darr;", [8609]%N);
  ("Dashv;", [10980]%N);
  ("Dcaron;", [270]%N);
  ("Dcy;", [1044]%N);
  ("Del;", [8711]%N);
  ("Delta;", [916]%N);
  ("Dfr;", [120071]%N);
  ("DiacriticalAcute;", [180]%N);
  ("DiacriticalDot;", [729]%N);
  ("DiacriticalDoubleAcute;", [733]%N);
  ("DiacriticalGrave;", [96]%N);
  ("DiacriticalTilde;", [732]%N);
  ("Diamond;", [8900]%N);
  ("DifferentialD;", [8518]%N);
  ("Dopf;", [120123]%N);
  ("Dot;", [168]%N);
  ("DotDot;", [8412]%N);
  ("DotEqual;", [8784]%N);
  ("DoubleContourIntegral;", [8751]%N);
  ("DoubleDot;", [168]%N);
  ("DoubleDownArrow;", [8659]%N);
  ("DoubleLeftArrow;", [8656]%N);
  ("DoubleLeftRightArrow;", [8660]%N);
  ("DoubleLeftTee;", [10980]%N);
  ("DoubleLongLeftArrow;", [10232]%N);
  ("DoubleLongLeftRightArrow;", [10234]%N);
  ("DoubleLongRightArrow;", [10233]%N);
  ("DoubleRightArrow;", [8658]%N);
  ("DoubleRightTee;", [8872]%N);
  ("DoubleUpArrow;", [8657]%N);
  ("DoubleUpDownArrow;", [8661]%N);
  ("DoubleVerticalBar;", [8741]%N);
  ("DownArrow;", [8595]%N);
  ("DownArrowBar;", [10515]%N);
  ("DownArrowUpArrow;", [8693]%N);
  ("DownBreve;", [785]%N);
  ("DownLeftRightVector;", [10576]%N);
  ("DownLeftTeeVector;", [10590]%N);
  ("DownLeftVector;", [8637]%N);
  ("DownLeftVectorBar;", [10582]%N);
  ("DownRightTeeVector;", [10591]%N);
  ("DownRightVector;", [8641]%N);
  ("DownRightVectorBar;", [10583]%N);
  ("DownTee;", [8868]%N);
  ("DownTeeArrow;", [8615]%N);
  ("Downarrow;", [8659]%N);
  ("Dscr;", [119967]%N);
  ("Dstrok;", [272]%N);
  ("ENG;", [330]%N);
  ("ETH", [208]%N);
  ("ETH;", [208]%N);
  ("Eacute", [201]%N);
  ("Eacute;", [201]%N);
  ("Ecaron;", [282]%N);
  ("Ecirc", [202]%N);
  ("Ecirc;", [202]%N);
  ("Ecy;", [1069]%N);
  ("Edot;", [278]%N);
  ("Efr;", [120072]%N);
  ("Egrave", [200]%N);
  ("Egrave;", [200]%N);
  ("Element;", [8712]%N);
  ("Emacr;", [274]%N);
  ("EmptySmallSquare;", [9723]%N);
  ("EmptyVerySmallSquare;", [9643]%N);
  ("Eogon;", [280]%N);
  ("Eopf;", [120124]%N);
  ("Epsilon;", [917]%N);
  ("Equal;", [10869]%N);
  ("EqualTilde;", [8770]%N);
  ("Equilibrium;", [8652]%N);
  ("Escr;", [8496]%N);
  ("Esim;", [10867]%N);
  ("Eta;", [919]%N);
  ("Euml", [203]%N);
  ("Euml;", [203]%N);
  ("Exists;", [8707]%N);
  ("ExponentialE;", [8519]%N);
  ("Fcy;", [1060]%N);
  ("Ffr;", [120073]%N);
  ("FilledSmallSquare;", [9724]%N);
  ("FilledVerySmallSquare;", [9642]%N);
  ("Fopf;", [120125]%N);
  ("ForAll;", [8704]%N);
  ("Fouriertrf;", [8497]%N);
  ("Fscr;", [8497]%N);
  ("GJcy;", [1027]%N);
  ("GT", [62]%N);
  ("GT;", [62]%N);
  ("Gamma;", [915]%N);
  ("Gammad;", [988]%N);
  ("Gbreve;", [286]%N);
  ("Gcedil;", [290]%N);
  ("Gcirc;", [284]%N);
  ("Gcy;", [1043]%N);
  ("Gdot;", [288]%N);
  ("Gfr;", [120074]%N);
  ("Gg;", [8921]%N);
  ("Gopf;", [120126]%N);
  ("GreaterEqual;", [8805]%N);
  ("GreaterEqualLess;", [8923]%N);
  ("GreaterFullEqual;", [8807]%N);
  ("GreaterGreater;", [10914]%N);
  ("GreaterLess;", [8823]%N);
  ("GreaterSlantEqual;", [10878]%N);
  ("GreaterTilde;", [8819]%N);
  ("Gscr;", [119970]%N);
  ("Gt;", [8811]%N);
  ("HARDcy;", [1066]%N);
  ("Hacek;", [711]%N);
  ("Hat;", [94]%N);
  ("Hcirc;", [292]%N);
  ("Hfr;", [8460]%N);
  ("HilbertSpace;", [8459]%N);
  ("Hopf;", [8461]%N);
  ("HorizontalLine;", [9472]%N);
  ("Hscr;", [8459]%N);
  ("Hstrok;", [294]%N);
  ("HumpDownHump;", [8782]%N);
  ("HumpEqual;", [8783]%N);
  ("IEcy;", [1045]%N);
  ("IJlig;", [306]%N);
  ("IOcy;", [1025]%N);
  ("Iacute", [205]%N);
  ("Iacute;", [205]%N);
  ("Icirc", [206]%N);
  ("Icirc;", [206]%N);
  ("Icy;", [1048]%N);
  ("Idot;", [304]%N);
  ("Ifr;", [8465]%N);
  ("Igrave", [204]%N);
  ("Igrave;", [204]%N);
  ("Im;", [8465]%N);
  ("Imacr;", [298]%N);
  ("ImaginaryI;", [8520]%N);
  ("Implies;", [8658]%N);
  ("Int;", [8748]%N);
  ("Integral;", [8747]%N);
  ("Intersection;", [8898]%N);
  ("InvisibleComma;", [8291]%N);
  ("InvisibleTimes;", [8290]%N);
  ("Iogon;", [302]%N);
  ("Iopf;", [120128]%N);
  ("Iota;", [921]%N);
  ("Iscr;", [8464]%N);
  ("Itilde;", [296]%N);
  ("Iukcy;", [1030]%N);
  ("Iuml", [207]%N);
  ("Iuml;", [207]%N);
  ("Jcirc;", [308]%N);
  ("Jcy;", [1049]%N);
  ("Jfr;", [120077]%N);
  ("Jopf;", [120129]%N);
  ("Jscr;", [119973]%N);
  ("Jsercy;", [1032]%N);
  ("Jukcy;", [1028]%N);
  ("KHcy;", [1061]%N);
  ("KJcy;", [1036]%N);
  ("Kappa;", [922]%N);
  ("Kcedil;", [310]%N);
  ("Kcy;", [1050]%N);
  ("Kfr;", [120078]%N);
  ("Kopf;", [120130]%N);
  ("Kscr;", [119974]%N);
  ("LJcy;", [1033]%N);
  ("LT", [60]%N);
  ("LT;", [60]%N);
  ("Lacute;", [313]%N);
  ("Lambda;", [923]%N);
  ("Lang;", [10218]%N);
  ("Laplacetrf;", [8466]%N);
  ("Larr;", [8606]%N);
  ("Lcaron;", [317]%N);
  ("Lcedil;", [315]%N);
  ("Lcy;", [1051]%N);
  ("LeftAngleBracket;", [10216]%N);
  ("LeftArrow;", [8592]%N);
  ("LeftArrowBar;", [8676]%N);
  ("LeftArrowRightArrow;", [8646]%N);
  ("LeftCeiling;", [8968]%N);
  ("LeftDoubleBracket;", [10214]%N);
  ("LeftDownTeeVector;", [10593]%N);
  ("LeftDownVector;", [8643]%N);
  ("LeftDownVectorBar;", [10585]%N);
  ("LeftFloor;", [8970]%N);
  ("LeftRightArrow;", [8596]%N);
  ("LeftRightVector;", [10574]%N);
  ("LeftTee;", [8867]%N);
  ("LeftTeeArrow;", [8612]%N);
  ("LeftTeeVector;", [10586]%N);
  ("LeftTriangle;", [8882]%N);
  ("LeftTriangleBar;", [10703]%N);
  ("LeftTriangleEqual;", [8884]%N);
  ("LeftUpDownVector;", [10577]%N);
  ("LeftUpTeeVector;", [10592]%N);
  ("LeftUpVector;", [8639]%N);
  ("LeftUpVectorBar;", [10584]%N);
  ("LeftVector;", [8636]%N);
  ("LeftVectorBar;", [10578]%N);
  ("Leftarrow;", [8656]%N);
  ("Leftrightarrow;", [8660]%N);
  ("LessEqualGreater;", [8922]%N);
  ("LessFullEqual;", [8806]%N);
  ("LessGreater;", [8822]%N);
  ("LessLess;", [10913]%N);
  ("LessSlantEqual;", [10877]%N);
  ("LessTilde;", [8818]%N);
  ("Lfr;", [120079]%N);
  ("Ll;", [8920]%N);
  ("Lleftarrow;", [8666]%N);
  ("Lmidot;", [319]%N);
  ("LongLeftArrow;", [10229]%N);
  ("LongLeftRightArrow;", [10231]%N);
  ("LongRightArrow;", [10230]%N);
  ("Longleftarrow;", [10232]%N);
  ("Longleftrightarrow;", [10234]%N);
  ("Longrightarrow;", [10233]%N);
  ("Lopf;", [120131]%N);
  ("LowerLeftArrow;", [8601]%N);
  ("LowerRightArrow;", [8600]%N);
  ("Lscr;", [8466]%N);
  ("Lsh;", [8624]%N);
  ("Lstrok;", [321]%N);
  ("Lt;", [8810]%N);
  ("Map;", [10501]%N);
  ("Mcy;", [1052]%N);
  ("MediumSpace;", [8287]%N);
  ("Mellintrf;", [8499]%N);
  ("Mfr;", [120080]%N);
  ("MinusPlus;", [8723]%N);
  ("Mopf;", [120132]%N);
  ("Mscr;", [8499]%N);
  ("Mu;", [924]%N);
  ("NJcy;", [1034]%N);
  ("Nacute;", [323]%N);
  ("Ncaron;", [327]%N);
  ("Ncedil;", [325]%N);
  ("Ncy;", [1053]%N);
  ("NegativeMediumSpace;", [8203]%N);
  ("NegativeThickSpace;", [8203]%N);
  ("NegativeThinSpace;", [8203]%N);
  ("NegativeVeryThinSpace;", [8203]%N);
  ("NestedGreaterGreater;", [8811]%N);
  ("NestedLessLess;", [8810]%N);
  ("NewLine;", [10]%N);
  ("Nfr;", [120081]%N);
  ("NoBreak;", [8288]%N);
  ("NonBreakingSpace;", [160]%N);
  ("Nopf;", [8469]%N);
  ("Not;", [10988]%N);
  ("NotCongruent;", [8802]%N);
  ("NotCupCap;", [8813]%N);
  ("NotDoubleVerticalBar;", [8742]%N);
  ("NotElement;", [8713]%N);
  ("NotEqual;", [8800]%N);
  ("NotEqualTilde;", [8770;824]%N);
  ("NotExists;", [8708]%N);
  ("NotGreater;", [8815]%N);
  ("NotGreaterEqual;", [8817]%N);
  ("NotGreaterFullEqual;", [8807;824]%N);
  ("NotGreaterGreater;", [8811;824]%N);
  ("NotGreaterLess;", [8825]%N);
  ("NotGreaterSlantEqual;", [10878;824]%N);
  ("NotGreaterTilde;", [8821]%N);
  ("NotHumpDownHump;", [8782;824]%N);
  ("NotHumpEqual;", [8783;824]%N);
  ("NotLeftTriangle;", [8938]%N);
  ("NotLeftTriangleBar;", [10703;824]%N);
  ("NotLeftTriangleEqual;", [8940]%N);
  ("NotLess;", [8814]%N);
  ("NotLessEqual;", [8816]%N);
  ("NotLessGreater;", [8824]%N);
  ("NotLessLess;", [8810;824]%N);
  ("NotLessSlantEqual;", [10877;824]%N);
  ("NotLessTilde;", [8820]%N);
  ("NotNestedGreaterGreater;", [10914;824]%N);
  ("NotNestedLessLess;", [10913;824]%N);
  ("NotPrecedes;", [8832]%N);
  ("NotPrecedesEqual;", [10927;824]%N);
  ("NotPrecedesSlantEqual;", [8928]%N);
  ("NotReverseElement;", [8716]%N);
  ("NotRightTriangle;", [8939]%N);
  ("NotRightTriangleBar;", [10704;824]%N);
  ("NotRightTriangleEqual;", [8941]%N);
  ("NotSquareSubset;", [8847;824]%N);
  ("NotSquareSubsetEqual;", [8930]%N);
  ("NotSquareSuperset;", [8848;824]%N);
  ("NotSquareSupersetEqual;", [8931]%N);
  ("NotSubset;", [8834;8402]%N);
  ("NotSubsetEqual;", [8840]%N);
  ("NotSucceeds;", [8833]%N);
  ("NotSucceedsEqual;", [10928;824]%N);
  ("NotSucceedsSlantEqual;", [8929]%N);
  ("NotSucceedsTilde;", [8831;824]%N);
  ("NotSuperset;", [8835;8402]%N);
  ("NotSupersetEqual;", [8841]%N);
  ("NotTilde;", [8769]%N);
  ("NotTildeEqual;", [8772]%N);
  ("NotTildeFullEqual;", [8775]%N);
  ("NotTildeTilde;", [8777]%N);
  ("NotVerticalBar;", [8740]%N);
  ("Nscr;", [119977]%N);
  ("Ntilde", [209]%N);
  ("Ntilde;", [209]%N);
  ("Nu;", [925]%N);
  ("OElig;", [338]%N);
  ("Oacute", [211]%N);
  ("Oacute;", [211]%N);
  ("Ocirc", [212]%N);
  ("Ocirc;", [212]%N);
  ("Ocy;", [1054]%N);
  ("Odblac;", [336]%N);
  ("Ofr;", [120082]%N);
  ("Ograve", [210]%N);
  ("Ograve;", [210]%N);
  ("Omacr;", [332]%N);
  ("Omega;", [937]%N);
  ("Omicron;", [927]%N);
  ("Oopf;", [120134]%N);
  ("OpenCurlyDoubleQuote;", [8220]%N);
  ("OpenCurlyQuote;", [8216]%N);
  ("Or;", [10836]%N);
  ("Oscr;", [119978]%N);
  ("Oslash", [216]%N);
  ("Oslash;", [216]%N);
  ("Otilde", [213]%N);
  ("Otilde;", [213]%N);
  ("Otimes;", [10807]%N);
  ("Ouml", [214]%N);
  ("Ouml;", [214]%N);
  ("OverBar;", [8254]%N);
  ("OverBrace;", [9182]%N);
  ("OverBracket;", [9140]%N);
  ("OverParenthesis;", [9180]%N);
  ("PartialD;", [8706]%N);
  ("Pcy;", [1055]%N);
  ("Pfr;", [120083]%N);
  ("Phi;", [934]%N);
  ("Pi;", [928]%N);
  ("PlusMinus;", [177]%N);
  ("Poincareplane;", [8460]%N);
  ("Popf;", [8473]%N);
  ("Pr;", [10939]%N);
  ("Precedes;", [8826]%N);
  ("PrecedesEqual;", [10927]%N);
  ("PrecedesSlantEqual;", [8828]%N);
  ("PrecedesTilde;", [8830]%N);
  ("Prime;", [8243]%N);
  ("Product;", [8719]%N);
  ("Proportion;", [8759]%N);
  ("Proportional;", [8733]%N);
  ("Pscr;", [119979]%N);
  ("Psi;", [936]%N);
  ("QUOT", [34]%N);
  ("QUOT;", [34]%N);
  ("Qfr;", [120084]%N);
  ("Qopf;", [8474]%N);
  ("Qscr;", [119980]%N);
  ("RBarr;", [10512]%N);
  ("REG", [174]%N);
  ("REG;", [174]%N);
  ("Racute;", [340]%N);
  ("Rang;", [10219]%N);
  ("Rarr;", [8608]%N);
  ("Rarrtl;", [10518]%N);
  ("Rcaron;", [344]%N);
  ("Rcedil;", [342]%N);
  ("Rcy;", [1056]%N);
  ("Re;", [8476]%N);
  ("ReverseElement;", [8715]%N);
  ("ReverseEquilibrium;", [8651]%N);
  ("ReverseUpEquilibrium;", [10607]%N);
  ("Rfr;", [8476]%N);
  ("Rho;", [929]%N);
  ("RightAngleBracket;", [10217]%N);
  ("RightArrow;", [8594]%N);
  ("RightArrowBar;", [8677]%N);
  ("RightArrowLeftArrow;", [8644]%N);
  ("RightCeiling;", [8969]%N);
  ("RightDoubleBracket;", [10215]%N);
  ("RightDownTeeVector;", [10589]%N);
  ("RightDownVector;", [8642]%N);
  ("RightDownVectorBar;", [10581]%N);
  ("RightFloor;", [8971]%N);
  ("RightTee;", [8866]%N);
  ("RightTeeArrow;", [8614]%N);
  ("RightTeeVector;", [10587]%N);
  ("RightTriangle;", [8883]%N);
  ("RightTriangleBar;", [10704]%N);
  ("RightTriangleEqual;", [8885]%N);
  ("RightUpDownVector;", [10575]%N);
  ("RightUpTeeVector;", [10588]%N);
  ("RightUpVector;", [8638]%N);
  ("RightUpVectorBar;", [10580]%N);
  ("RightVector;", [8640]%N);
  ("RightVectorBar;", [10579]%N);
  ("Rightarrow;", [8658]%N);
  ("Ropf;", [8477]%N);
  ("RoundImplies;", [10608]%N);
  ("Rrightarrow;", [8667]%N);
  ("Rscr;", [8475]%N);
  ("Rsh;", [8625]%N);
  ("RuleDelayed;", [10740]%N);
  ("SHCHcy;", [1065]%N);
  ("SHcy;", [1064]%N);
  ("SOFTcy;", [1068]%N);
  ("Sacute;", [346]%N);
  ("Sc;", [10940]%N);
  ("Scaron;", [352]%N);
  ("Scedil;", [350]%N);
  ("Scirc;", [348]%N);
  ("Scy;", [1057]%N);
  ("Sfr;", [120086]%N);
  ("ShortDownArrow;", [8595]%N);
  ("ShortLeftArrow;", [8592]%N);
  ("ShortRightArrow;", [8594]%N);
  ("ShortUpArrow;", [8593]%N);
  ("Sigma;", [931]%N);
  ("SmallCircle;", [8728]%N);
  ("Sopf;", [120138]%N);
  ("Sqrt;", [8730]%N);
  ("Square;", [9633]%N);
  ("SquareIntersection;", [8851]%N);
  ("SquareSubset;", [8847]%N);
  ("SquareSubsetEqual;", [8849]%N);
  ("SquareSuperset;", [8848]%N);
  ("SquareSupersetEqual;", [8850]%N);
  ("SquareUnion;", [8852]%N);
  ("Sscr;", [119982]%N);
  ("Star;", [8902]%N);
  ("Sub;", [8912]%N);
  ("Subset;", [8912]%N);
  ("SubsetEqual;", [8838]%N);
  ("Succeeds;", [8827]%N);
  ("SucceedsEqual;", [10928]%N);
  ("SucceedsSlantEqual;", [8829]%N);
  ("SucceedsTilde;", [8831]%N);
  ("SuchThat;", [8715]%N);
  ("Sum;", [8721]%N);
  ("Sup;", [8913]%N);
  ("Superset;", [8835]%N);
  ("SupersetEqual;", [8839]%N);
  ("Supset;", [8913]%N);
  ("THORN", [222]%N);
  ("THORN;", [222]%N);
  ("TRADE;", [8482]%N);
  ("TSHcy;", [1035]%N);
  ("TScy;", [1062]%N);
  ("Tab;", [9]%N);
  ("Tau;", [932]%N);
  ("Tcaron;", [356]%N);
  ("Tcedil;", [354]%N);
  ("Tcy;", [1058]%N);
  ("Tfr;", [120087]%N);
  ("Therefore;", [8756]%N);
  ("Theta;", [920]%N);
  ("ThickSpace;", [8287;8202]%N);
  ("ThinSpace;", [8201]%N);
  ("Tilde;", [8764]%N);
  ("TildeEqual;", [8771]%N);
  ("TildeFullEqual;", [8773]%N);
  ("TildeTilde;", [8776]%N);
  ("Topf;", [120139]%N);
  ("TripleDot;", [8411]%N);
  ("Tscr;", [119983]%N);
  ("Tstrok;", [358]%N);
  ("Uacute", [218]%N);
  ("Uacute;", [218]%N);
  ("Uarr;", [8607]%N);
  ("Uarrocir;", [10569]%N);
  ("Ubrcy;", [1038]%N);
  ("Ubreve;", [364]%N);
  ("Ucirc", [219]%N);
  ("Ucirc;", [219]%N);
  ("Ucy;", [1059]%N);
  ("Udblac;", [368]%N);
  ("Ufr;", [120088]%N);
  ("Ugrave", [217]%N);
  ("Ugrave;", [217]%N);
  ("Umacr;", [362]%N);
  ("UnderBar;", [95]%N);
  ("UnderBrace;", [9183]%N);
  ("UnderBracket;", [9141]%N);
  ("UnderParenthesis;", [9181]%N);
  ("Union;", [8899]%N);
  ("UnionPlus;", [8846]%N);
  ("Uogon;", [370]%N);
  ("Uopf;", [120140]%N);
  ("UpArrow;", [8593]%N);
  ("UpArrowBar;", [10514]%N);
  ("UpArrowDownArrow;", [8645]%N);
  ("UpDownArrow;", [8597]%N);
  ("UpEquilibrium;", [10606]%N);
  ("UpTee;", [8869]%N);
  ("UpTeeArrow;", [8613]%N);
  ("Uparrow;", [8657]%N);
  ("Updownarrow;", [8661]%N);
  ("UpperLeftArrow;", [8598]%N);
  ("UpperRightArrow;", [8599]%N);
  ("Upsi;", [978]%N);
  ("Upsilon;", [933]%N);
  ("Uring;", [366]%N);
  ("Uscr;", [119984]%N);
  ("Utilde;", [360]%N);
  ("Uuml", [220]%N);
  ("Uuml;", [220]%N);
  ("VDash;", [8875]%N);
  ("Vbar;", [10987]%N);
  ("Vcy;", [1042]%N);
  ("Vdash;", [8873]%N);
  ("Vdashl;", [10982]%N);
  ("Vee;", [8897]%N);
  ("Verbar;", [8214]%N);
  ("Vert;", [8214]%N);
  ("VerticalBar;", [8739]%N);
  ("VerticalLine;", [124]%N);
  ("VerticalSeparator;", [10072]%N);
  ("VerticalTilde;", [8768]%N);
  ("VeryThinSpace;", [8202]%N);
  ("Vfr;", [120089]%N);
  ("Vopf;", [120141]%N);
  ("Vscr;", [119985]%N);
  ("Vvdash;", [8874]%N);
  ("Wcirc;", [372]%N);
  ("Wedge;", [8896]%N);
  ("Wfr;", [120090]%N);
  ("Wopf;", [120142]%N);
  ("Wscr;", [119986]%N);
  ("Xfr;", [120091]%N);
  ("Xi;", [926]%N);
  ("Xopf;", [120143]%N);
  ("Xscr;", [119987]%N);
  ("YAcy;", [1071]%N);
  ("YIcy;", [1031]%N);
  ("YUcy;", [1070]%N);
  ("Yacute", [221]%N);
  ("Yacute;", [221]%N);
  ("Ycirc;", [374]%N);
  ("Ycy;", [1067]%N);
  ("Yfr;", [120092]%N);
  ("Yopf;", [120144]%N);
  ("Yscr;", [119988]%N);
  ("Yuml;", [376]%N);
  ("ZHcy;", [1046]%N);
  ("Zacute;", [377]%N);
  ("Zcaron;", [381]%N);
  ("Zcy;", [1047]%N);
  ("Zdot;", [379]%N);
  ("ZeroWidthSpace;", [8203]%N);
  ("Zeta;", [918]%N);
  ("Zfr;", [8488]%N);
  ("Zopf;", [8484]%N);
  ("Zscr;", [119989]%N);
  ("aacute", [225]%N);
  ("aacute;", [225]%N);
  ("abreve;", [259]%N);
  ("ac;", [8766]%N);
  ("acE;", [8766;819]%N);
  ("acd;", [8767]%N);
  ("acirc", [226]%N);
  ("acirc;", [226]%N);
  ("acute", [180]%N);
  ("acute;", [180]%N);
  ("acy;", [1072]%N);
  ("aelig", [230]%N);
  ("aelig;", [230]%N);
  ("af;", [8289]%N);
  ("afr;", [120094]%N);
  ("agrave", [224]%N);
  ("agrave;", [224]%N);
  ("alefsym;", [8501]%N);
  ("aleph;", [8501]%N);
  ("alpha;", [945]%N);
  ("amacr;", [257]%N);
  ("amalg;", [10815]%N);
  ("amp", [38]%N);
  ("amp;", [38]%N);
  ("and;", [8743]%N);
  ("andand;", [10837]%N);
  ("andd;", [10844]%N);
  ("andslope;", [10840]%N);
  ("andv;", [10842]%N);
  ("ang;", [8736]%N);
  ("ange;", [10660]%N);
  ("angle;", [8736]%N);
  ("angmsd;", [8737]%N);
  ("angmsdaa;", [10664]%N);
  ("angmsdab;", [10665]%N);
  ("angmsdac;", [10666]%N);
  ("angmsdad;", [10667]%N);
  ("angmsdae;", [10668]%N);
  ("angmsdaf;", [10669]%N);
  ("angmsdag;", [10670]%N);
  ("angmsdah;", [10671]%N);
  ("angrt;", [8735]%N);
  ("angrtvb;", [8894]%N);
  ("angrtvbd;", [10653]%N);
  ("angsph;", [8738]%N);
  ("angst;", [197]%N);
  ("angzarr;", [9084]%N);
  ("aogon;", [261]%N);
  ("aopf;", [120146]%N);
  ("ap;", [8776]%N);
  ("apE;", [10864]%N);
  ("apacir;", [10863]%N);
  ("ape;", [8778]%N);
  ("apid;", [8779]%N);
  ("apos;", [39]%N);
  ("approx;", [8776]%N);
  ("approxeq;", [8778]%N);
  ("aring", [229]%N);
  ("aring;", [229]%N);
  ("ascr;", [119990]%N);
  ("ast;", [42]%N);
  ("asymp;", [8776]%N);
  ("asympeq;", [8781]%N);
  ("atilde", [227]%N);
  ("atilde;", [227]%N);
  ("auml", [228]%N);
  ("auml;", [228]%N);
  ("awconint;", [8755]%N);
  ("awint;", [10769]%N);
  ("bNot;", [10989]%N);
  ("backcong;", [8780]%N);
  ("backepsilon;", [1014]%N);
  ("backprime;", [8245]%N);
  ("backsim;", [8765]%N);
  ("backsimeq;", [8909]%N);
  ("barvee;", [8893]%N);
  ("barwed;", [8965]%N);
  ("barwedge;", [8965]%N);
  ("bbrk;", [9141]%N);
  ("bbrktbrk;", [9142]%N);
  ("bcong;", [8780]%N);
  ("bcy;", [1073]%N);
  ("bdquo;", [8222]%N);
  ("becaus;", [8757]%N);
  ("because;", [8757]%N);
  ("bemptyv;", [10672]%N);
  ("bepsi;", [1014]%N);
  ("bernou;", [8492]%N);
  ("beta;", [946]%N);
  ("beth;", [8502]%N);
  ("between;", [8812]%N);
  ("bfr;", [120095]%N);
  ("bigcap;", [8898]%N);
  ("bigcirc;", [9711]%N);
  ("bigcup;", [8899]%N);
  ("bigodot;", [10752]%N);
  ("bigoplus;", [10753]%N);
  ("bigotimes;", [10754]%N);
  ("bigsqcup;", [10758]%N);
  ("bigstar;", [9733]%N);
  ("bigtriangledown;", [9661]%N);
  ("bigtriangleup;", [9651]%N);
  ("biguplus;", [10756]%N);
  ("bigvee;", [8897]%N);
  ("bigwedge;", [8896]%N);
  ("bkarow;", [10509]%N);
  ("blacklozenge;", [10731]%N);
  ("blacksquare;", [9642]%N);
  ("blacktriangle;", [9652]%N);
  ("blacktriangledown;", [9662]%N);
  ("blacktriangleleft;", [9666]%N);
  ("blacktriangleright;", [9656]%N);
  ("blank;", [9251]%N);
  ("blk12;", [9618]%N);
  ("blk14;", [9617]%N);
  ("blk34;", [9619]%N);
  ("block;", [9608]%N);
  ("bne;", [61;8421]%N);
  ("bnequiv;", [8801;8421]%N);
  ("bnot;", [8976]%N);
  ("bopf;", [120147]%N);
  ("bot;", [8869]%N);
  ("bottom;", [8869]%N);
  ("bowtie;", [8904]%N);
  ("boxDL;", [9559]%N);
  ("boxDR;", [9556]%N);
  ("boxDl;", [9558]%N);
  ("boxDr;", [9555]%N);
  ("boxH;", [9552]%N);
  ("boxHD;", [9574]%N);
  ("boxHU;", [9577]%N);
  ("boxHd;", [9572]%N);
  ("boxHu;", [9575]%N);
  ("boxUL;", [9565]%N);
  ("boxUR;", [9562]%N);
  ("boxUl;", [9564]%N);
  ("boxUr;", [9561]%N);
  ("boxV;", [9553]%N);
  ("boxVH;", [9580]%N);
  ("boxVL;", [9571]%N);
  ("boxVR;", [9568]%N);
  ("boxVh;", [9579]%N);
  ("boxVl;", [9570]%N);
  ("boxVr;", [9567]%N);
  ("boxbox;", [10697]%N);
  ("boxdL;", [9557]%N);
  ("boxdR;", [9554]%N);
  ("boxdl;", [9488]%N);
  ("boxdr;", [9484]%N);
  ("boxh;", [9472]%N);
  ("boxhD;", [9573]%N);
  ("boxhU;", [9576]%N);
  ("boxhd;", [9516]%N);
  ("boxhu;", [9524]%N);
  ("boxminus;", [8863]%N);
  ("boxplus;", [8862]%N);
  ("boxtimes;", [8864]%N);
  ("boxuL;", [9563]%N);
  ("boxuR;", [9560]%N);
  ("boxul;", [9496]%N);
  ("boxur;", [9492]%N);
  ("boxv;", [9474]%N);
  ("boxvH;", [9578]%N);
  ("boxvL;", [9569]%N);
  ("boxvR;", [9566]%N);
  ("boxvh;", [9532]%N);
  ("boxvl;", [9508]%N);
  ("boxvr;", [9500]%N);
  ("bprime;", [8245]%N);
  ("breve;", [728]%N);
  ("brvbar", [166]%N);
  ("brvbar;", [166]%N);
  ("bscr;", [119991]%N);
  ("bsemi;", [8271]%N);
  ("bsim;", [8765]%N);
  ("bsime;", [8909]%N);
  ("bsol;", [92]%N);
  ("bsolb;", [10693]%N);
  ("bsolhsub;", [10184]%N);
  ("bull;", [8226]%N);
  ("bullet;", [8226]%N);
  ("bump;", [8782]%N);
  ("bumpE;", [10926]%N);
  ("bumpe;", [8783]%N);
  ("bumpeq;", [8783]%N);
  ("cacute;", [263]%N);
  ("cap;", [8745]%N);
  ("capand;", [10820]%N);
  ("capbrcup;", [10825]%N);
  ("capcap;", [10827]%N);
  ("capcup;", [10823]%N);
  ("capdot;", [10816]%N);
  ("caps;", [8745;65024]%N);
  ("caret;", [8257]%N);
  ("caron;", [711]%N);
  ("ccaps;", [10829]%N);
  ("ccaron;", [269]%N);
  ("ccedil", [231]%N);
  ("ccedil;", [231]%N);
  ("ccirc;", [265]%N);
  ("ccups;", [10828]%N);
  ("ccupssm;", [10832]%N);
  ("cdot;", [267]%N);
  ("cedil", [184]%N);
  ("cedil;", [184]%N);
  ("cemptyv;", [10674]%N);
  ("cent", [162]%N);
  ("cent;", [162]%N);
  ("centerdot;", [183]%N);
  ("cfr;", [120096]%N);
  ("chcy;", [1095]%N);
  ("check;", [10003]%N);
  ("checkmark;", [10003]%N);
  ("chi;", [967]%N);
  ("cir;", [9675]%N);
  ("cirE;", [10691]%N);
  ("circ;", [710]%N);
  ("circeq;", [8791]%N);
  ("circlearrowleft;", [8634]%N);
  ("circlearrowright;", [8635]%N);
  ("circledR;", [174]%N);
  ("circledS;", [9416]%N);
  ("circledast;", [8859]%N);
  ("circledcirc;", [8858]%N);
  ("circleddash;", [8861]%N);
  ("cire;", [8791]%N);
  ("cirfnint;", [10768]%N);
  ("cirmid;", [10991]%N);
  ("cirscir;", [10690]%N);
  ("clubs;", [9827]%N);
  ("clubsuit;", [9827]%N);
  ("colon;", [58]%N);
  ("colone;", [8788]%N);
  ("coloneq;", [8788]%N);
  ("comma;", [44]%N);
  ("commat;", [64]%N);
  ("comp;", [8705]%N);
  ("compfn;", [8728]%N);
  ("complement;", [8705]%N);
  ("complexes;", [8450]%N);
  ("cong;", [8773]%N);
  ("congdot;", [10861]%N);
  ("conint;", [8750]%N);
  ("copf;", [120148]%N);
  ("coprod;", [8720]%N);
  ("copy", [169]%N);
  ("copy;", [169]%N);
  ("copysr;", [8471]%N);
  ("crarr;", [8629]%N);
  ("cross;", [10007]%N);
  ("cscr;", [119992]%N);
  ("csub;", [10959]%N);
  ("csube;", [10961]%N);
  ("csup;", [10960]%N);
  ("csupe;", [10962]%N);
  ("ctdot;", [8943]%N);
  ("cudarrl;", [10552]%N);
  ("cudarrr;", [10549]%N);
  ("cuepr;", [8926]%N);
  ("cuesc;", [8927]%N);
  ("cularr;", [8630]%N);
  ("cularrp;", [10557]%N);
  ("cup;", [8746]%N);
  ("cupbrcap;", [10824]%N);
  ("cupcap;", [10822]%N);
  ("cupcup;", [10826]%N);
  ("cupdot;", [8845]%N);
  ("cupor;", [10821]%N);
  ("cups;", [8746;65024]%N);
  ("curarr;", [8631]%N);
  ("curarrm;", [10556]%N);
  ("curlyeqprec;", [8926]%N);
  ("curlyeqsucc;", [8927]%N);
  ("curlyvee;", [8910]%N);
  ("curlywedge;", [8911]%N);
  ("curren", [164]%N);
  ("curren;", [164]%N);
  ("curvearrowleft;", [8630]%N);
  ("curvearrowright;", [8631]%N);
  ("cuvee;", [8910]%N);
  ("cuwed;", [8911]%N);
  ("cwconint;", [8754]%N);
  ("cwint;", [8753]%N);
  ("cylcty;", [9005]%N);
  ("dArr;", [8659]%N);
  ("dHar;", [10597]%N);
  ("dagger;", [8224]%N);
  ("daleth;", [8504]%N);
  ("darr;", [8595]%N);
  ("dash;", [8208]%N);
  ("dashv;", [8867]%N);
  ("dbkarow;", [10511]%N);
  ("dblac;", [733]%N);
  ("dcaron;", [271]%N);
  ("dcy;", [1076]%N);
  ("dd;", [8518]%N);
  ("ddagger;", [8225]%N);
  ("ddarr;", [8650]%N);
  ("ddotseq;", [10871]%N);
  ("deg", [176]%N);
  ("deg;", [176]%N);
  ("delta;", [948]%N);
  ("demptyv;", [10673]%N);
  ("dfisht;", [10623]%N);
  ("dfr;", [120097]%N);
  ("dharl;", [8643]%N);
  ("dharr;", [8642]%N);
  ("diam;", [8900]%N);
  ("diamond;", [8900]%N);
  ("diamondsuit;", [9830]%N);
  ("diams;", [9830]%N);
  ("die;", [168]%N);
  ("digamma;", [989]%N);
  ("disin;", [8946]%N);
  ("div;", [247]%N);
  ("divide", [247]%N);
  ("divide;", [247]%N);
  ("divideontimes;", [8903]%N);
  ("divonx;", [8903]%N);
  ("djcy;", [1106]%N);
  ("dlcorn;", [8990]%N);
  ("dlcrop;", [8973]%N);
  ("dollar;", [36]%N);
  ("dopf;", [120149]%N);
  ("dot;", [729]%N);
  ("doteq;", [8784]%N);
  ("doteqdot;", [8785]%N);
  ("dotminus;", [8760]%N);
  ("dotplus;", [8724]%N);
  ("dotsquare;", [8865]%N);
  ("doublebarwedge;", [8966]%N);
  ("downarrow;", [8595]%N);
  ("downdownarrows;", [8650]%N);
  ("downharpoonleft;", [8643]%N);
  ("downharpoonright;", [8642]%N);
  ("drbkarow;", [10512]%N);
  ("drcorn;", [8991]%N);
  ("drcrop;", [8972]%N);
  ("dscr;", [119993]%N);
  ("dscy;", [1109]%N);
  ("dsol;", [10742]%N);
  ("dstrok;", [273]%N);
  ("dtdot;", [8945]%N);
  ("dtri;", [9663]%N);
  ("dtrif;", [9662]%N);
  ("duarr;", [8693]%N);
  ("duhar;", [10607]%N);
  ("dwangle;", [10662]%N);
  ("dzcy;", [1119]%N);
  ("dzigrarr;", [10239]%N);
  ("eDDot;", [10871]%N);
  ("eDot;", [8785]%N);
  ("eacute", [233]%N);
  ("eacute;", [233]%N);
  ("easter;", [10862]%N);
  ("ecaron;", [283]%N);
  ("ecir;", [8790]%N);
  ("ecirc", [234]%N);
  ("ecirc;", [234]%N);
  ("ecolon;", [8789]%N);
  ("ecy;", [1101]%N);
  ("edot;", [279]%N);
  ("ee;", [8519]%N);
  ("efDot;", [8786]%N);
  ("efr;", [120098]%N);
  ("eg;", [10906]%N);
  ("egrave", [232]%N);
  ("egrave;", [232]%N);
  ("egs;", [10902]%N);
  ("egsdot;", [10904]%N);
  ("el;", [10905]%N);
  ("elinters;", [9191]%N);
  ("ell;", [8467]%N);
  ("els;", [10901]%N);
  ("elsdot;", [10903]%N);
  ("emacr;", [275]%N);
  ("empty;", [8709]%N);
  ("emptyset;", [8709]%N);
  ("emptyv;", [8709]%N);
  ("emsp13;", [8196]%N);
  ("emsp14;", [8197]%N);
  ("emsp;", [8195]%N);
  ("eng;", [331]%N);
  ("ensp;", [8194]%N);
  ("eogon;", [281]%N);
  ("eopf;", [120150]%N);
  ("epar;", [8917]%N);
  ("eparsl;", [10723]%N);
  ("eplus;", [10865]%N);
  ("epsi;", [949]%N);
  ("epsilon;", [949]%N);
  ("epsiv;", [1013]%N);
  ("eqcirc;", [8790]%N);
  ("eqcolon;", [8789]%N);
  ("eqsim;", [8770]%N);
  ("eqslantgtr;", [10902]%N);
  ("eqslantless;", [10901]%N);
  ("equals;", [61]%N);
  ("equest;", [8799]%N);
  ("equiv;", [8801]%N);
  ("equivDD;", [10872]%N);
  ("eqvparsl;", [10725]%N);
  ("erDot;", [8787]%N);
  ("erarr;", [10609]%N);
  ("escr;", [8495]%N);
  ("esdot;", [8784]%N);
  ("esim;", [8770]%N);
  ("eta;", [951]%N);
  ("eth", [240]%N);
  ("eth;", [240]%N);
  ("euml", [235]%N);
  ("euml;", [235]%N);
  ("euro;", [8364]%N);
  ("excl;", [33]%N);
  ("exist;", [8707]%N);
  ("expectation;", [8496]%N);
  ("exponentiale;", [8519]%N);
  ("fallingdotseq;", [8786]%N);
  ("fcy;", [1092]%N);
  ("female;", [9792]%N);
  ("ffilig;", [64259]%N);
  ("fflig;", [64256]%N);
  ("ffllig;", [64260]%N);
  ("ffr;", [120099]%N);
  ("filig;", [64257]%N);
  ("fjlig;", [102;106]%N);
  ("flat;", [9837]%N);
  ("fllig;", [64258]%N);
  ("fltns;", [9649]%N);
  ("fnof;", [402]%N);
  ("fopf;", [120151]%N);
  ("forall;", [8704]%N);
  ("fork;", [8916]%N);
  ("forkv;", [10969]%N);
  ("fpartint;", [10765]%N);
  ("frac12", [189]%N);
  ("frac12;", [189]%N);
  ("frac13;", [8531]%N);
  ("frac14", [188]%N);
  ("frac14;", [188]%N);
  ("frac15;", [8533]%N);
  ("frac16;", [8537]%N);
  ("frac18;", [8539]%N);
  ("frac23;", [8532]%N);
  ("frac25;", [8534]%N);
  ("frac34", [190]%N);
  ("frac34;", [190]%N);
  ("frac35;", [8535]%N);
  ("frac38;", [8540]%N);
  ("frac45;", [8536]%N);
  ("frac56;", [8538]%N);
  ("frac58;", [8541]%N);
  ("frac78;", [8542]%N);
  ("frasl;", [8260]%N);
  ("frown;", [8994]%N);
  ("fscr;", [119995]%N);
  ("gE;", [8807]%N);
  ("gEl;", [10892]%N);
  ("gacute;", [501]%N);
  ("gamma;", [947]%N);
  ("gammad;", [989]%N);
  ("gap;", [10886]%N);
  ("gbreve;", [287]%N);
  ("gcirc;", [285]%N);
  ("gcy;", [1075]%N);
  ("gdot;", [289]%N);
  ("ge;", [8805]%N);
  ("gel;", [8923]%N);
  ("geq;", [8805]%N);
  ("geqq;", [8807]%N);
  ("geqslant;", [10878]%N);
  ("ges;", [10878]%N);
  ("gescc;", [10921]%N);
  ("gesdot;", [10880]%N);
  ("gesdoto;", [10882]%N);
  ("gesdotol;", [10884]%N);
  ("gesl;", [8923;65024]%N);
  ("gesles;", [10900]%N);
  ("gfr;", [120100]%N);
  ("gg;", [8811]%N);
  ("ggg;", [8921]%N);
  ("gimel;", [8503]%N);
  ("gjcy;", [1107]%N);
  ("gl;", [8823]%N);
  ("glE;", [10898]%N);
  ("gla;", [10917]%N);
  ("glj;", [10916]%N);
  ("gnE;", [8809]%N);
  ("gnap;", [10890]%N);
  ("gnapprox;", [10890]%N);
  ("gne;", [10888]%N);
  ("gneq;", [10888]%N);
  ("gneqq;", [8809]%N);
  ("gnsim;", [8935]%N);
  ("gopf;", [120152]%N);
  ("grave;", [96]%N);
  ("gscr;", [8458]%N);
  ("gsim;", [8819]%N);
  ("gsime;", [10894]%N);
  ("gsiml;", [10896]%N);
  ("gt", [62]%N);
  ("gt;", [62]%N);
  ("gtcc;", [10919]%N);
  ("gtcir;", [10874]%N);
  ("gtdot;", [8919]%N);
  ("gtlPar;", [10645]%N);
  ("gtquest;", [10876]%N);
  ("gtrapprox;", [10886]%N);
  ("gtrarr;", [10616]%N);
  ("gtrdot;", [8919]%N);
  ("gtreqless;", [8923]%N);
  ("gtreqqless;", [10892]%N);
  ("gtrless;", [8823]%N);
  ("gtrsim;", [8819]%N);
  ("gvertneqq;", [8809;65024]%N);
  ("gvnE;", [8809;65024]%N);
  ("hArr;", [8660]%N);
  ("hairsp;", [8202]%N);
  ("half;", [189]%N);
  ("hamilt;", [8459]%N);
  ("hardcy;", [1098]%N);
  ("harr;", [8596]%N);
  ("harrcir;", [10568]%N);
  ("harrw;", [8621]%N);
  ("hbar;", [8463]%N);
  ("hcirc;", [293]%N);
  ("hearts;", [9829]%N);
  ("heartsuit;", [9829]%N);
  ("hellip;", [8230]%N);
  ("hercon;", [8889]%N);
  ("hfr;", [120101]%N);
  ("hksearow;", [10533]%N);
  ("hkswarow;", [10534]%N);
  ("hoarr;", [8703]%N);
  ("homtht;", [8763]%N);
  ("hookleftarrow;", [8617]%N);
  ("hookrightarrow;", [8618]%N);
  ("hopf;", [120153]%N);
  ("horbar;", [8213]%N);
  ("hscr;", [119997]%N);
  ("hslash;", [8463]%N);
  ("hstrok;", [295]%N);
  ("hybull;", [8259]%N);
  ("hyphen;", [8208]%N);
  ("iacute", [237]%N);
  ("iacute;", [237]%N);
  ("ic;", [8291]%N);
  ("icirc", [238]%N);
  ("icirc;", [238]%N);
  ("icy;", [1080]%N);
  ("iecy;", [1077]%N);
  ("iexcl", [161]%N);
  ("iexcl;", [161]%N);
  ("iff;", [8660]%N);
  ("ifr;", [120102]%N);
  ("igrave", [236]%N);
  ("igrave;", [236]%N);
  ("ii;", [8520]%N);
  ("iiiint;", [10764]%N);
  ("iiint;", [8749]%N);
  ("iinfin;", [10716]%N);
  ("iiota;", [8489]%N);
  ("ijlig;", [307]%N);
  ("imacr;", [299]%N);
  ("image;", [8465]%N);
  ("imagline;", [8464]%N);
  ("imagpart;", [8465]%N);
  ("imath;", [305]%N);
  ("imof;", [8887]%N);
  ("imped;", [437]%N);
  ("in;", [8712]%N);
  ("incare;", [8453]%N);
  ("infin;", [8734]%N);
  ("infintie;", [10717]%N);
  ("inodot;", [305]%N);
  ("int;", [8747]%N);
  ("intcal;", [8890]%N);
  ("integers;", [8484]%N);
  ("intercal;", [8890]%N);
  ("intlarhk;", [10775]%N);
  ("intprod;", [10812]%N);
  ("iocy;", [1105]%N);
  ("iogon;", [303]%N);
  ("iopf;", [120154]%N);
  ("iota;", [953]%N);
  ("iprod;", [10812]%N);
  ("iquest", [191]%N);
  ("iquest;", [191]%N);
  ("iscr;", [119998]%N);
  ("isin;", [8712]%N);
  ("isinE;", [8953]%N);
  ("isindot;", [8949]%N);
  ("isins;", [8948]%N);
  ("isinsv;", [8947]%N);
  ("isinv;", [8712]%N);
  ("it;", [8290]%N);
  ("itilde;", [297]%N);
  ("iukcy;", [1110]%N);
  ("iuml", [239]%N);
  ("iuml;", [239]%N);
  ("jcirc;", [309]%N);
  ("jcy;", [1081]%N);
  ("jfr;", [120103]%N);
  ("jmath;", [567]%N);
  ("jopf;", [120155]%N);
  ("jscr;", [119999]%N);
  ("jsercy;", [1112]%N);
  ("jukcy;", [1108]%N);
  ("kappa;", [954]%N);
  ("kappav;", [1008]%N);
  ("kcedil;", [311]%N);
  ("kcy;", [1082]%N);
  ("kfr;", [120104]%N);
  ("kgreen;", [312]%N);
  ("khcy;", [1093]%N);
  ("kjcy;", [1116]%N);
  ("kopf;", [120156]%N);
  ("kscr;", [120000]%N);
  ("lAarr;", [8666]%N);
  ("lArr;", [8656]%N);
  ("lAtail;", [10523]%N);
  ("lBarr;", [10510]%N);
  ("lE;", [8806]%N);
  ("lEg;", [10891]%N);
  ("lHar;", [10594]%N);
  ("lacute;", [314]%N);
  ("laemptyv;", [10676]%N);
  ("lagran;", [8466]%N);
  ("lambda;", [955]%N);
  ("lang;", [10216]%N);
  ("langd;", [10641]%N);
  ("langle;", [10216]%N);
  ("lap;", [10885]%N);
  ("laquo", [171]%N);
  ("laquo;", [171]%N);
  ("larr;", [8592]%N);
  ("larrb;", [8676]%N);
  ("larrbfs;", [10527]%N);
  ("larrfs;", [10525]%N);
  ("larrhk;", [8617]%N);
  ("larrlp;", [8619]%N);
  ("larrpl;", [10553]%N);
  ("larrsim;", [10611]%N);
  ("larrtl;", [8610]%N);
  ("lat;", [10923]%N);
  ("latail;", [10521]%N);
  ("late;", [10925]%N);
  ("lates;", [10925;65024]%N);
  ("lbarr;", [10508]%N);
  ("lbbrk;", [10098]%N);
  ("lbrace;", [123]%N);
  ("lbrack;", [91]%N);
  ("lbrke;", [10635]%N);
  ("lbrksld;", [10639]%N);
  ("lbrkslu;", [10637]%N);
  ("lcaron;", [318]%N);
  ("lcedil;", [316]%N);
  ("lceil;", [8968]%N);
  ("lcub;", [123]%N);
  ("lcy;", [1083]%N);
  ("ldca;", [10550]%N);
  ("ldquo;", [8220]%N);
  ("ldquor;", [8222]%N);
  ("ldrdhar;", [10599]%N);
  ("ldrushar;", [10571]%N);
  ("ldsh;", [8626]%N);
  ("le;", [8804]%N);
  ("leftarrow;", [8592]%N);
  ("leftarrowtail;", [8610]%N);
  ("leftharpoondown;", [8637]%N);
  ("leftharpoonup;", [8636]%N);
  ("leftleftarrows;", [8647]%N);
  ("leftrightarrow;", [8596]%N);
  ("leftrightarrows;", [8646]%N);
  ("leftrightharpoons;", [8651]%N);
  ("leftrightsquigarrow;", [8621]%N);
  ("leftthreetimes;", [8907]%N);
  ("leg;", [8922]%N);
  ("leq;", [8804]%N);
  ("leqq;", [8806]%N);
  ("leqslant;", [10877]%N);
  ("les;", [10877]%N);
  ("lescc;", [10920]%N);
  ("lesdot;", [10879]%N);
  ("lesdoto;", [10881]%N);
  ("lesdotor;", [10883]%N);
  ("lesg;", [8922;65024]%N);
  ("lesges;", [10899]%N);
  ("lessapprox;", [10885]%N);
  ("lessdot;", [8918]%N);
  ("lesseqgtr;", [8922]%N);
  ("lesseqqgtr;", [10891]%N);
  ("lessgtr;", [8822]%N);
  ("lesssim;", [8818]%N);
  ("lfisht;", [10620]%N);
  ("lfloor;", [8970]%N);
  ("lfr;", [120105]%N);
  ("lg;", [8822]%N);
  ("lgE;", [10897]%N);
  ("lhard;", [8637]%N);
  ("lharu;", [8636]%N);
  ("lharul;", [10602]%N);
  ("lhblk;", [9604]%N);
  ("ljcy;", [1113]%N);
  ("ll;", [8810]%N);
  ("llarr;", [8647]%N);
  ("llcorner;", [8990]%N);
  ("llhard;", [10603]%N);
  ("lltri;", [9722]%N);
  ("lmidot;", [320]%N);
  ("lmoust;", [9136]%N);
  ("lmoustache;", [9136]%N);
  ("lnE;", [8808]%N);
  ("lnap;", [10889]%N);
  ("lnapprox;", [10889]%N);
  ("lne;", [10887]%N);
  ("lneq;", [10887]%N);
  ("lneqq;", [8808]%N);
  ("lnsim;", [8934]%N);
  ("loang;", [10220]%N);
  ("loarr;", [8701]%N);
  ("lobrk;", [10214]%N);
  ("longleftarrow;", [10229]%N);
  ("longleftrightarrow;", [10231]%N);
  ("longmapsto;", [10236]%N);
  ("longrightarrow;", [10230]%N);
  ("looparrowleft;", [8619]%N);
  ("looparrowright;", [8620]%N);
  ("lopar;", [10629]%N);
  ("lopf;", [120157]%N);
  ("loplus;", [10797]%N);
  ("lotimes;", [10804]%N);
  ("lowast;", [8727]%N);
  ("lowbar;", [95]%N);
  ("loz;", [9674]%N);
  ("lozenge;", [9674]%N);
  ("lozf;", [10731]%N);
  ("lpar;", [40]%N);
  ("lparlt;", [10643]%N);
  ("lrarr;", [8646]%N);
  ("lrcorner;", [8991]%N);
  ("lrhar;", [8651]%N);
  ("lrhard;", [10605]%N);
  ("lrm;", [8206]%N);
  ("lrtri;", [8895]%N);
  ("lsaquo;", [8249]%N);
  ("lscr;", [120001]%N);
  ("lsh;", [8624]%N);
  ("lsim;", [8818]%N);
  ("lsime;", [10893]%N);
  ("lsimg;", [10895]%N);
  ("lsqb;", [91]%N);
  ("lsquo;", [8216]%N);
  ("lsquor;", [8218]%N);
  ("lstrok;", [322]%N);
  ("lt", [60]%N);
  ("lt;", [60]%N);
  ("ltcc;", [10918]%N);
  ("ltcir;", [10873]%N);
  ("ltdot;", [8918]%N);
  ("lthree;", [8907]%N);
  ("ltimes;", [8905]%N);
  ("ltlarr;", [10614]%N);
  ("ltquest;", [10875]%N);
  ("ltrPar;", [10646]%N);
  ("ltri;", [9667]%N);
  ("ltrie;", [8884]%N);
  ("ltrif;", [9666]%N);
  ("lurdshar;", [10570]%N);
  ("luruhar;", [10598]%N);
  ("lvertneqq;", [8808;65024]%N);
  ("lvnE;", [8808;65024]%N);
  ("mDDot;", [8762]%N);
  ("macr", [175]%N);
  ("macr;", [175]%N);
  ("male;", [9794]%N);
  ("malt;", [10016]%N);
  ("maltese;", [10016]%N);
  ("map;", [8614]%N);
  ("mapsto;", [8614]%N);
  ("mapstodown;", [8615]%N);
  ("mapstoleft;", [8612]%N);
  ("mapstoup;", [8613]%N);
  ("marker;", [9646]%N);
  ("mcomma;", [10793]%N);
  ("mcy;", [1084]%N);
  ("mdash;", [8212]%N);
  ("measuredangle;", [8737]%N);
  ("mfr;", [120106]%N);
  ("mho;", [8487]%N);
  ("micro", [181]%N);
  ("micro;", [181]%N);
  ("mid;", [8739]%N);
  ("midast;", [42]%N);
  ("midcir;", [10992]%N);
  ("middot", [183]%N);
  ("middot;", [183]%N);
  ("minus;", [8722]%N);
  ("minusb;", [8863]%N);
  ("minusd;", [8760]%N);
  ("minusdu;", [10794]%N);
  ("mlcp;", [10971]%N);
  ("mldr;", [8230]%N);
  ("mnplus;", [8723]%N);
  ("models;", [8871]%N);
  ("mopf;", [120158]%N);
  ("mp;", [8723]%N);
  ("mscr;", [120002]%N);
  ("mstpos;", [8766]%N);
  ("mu;", [956]%N);
  ("multimap;", [8888]%N);
  ("mumap;", [8888]%N);
  ("nGg;", [8921;824]%N);
  ("nGt;", [8811;8402]%N);
  ("nGtv;", [8811;824]%N);
  ("nLeftarrow;", [8653]%N);
  ("nLeftrightarrow;", [8654]%N);
  ("nLl;", [8920;824]%N);
  ("nLt;", [8810;8402]%N);
  ("nLtv;", [8810;824]%N);
  ("nRightarrow;", [8655]%N);
  ("nVDash;", [8879]%N);
  ("nVdash;", [8878]%N);
  ("nabla;", [8711]%N);
  ("nacute;", [324]%N);
  ("nang;", [8736;8402]%N);
  ("nap;", [8777]%N);
  ("napE;", [10864;824]%N);
  ("napid;", [8779;824]%N);
  ("napos;", [329]%N);
  ("napprox;", [8777]%N);
  ("natur;", [9838]%N);
  ("natural;", [9838]%N);
  ("naturals;", [8469]%N);
  ("nbsp", [160]%N);
  ("nbsp;", [160]%N);
  ("nbump;", [8782;824]%N);
  ("nbumpe;", [8783;824]%N);
  ("ncap;", [10819]%N);
  ("ncaron;", [328]%N);
  ("ncedil;", [326]%N);
  ("ncong;", [8775]%N);
  ("ncongdot;", [10861;824]%N);
  ("ncup;", [10818]%N);
  ("ncy;", [1085]%N);
  ("ndash;", [8211]%N);
  ("ne;", [8800]%N);
  ("neArr;", [8663]%N);
  ("nearhk;", [10532]%N);
  ("nearr;", [8599]%N);
  ("nearrow;", [8599]%N);
  ("nedot;", [8784;824]%N);
  ("nequiv;", [8802]%N);
  ("nesear;", [10536]%N);
  ("nesim;", [8770;824]%N);
  ("nexist;", [8708]%N);
  ("nexists;", [8708]%N);
  ("nfr;", [120107]%N);
  ("ngE;", [8807;824]%N);
  ("nge;", [8817]%N);
  ("ngeq;", [8817]%N);
  ("ngeqq;", [8807;824]%N);
  ("ngeqslant;", [10878;824]%N);
  ("nges;", [10878;824]%N);
  ("ngsim;", [8821]%N);
  ("ngt;", [8815]%N);
  ("ngtr;", [8815]%N);
  ("nhArr;", [8654]%N);
  ("nharr;", [8622]%N);
  ("nhpar;", [10994]%N);
  ("ni;", [8715]%N);
  ("nis;", [8956]%N);
  ("nisd;", [8954]%N);
  ("niv;", [8715]%N);
  ("njcy;", [1114]%N);
  ("nlArr;", [8653]%N);
  ("nlE;", [8806;824]%N);
  ("nlarr;", [8602]%N);
  ("nldr;", [8229]%N);
  ("nle;", [8816]%N);
  ("nleftarrow;", [8602]%N);
  ("nleftrightarrow;", [8622]%N);
  ("nleq;", [8816]%N);
  ("nleqq;", [8806;824]%N);
  ("nleqslant;", [10877;824]%N);
  ("nles;", [10877;824]%N);
  ("nless;", [8814]%N);
  ("nlsim;", [8820]%N);
  ("nlt;", [8814]%N);
  ("nltri;", [8938]%N);
  ("nltrie;", [8940]%N);
  ("nmid;", [8740]%N);
  ("nopf;", [120159]%N);
  ("not", [172]%N);
  ("not;", [172]%N);
  ("notin;", [8713]%N);
  ("notinE;", [8953;824]%N);
  ("notindot;", [8949;824]%N);
  ("notinva;", [8713]%N);
  ("notinvb;", [8951]%N);
  ("notinvc;", [8950]%N);
  ("notni;", [8716]%N);
  ("notniva;", [8716]%N);
  ("notnivb;", [8958]%N);
  ("notnivc;", [8957]%N);
  ("npar;", [8742]%N);
  ("nparallel;", [8742]%N);
  ("nparsl;", [11005;8421]%N);
  ("npart;", [8706;824]%N);
  ("npolint;", [10772]%N);
  ("npr;", [8832]%N);
  ("nprcue;", [8928]%N);
  ("npre;", [10927;824]%N);
  ("nprec;", [8832]%N);
  ("npreceq;", [10927;824]%N);
  ("nrArr;", [8655]%N);
  ("nrarr;", [8603]%N);
  ("nrarrc;", [10547;824]%N);
  ("nrarrw;", [8605;824]%N);
  ("nrightarrow;", [8603]%N);
  ("nrtri;", [8939]%N);
  ("nrtrie;", [8941]%N);
  ("nsc;", [8833]%N);
  ("nsccue;", [8929]%N);
  ("nsce;", [10928;824]%N);
  ("nscr;", [120003]%N);
  ("nshortmid;", [8740]%N);
  ("nshortparallel;", [8742]%N);
  ("nsim;", [8769]%N);
  ("nsime;", [8772]%N);
  ("nsimeq;", [8772]%N);
  ("nsmid;", [8740]%N);
  ("nspar;", [8742]%N);
  ("nsqsube;", [8930]%N);
  ("nsqsupe;", [8931]%N);
  ("nsub;", [8836]%N);
  ("nsubE;", [10949;824]%N);
  ("nsube;", [8840]%N);
  ("nsubset;", [8834;8402]%N);
  ("nsubseteq;", [8840]%N);
  ("nsubseteqq;", [10949;824]%N);
  ("nsucc;", [8833]%N);
  ("nsucceq;", [10928;824]%N);
  ("nsup;", [8837]%N);
  ("nsupE;", [10950;824]%N);
  ("nsupe;", [8841]%N);
  ("nsupset;", [8835;8402]%N);
  ("nsupseteq;", [8841]%N);
  ("nsupseteqq;", [10950;824]%N);
  ("ntgl;", [8825]%N);
  ("ntilde", [241]%N);
  ("ntilde;", [241]%N);
  ("ntlg;", [8824]%N);
  ("ntriangleleft;", [8938]%N);
  ("ntrianglelefteq;", [8940]%N);
  ("ntriangleright;", [8939]%N);
  ("ntrianglerighteq;", [8941]%N);
  ("nu;", [957]%N);
  ("num;", [35]%N);
  ("numero;", [8470]%N);
  ("numsp;", [8199]%N);
  ("nvDash;", [8877]%N);
  ("nvHarr;", [10500]%N);
  ("nvap;", [8781;8402]%N);
  ("nvdash;", [8876]%N);
  ("nvge;", [8805;8402]%N);
  ("nvgt;", [62;8402]%N);
  ("nvinfin;", [10718]%N);
  ("nvlArr;", [10498]%N);
  ("nvle;", [8804;8402]%N);
  ("nvlt;", [60;8402]%N);
  ("nvltrie;", [8884;8402]%N);
  ("nvrArr;", [10499]%N);
  ("nvrtrie;", [8885;8402]%N);
  ("nvsim;", [8764;8402]%N);
  ("nwArr;", [8662]%N);
  ("nwarhk;", [10531]%N);
  ("nwarr;", [8598]%N);
  ("nwarrow;", [8598]%N);
  ("nwnear;", [10535]%N);
  ("oS;", [9416]%N);
  ("oacute", [243]%N);
  ("oacute;", [243]%N);
  ("oast;", [8859]%N);
  ("ocir;", [8858]%N);
  ("ocirc", [244]%N);
  ("ocirc;", [244]%N);
  ("ocy;", [1086]%N);
  ("odash;", [8861]%N);
  ("odblac;", [337]%N);
  ("odiv;", [10808]%N);
  ("odot;", [8857]%N);
  ("odsold;", [10684]%N);
  ("oelig;", [339]%N);
  ("ofcir;", [10687]%N);
  ("ofr;", [120108]%N);
  ("ogon;", [731]%N);
  ("ograve", [242]%N);
  ("ograve;", [242]%N);
  ("ogt;", [10689]%N);
  ("ohbar;", [10677]%N);
  ("ohm;", [937]%N);
  ("oint;", [8750]%N);
  ("olarr;", [8634]%N);
  ("olcir;", [10686]%N);
  ("olcross;", [10683]%N);
  ("oline;", [8254]%N);
  ("olt;", [10688]%N);
  ("omacr;", [333]%N);
  ("omega;", [969]%N);
  ("omicron;", [959]%N);
  ("omid;", [10678]%N);
  ("ominus;", [8854]%N);
  ("oopf;", [120160]%N);
  ("opar;", [10679]%N);
  ("operp;", [10681]%N);
  ("oplus;", [8853]%N);
  ("or;", [8744]%N);
  ("orarr;", [8635]%N);
  ("ord;", [10845]%N);
  ("order;", [8500]%N);
  ("orderof;", [8500]%N);
  ("ordf", [170]%N);
  ("ordf;", [170]%N);
  ("ordm", [186]%N);
  ("ordm;", [186]%N);
  ("origof;", [8886]%N);
  ("oror;", [10838]%N);
  ("orslope;", [10839]%N);
  ("orv;", [10843]%N);
  ("oscr;", [8500]%N);
  ("oslash", [248]%N);
  ("oslash;", [248]%N);
  ("osol;", [8856]%N);
  ("otilde", [245]%N);
  ("otilde;", [245]%N);
  ("otimes;", [8855]%N);
  ("otimesas;", [10806]%N);
  ("ouml", [246]%N);
  ("ouml;", [246]%N);
  ("ovbar;", [9021]%N);
  ("par;", [8741]%N);
  ("para", [182]%N);
  ("para;", [182]%N);
  ("parallel;", [8741]%N);
  ("parsim;", [10995]%N);
  ("parsl;", [11005]%N);
  ("part;", [8706]%N);
  ("pcy;", [1087]%N);
  ("percnt;", [37]%N);
  ("period;", [46]%N);
  ("permil;", [8240]%N);
  ("perp;", [8869]%N);
  ("pertenk;", [8241]%N);
  ("pfr;", [120109]%N);
  ("phi;", [966]%N);
  ("phiv;", [981]%N);
  ("phmmat;", [8499]%N);
  ("phone;", [9742]%N);
  ("pi;", [960]%N);
  ("pitchfork;", [8916]%N);
  ("piv;", [982]%N);
  ("planck;", [8463]%N);
  ("planckh;", [8462]%N);
  ("plankv;", [8463]%N);
  ("plus;", [43]%N);
  ("plusacir;", [10787]%N);
  ("plusb;", [8862]%N);
  ("pluscir;", [10786]%N);
  ("plusdo;", [8724]%N);
  ("plusdu;", [10789]%N);
  ("pluse;", [10866]%N);
  ("plusmn", [177]%N);
  ("plusmn;", [177]%N);
  ("plussim;", [10790]%N);
  ("plustwo;", [10791]%N);
  ("pm;", [177]%N);
  ("pointint;", [10773]%N);
  ("popf;", [120161]%N);
  ("pound", [163]%N);
  ("pound;", [163]%N);
  ("pr;", [8826]%N);
  ("prE;", [10931]%N);
  ("prap;", [10935]%N);
  ("prcue;", [8828]%N);
  ("pre;", [10927]%N);
  ("prec;", [8826]%N);
  ("precapprox;", [10935]%N);
  ("preccurlyeq;", [8828]%N);
  ("preceq;", [10927]%N);
  ("precnapprox;", [10937]%N);
  ("precneqq;", [10933]%N);
  ("precnsim;", [8936]%N);
  ("precsim;", [8830]%N);
  ("prime;", [8242]%N);
  ("primes;", [8473]%N);
  ("prnE;", [10933]%N);
  ("prnap;", [10937]%N);
  ("prnsim;", [8936]%N);
  ("prod;", [8719]%N);
  ("profalar;", [9006]%N);
  ("profline;", [8978]%N);
  ("profsurf;", [8979]%N);
  ("prop;", [8733]%N);
  ("propto;", [8733]%N);
  ("prsim;", [8830]%N);
  ("prurel;", [8880]%N);
  ("pscr;", [120005]%N);
  ("psi;", [968]%N);
  ("puncsp;", [8200]%N);
  ("qfr;", [120110]%N);
  ("qint;", [10764]%N);
  ("qopf;", [120162]%N);
  ("qprime;", [8279]%N);
  ("qscr;", [120006]%N);
  ("quaternions;", [8461]%N);
  ("quatint;", [10774]%N);
  ("quest;", [63]%N);
  ("questeq;", [8799]%N);
  ("quot", [34]%N);
  ("quot;", [34]%N);
  ("rAarr;", [8667]%N);
  ("rArr;", [8658]%N);
  ("rAtail;", [10524]%N);
  ("rBarr;", [10511]%N);
  ("rHar;", [10596]%N);
  ("race;", [8765;817]%N);
  ("racute;", [341]%N);
  ("radic;", [8730]%N);
  ("raemptyv;", [10675]%N);
  ("rang;", [10217]%N);
  ("rangd;", [10642]%N);
  ("range;", [10661]%N);
  ("rangle;", [10217]%N);
  ("raquo", [187]%N);
  ("raquo;", [187]%N);
  ("rarr;", [8594]%N);
  ("rarrap;", [10613]%N);
  ("rarrb;", [8677]%N);
  ("rarrbfs;", [10528]%N);
  ("rarrc;", [10547]%N);
  ("rarrfs;", [10526]%N);
  ("rarrhk;", [8618]%N);
  ("rarrlp;", [8620]%N);
  ("rarrpl;", [10565]%N);
  ("rarrsim;", [10612]%N);
  ("rarrtl;", [8611]%N);
  ("rarrw;", [8605]%N);
  ("ratail;", [10522]%N);
  ("ratio;", [8758]%N);
  ("rationals;", [8474]%N);
  ("rbarr;", [10509]%N);
  ("rbbrk;", [10099]%N);
  ("rbrace;", [125]%N);
  ("rbrack;", [93]%N);
  ("rbrke;", [10636]%N);
  ("rbrksld;", [10638]%N);
  ("rbrkslu;", [10640]%N);
  ("rcaron;", [345]%N);
  ("rcedil;", [343]%N);
  ("rceil;", [8969]%N);
  ("rcub;", [125]%N);
  ("rcy;", [1088]%N);
  ("rdca;", [10551]%N);
  ("rdldhar;", [10601]%N);
  ("rdquo;", [8221]%N);
  ("rdquor;", [8221]%N);
  ("rdsh;", [8627]%N);
  ("real;", [8476]%N);
  ("realine;", [8475]%N);
  ("realpart;", [8476]%N);
  ("reals;", [8477]%N);
  ("rect;", [9645]%N);
  ("reg", [174]%N);
  ("reg;", [174]%N);
  ("rfisht;", [10621]%N);
  ("rfloor;", [8971]%N);
  ("rfr;", [120111]%N);
  ("rhard;", [8641]%N);
  ("rharu;", [8640]%N);
  ("rharul;", [10604]%N);
  ("rho;", [961]%N);
  ("rhov;", [1009]%N);
  ("rightarrow;", [8594]%N);
  ("rightarrowtail;", [8611]%N);
  ("rightharpoondown;", [8641]%N);
  ("rightharpoonup;", [8640]%N);
  ("rightleftarrows;", [8644]%N);
  ("rightleftharpoons;", [8652]%N);
  ("rightrightarrows;", [8649]%N);
  ("rightsquigarrow;", [8605]%N);
  ("rightthreetimes;", [8908]%N);
  ("ring;", [730]%N);
  ("risingdotseq;", [8787]%N);
  ("rlarr;", [8644]%N);
  ("rlhar;", [8652]%N);
  ("rlm;", [8207]%N);
  ("rmoust;", [9137]%N);
  ("rmoustache;", [9137]%N);
  ("rnmid;", [10990]%N);
  ("roang;", [10221]%N);
  ("roarr;", [8702]%N);
  ("robrk;", [10215]%N);
  ("ropar;", [10630]%N);
  ("ropf;", [120163]%N);
  ("roplus;", [10798]%N);
  ("rotimes;", [10805]%N);
  ("rpar;", [41]%N);
  ("rpargt;", [10644]%N);
  ("rppolint;", [10770]%N);
  ("rrarr;", [8649]%N);
  ("rsaquo;", [8250]%N);
  ("rscr;", [120007]%N);
  ("rsh;", [8625]%N);
  ("rsqb;", [93]%N);
  ("rsquo;", [8217]%N);
  ("rsquor;", [8217]%N);
  ("rthree;", [8908]%N);
  ("rtimes;", [8906]%N);
  ("rtri;", [9657]%N);
  ("rtrie;", [8885]%N);
  ("rtrif;", [9656]%N);
  ("rtriltri;", [10702]%N);
  ("ruluhar;", [10600]%N);
  ("rx;", [8478]%N);
  ("sacute;", [347]%N);
  ("sbquo;", [8218]%N);
  ("sc;", [8827]%N);
  ("scE;", [10932]%N);
  ("scap;", [10936]%N);
  ("scaron;", [353]%N);
  ("sccue;", [8829]%N);
  ("sce;", [10928]%N);
  ("scedil;", [351]%N);
  ("scirc;", [349]%N);
  ("scnE;", [10934]%N);
  ("scnap;", [10938]%N);
  ("scnsim;", [8937]%N);
  ("scpolint;", [10771]%N);
  ("scsim;", [8831]%N);
  ("scy;", [1089]%N);
  ("sdot;", [8901]%N);
  ("sdotb;", [8865]%N);
  ("sdote;", [10854]%N);
  ("seArr;", [8664]%N);
  ("searhk;", [10533]%N);
  ("searr;", [8600]%N);
  ("searrow;", [8600]%N);
  ("sect", [167]%N);
  ("sect;", [167]%N);
  ("semi;", [59]%N);
  ("seswar;", [10537]%N);
  ("setminus;", [8726]%N);
  ("setmn;", [8726]%N);
  ("sext;", [10038]%N);
  ("sfr;", [120112]%N);
  ("sfrown;", [8994]%N);
  ("sharp;", [9839]%N);
  ("shchcy;", [1097]%N);
  ("shcy;", [1096]%N);
  ("shortmid;", [8739]%N);
  ("shortparallel;", [8741]%N);
  ("shy", [173]%N);
  ("shy;", [173]%N);
  ("sigma;", [963]%N);
  ("sigmaf;", [962]%N);
  ("sigmav;", [962]%N);
  ("sim;", [8764]%N);
  ("simdot;", [10858]%N);
  ("sime;", [8771]%N);
  ("simeq;", [8771]%N);
  ("simg;", [10910]%N);
  ("simgE;", [10912]%N);
  ("siml;", [10909]%N);
  ("simlE;", [10911]%N);
  ("simne;", [8774]%N);
  ("simplus;", [10788]%N);
  ("simrarr;", [10610]%N);
  ("slarr;", [8592]%N);
  ("smallsetminus;", [8726]%N);
  ("smashp;", [10803]%N);
  ("smeparsl;", [10724]%N);
  ("smid;", [8739]%N);
  ("smile;", [8995]%N);
  ("smt;", [10922]%N);
  ("smte;", [10924]%N);
  ("smtes;", [10924;65024]%N);
  ("softcy;", [1100]%N);
  ("sol;", [47]%N);
  ("solb;", [10692]%N);
  ("solbar;", [9023]%N);
  ("sopf;", [120164]%N);
  ("spades;", [9824]%N);
  ("spadesuit;", [9824]%N);
  ("spar;", [8741]%N);
  ("sqcap;", [8851]%N);
  ("sqcaps;", [8851;65024]%N);
  ("sqcup;", [8852]%N);
  ("sqcups;", [8852;65024]%N);
  ("sqsub;", [8847]%N);
  ("sqsube;", [8849]%N);
  ("sqsubset;", [8847]%N);
  ("sqsubseteq;", [8849]%N);
  ("sqsup;", [8848]%N);
  ("sqsupe;", [8850]%N);
  ("sqsupset;", [8848]%N);
  ("sqsupseteq;", [8850]%N);
  ("squ;", [9633]%N);
  ("square;", [9633]%N);
  ("squarf;", [9642]%N);
  ("squf;", [9642]%N);
  ("srarr;", [8594]%N);
  ("sscr;", [120008]%N);
  ("ssetmn;", [8726]%N);
  ("ssmile;", [8995]%N);
  ("sstarf;", [8902]%N);
  ("star;", [9734]%N);
  ("starf;", [9733]%N);
  ("straightepsilon;", [1013]%N);
  ("straightphi;", [981]%N);
  ("strns;", [175]%N);
  ("sub;", [8834]%N);
  ("subE;", [10949]%N);
  ("subdot;", [10941]%N);
  ("sube;", [8838]%N);
  ("subedot;", [10947]%N);
  ("submult;", [10945]%N);
  ("subnE;", [10955]%N);
  ("subne;", [8842]%N);
  ("subplus;", [10943]%N);
  ("subrarr;", [10617]%N);
  ("subset;", [8834]%N);
  ("subseteq;", [8838]%N);
  ("subseteqq;", [10949]%N);
  ("subsetneq;", [8842]%N);
  ("subsetneqq;", [10955]%N);
  ("subsim;", [10951]%N);
  ("subsub;", [10965]%N);
  ("subsup;", [10963]%N);
  ("succ;", [8827]%N);
  ("succapprox;", [10936]%N);
  ("succcurlyeq;", [8829]%N);
  ("succeq;", [10928]%N);
  ("succnapprox;", [10938]%N);
  ("succneqq;", [10934]%N);
  ("succnsim;", [8937]%N);
  ("succsim;", [8831]%N);
  ("sum;", [8721]%N);
  ("sung;", [9834]%N);
  ("sup1", [185]%N);
  ("sup1;", [185]%N);
  ("sup2", [178]%N);
  ("sup2;", [178]%N);
  ("sup3", [179]%N);
  ("sup3;", [179]%N);
  ("sup;", [8835]%N);
  ("supE;", [10950]%N);
  ("supdot;", [10942]%N);
  ("supdsub;", [10968]%N);
  ("supe;", [8839]%N);
  ("supedot;", [10948]%N);
  ("suphsol;", [10185]%N);
  ("suphsub;", [10967]%N);
  ("suplarr;", [10619]%N);
  ("supmult;", [10946]%N);
  ("supnE;", [10956]%N);
  ("supne;", [8843]%N);
  ("supplus;", [10944]%N);
  ("supset;", [8835]%N);
  ("supseteq;", [8839]%N);
  ("supseteqq;", [10950]%N);
  ("supsetneq;", [8843]%N);
  ("supsetneqq;", [10956]%N);
  ("supsim;", [10952]%N);
  ("supsub;", [10964]%N);
  ("supsup;", [10966]%N);
  ("swArr;", [8665]%N);
  ("swarhk;", [10534]%N);
  ("swarr;", [8601]%N);
  ("swarrow;", [8601]%N);
  ("swnwar;", [10538]%N);
  ("szlig", [223]%N);
  ("szlig;", [223]%N);
  ("target;", [8982]%N);
  ("tau;", [964]%N);
  ("tbrk;", [9140]%N);
  ("tcaron;", [357]%N);
  ("tcedil;", [355]%N);
  ("tcy;", [1090]%N);
  ("tdot;", [8411]%N);
  ("telrec;", [8981]%N);
  ("tfr;", [120113]%N);
  ("there4;", [8756]%N);
  ("therefore;", [8756]%N);
  ("theta;", [952]%N);
  ("thetasym;", [977]%N);
  ("thetav;", [977]%N);
  ("thickapprox;", [8776]%N);
  ("thicksim;", [8764]%N);
  ("thinsp;", [8201]%N);
  ("thkap;", [8776]%N);
  ("thksim;", [8764]%N);
  ("thorn", [254]%N);
  ("thorn;", [254]%N);
  ("tilde;", [732]%N);
  ("times", [215]%N);
  ("times;", [215]%N);
  ("timesb;", [8864]%N);
  ("timesbar;", [10801]%N);
  ("timesd;", [10800]%N);
  ("tint;", [8749]%N);
  ("toea;", [10536]%N);
  ("top;", [8868]%N);
  ("topbot;", [9014]%N);
  ("topcir;", [10993]%N);
  ("topf;", [120165]%N);
  ("topfork;", [10970]%N);
  ("tosa;", [10537]%N);
  ("tprime;", [8244]%N);
  ("trade;", [8482]%N);
  ("triangle;", [9653]%N);
  ("triangledown;", [9663]%N);
  ("triangleleft;", [9667]%N);
  ("trianglelefteq;", [8884]%N);
  ("triangleq;", [8796]%N);
  ("triangleright;", [9657]%N);
  ("trianglerighteq;", [8885]%N);
  ("tridot;", [9708]%N);
  ("trie;", [8796]%N);
  ("triminus;", [10810]%N);
  ("triplus;", [10809]%N);
  ("trisb;", [10701]%N);
  ("tritime;", [10811]%N);
  ("trpezium;", [9186]%N);
  ("tscr;", [120009]%N);
  ("tscy;", [1094]%N);
  ("tshcy;", [1115]%N);
  ("tstrok;", [359]%N);
  ("twixt;", [8812]%N);
  ("twoheadleftarrow;", [8606]%N);
  ("twoheadrightarrow;", [8608]%N);
  ("uArr;", [8657]%N);
  ("uHar;", [10595]%N);
  ("uacute", [250]%N);
  ("uacute;", [250]%N);
  ("uarr;", [8593]%N);
  ("ubrcy;", [1118]%N);
  ("ubreve;", [365]%N);
  ("ucirc", [251]%N);
  ("ucirc;", [251]%N);
  ("ucy;", [1091]%N);
  ("udarr;", [8645]%N);
  ("udblac;", [369]%N);
  ("udhar;", [10606]%N);
  ("ufisht;", [10622]%N);
  ("ufr;", [120114]%N);
  ("ugrave", [249]%N);
  ("ugrave;", [249]%N);
  ("uharl;", [8639]%N);
  ("uharr;", [8638]%N);
  ("uhblk;", [9600]%N);
  ("ulcorn;", [8988]%N);
  ("ulcorner;", [8988]%N);
  ("ulcrop;", [8975]%N);
  ("ultri;", [9720]%N);
  ("umacr;", [363]%N);
  ("uml", [168]%N);
  ("uml;", [168]%N);
  ("uogon;", [371]%N);
  ("uopf;", [120166]%N);
  ("uparrow;", [8593]%N);
  ("updownarrow;", [8597]%N);
  ("upharpoonleft;", [8639]%N);
  ("upharpoonright;", [8638]%N);
  ("uplus;", [8846]%N);
  ("upsi;", [965]%N);
  ("upsih;", [978]%N);
  ("upsilon;", [965]%N);
  ("upuparrows;", [8648]%N);
  ("urcorn;", [8989]%N);
  ("urcorner;", [8989]%N);
  ("urcrop;", [8974]%N);
  ("uring;", [367]%N);
  ("urtri;", [9721]%N);
  ("uscr;", [120010]%N);
  ("utdot;", [8944]%N);
  ("utilde;", [361]%N);
  ("utri;", [9653]%N);
  ("utrif;", [9652]%N);
  ("uuarr;", [8648]%N);
  ("uuml", [252]%N);
  ("uuml;", [252]%N);
  ("uwangle;", [10663]%N);
  ("vArr;", [8661]%N);
  ("vBar;", [10984]%N);
  ("vBarv;", [10985]%N);
  ("vDash;", [8872]%N);
  ("vangrt;", [10652]%N);
  ("varepsilon;", [1013]%N);
  ("varkappa;", [1008]%N);
  ("varnothing;", [8709]%N);
  ("varphi;", [981]%N);
  ("varpi;", [982]%N);
  ("varpropto;", [8733]%N);
  ("varr;", [8597]%N);
  ("varrho;", [1009]%N);
  ("varsigma;", [962]%N);
  ("varsubsetneq;", [8842;65024]%N);
  ("varsubsetneqq;", [10955;65024]%N);
  ("varsupsetneq;", [8843;65024]%N);
  ("varsupsetneqq;", [10956;65024]%N);
  ("vartheta;", [977]%N);
  ("vartriangleleft;", [8882]%N);
  ("vartriangleright;", [8883]%N);
  ("vcy;", [1074]%N);
  ("vdash;", [8866]%N);
  ("vee;", [8744]%N);
  ("veebar;", [8891]%N);
  ("veeeq;", [8794]%N);
  ("vellip;", [8942]%N);
  ("verbar;", [124]%N);
  ("vert;", [124]%N);
  ("vfr;", [120115]%N);
  ("vltri;", [8882]%N);
  ("vnsub;", [8834;8402]%N);
  ("vnsup;", [8835;8402]%N);
  ("vopf;", [120167]%N);
  ("vprop;", [8733]%N);
  ("vrtri;", [8883]%N);
  ("vscr;", [120011]%N);
  ("vsubnE;", [10955;65024]%N);
  ("vsubne;", [8842;65024]%N);
  ("vsupnE;", [10956;65024]%N);
  ("vsupne;", [8843;65024]%N);
  ("vzigzag;", [10650]%N);
  ("wcirc;", [373]%N);
  ("wedbar;", [10847]%N);
  ("wedge;", [8743]%N);
  ("wedgeq;", [8793]%N);
  ("weierp;", [8472]%N);
  ("wfr;", [120116]%N);
  ("wopf;", [120168]%N);
  ("wp;", [8472]%N);
  ("wr;", [8768]%N);
  ("wreath;", [8768]%N);
  ("wscr;", [120012]%N);
  ("xcap;", [8898]%N);
  ("xcirc;", [9711]%N);
  ("xcup;", [8899]%N);
  ("xdtri;", [9661]%N);
  ("xfr;", [120117]%N);
  ("xhArr;", [10234]%N);
  ("xharr;", [10231]%N);
  ("xi;", [958]%N);
  ("xlArr;", [10232]%N);
  ("xlarr;", [10229]%N);
  ("xmap;", [10236]%N);
  ("xnis;", [8955]%N);
  ("xodot;", [10752]%N);
  ("xopf;", [120169]%N);
  ("xoplus;", [10753]%N);
  ("xotime;", [10754]%N);
  ("xrArr;", [10233]%N);
  ("xrarr;", [10230]%N);
  ("xscr;", [120013]%N);
  ("xsqcup;", [10758]%N);
  ("xuplus;", [10756]%N);
  ("xutri;", [9651]%N);
  ("xvee;", [8897]%N);
  ("xwedge;", [8896]%N);
  ("yacute", [253]%N);
  ("yacute;", [253]%N);
  ("yacy;", [1103]%N);
  ("ycirc;", [375]%N);
  ("ycy;", [1099]%N);
  ("yen", [165]%N);
  ("yen;", [165]%N);
  ("yfr;", [120118]%N);
  ("yicy;", [1111]%N);
  ("yopf;", [120170]%N);
  ("yscr;", [120014]%N);
  ("yucy;", [1102]%N);
  ("yuml", [255]%N);
  ("yuml;", [255]%N);
  ("zacute;", [378]%N);
  ("zcaron;", [382]%N);
  ("zcy;", [1079]%N);
  ("zdot;", [380]%N);
  ("zeetrf;", [8488]%N);
  ("zeta;", [950]%N);
  ("zfr;", [120119]%N);
  ("zhcy;", [1078]%N);
  ("zigrarr;", [8669]%N);
  ("zopf;", [120171]%N);
  ("zscr;", [120015]%N);
  ("zwj;", [8205]%N);
  ("zwnj;", [8204]%N)
].
Definition legacy_raw : list string := [
  "gt";
  "lt";
  "amp";
  "quot";
  "nbsp";
  "AMP";
  "QUOT";
  "GT";
  "LT";
  "COPY";
  "REG";
  "AElig";
  "Aacute";
  "Acirc";
  "Agrave";
  "Aring";
  "Atilde";
  "Auml";
  "Ccedil";
  "ETH";
  "Eacute";
  "Ecirc";
  "Egrave";
  "Euml";
  "Iacute";
  "Icirc";
  "Igrave";
  "Iuml";
  "Ntilde";
  "Oacute";
  "Ocirc";
  "Ograve";
  "Oslash";
  "Otilde";
  "Ouml";
  "THORN";
  "Uacute";
  "Ucirc";
  "Ugrave";
  "Uuml";
  "Yacute";
  "aacute";
  "acirc";
  "acute";
  "aelig";
  "agrave";
  "aring";
  "atilde";
  "auml";
  "brvbar";
  "ccedil";
  "cedil";
  "cent";
  "copy";
  "curren";
  "deg";
  "divide";
  "eacute";
  "ecirc";
  "egrave";
  "eth";
  "euml";
  "frac12";
  "frac14";
  "frac34";
  "iacute";
  "icirc";
  "iexcl";
  "igrave";
  "iquest";
  "iuml";
  "laquo";
  "macr";
  "micro";
  "middot";
  "not";
  "ntilde";
  "oacute";
  "ocirc";
  "ograve";
  "ordf";
  "ordm";
  "oslash";
  "otilde";
  "ouml";
  "para";
  "plusmn";
  "pound";
  "raquo";
  "reg";
  "sect";
  "shy";
  "sup1";
  "sup2";
  "sup3";
  "szlig";
  "thorn";
  "times";
  "uacute";
  "ucirc";
  "ugrave";
  "uml";
  "uuml";
  "yacute";
  "yen";
  "yuml"
].
Open Scope N_scope.
(* html.entities.html5: name (with its ';' if it has one) -> value *)
Definition html5_table : list (str * str) := Eval vm_compute in map (fun p => (u (fst p), snd p)) html5_raw.
(* core/entities.py:36-142 LEGACY_ENTITIES *)
Definition legacy_entities : list str := Eval vm_compute in map u legacy_raw.
