(** The project's own unit tests (/repo/tests), transcribed mechanically and run on the model by [vm_compute].
    These are tests of the model's faithfulness, not proofs of properties. *)
From Verif Require Import Bytes StrUtils Grammar Outcome Parser Num Containers Instance Context Platform.

Definition stmt := (str * option str)%type.
(** Run statements in order from a world; [Some out] is the expected answer, [None] an unchecked one. *)
Fixpoint run_tests (w : world) (l : list stmt) : bool :=
  match l with
  | [] => true
  | (s, e) :: r =>
      match execute insertion_sort [] s w with
      | (w', Ok o) => match e with Some e => seq_eqb o e | None => true end && run_tests w' r
      | _ => false
      end
  end.
(** The fixture of tests/context_test.cpp:31-38. *)
Definition fixture : world :=
  {| w_ctx := new_context false 3 (to_float (atof $"0.001")) true; w_session := None |}.
Definition parse_is (s a m : str) (args : list str) : bool :=
  match parse s with
  | Ok p => seq_eqb (p_actor p) a && seq_eqb (p_message p) m &&
            (length (p_args p) =? length args)%nat && forallb (fun xy => seq_eqb (fst xy) (snd xy)) (combine (p_args p) args)
  | _ => false
  end.
Definition parse_fails (s : str) : bool := match parse s with Throw InvalidStatement => true | _ => false end.

Example t_Context_listNamespaces : run_tests fixture
  [($"Context listNamespaces;", Some $"[]");
   ($"Boolean create: t withValue: true;", None);
   ($"Character create: std::numeric withValue: '1';", None);
   ($"Integer create: uni::i withValue: 42;", None);
   ($"String create: std::str withValue: ""knuckleball"";", None);
   ($"Context listNamespaces;", Some $"[std,uni]")] = true.
Proof. vm_compute. reflexivity. Qed.

Example t_Context_listVariables : run_tests fixture
  [($"Context listVariables;", Some $"[]");
   ($"Boolean create: t withValue: true;", None);
   ($"Character create: numeric withValue: '1';", None);
   ($"Integer create: i withValue: 42;", None);
   ($"Context listVariables;", Some $"[i,numeric,t]")] = true.
Proof. vm_compute. reflexivity. Qed.

Example t_Context_listVariablesOfNamespace : run_tests fixture
  [($"Context listVariablesOfNamespace: std;", Some $"[]");
   ($"Boolean create: std::t withValue: true;", None);
   ($"Character create: numeric withValue: '1';", None);
   ($"Integer create: std::i withValue: 42;", None);
   ($"Context listVariablesOfNamespace: std;", Some $"[std::i,std::t]")] = true.
Proof. vm_compute. reflexivity. Qed.

Example t_Context_deleteVariable : run_tests fixture
  [($"Context deleteVariable: numeric;", Some (exc_text UnexistentVariable));
   ($"Boolean create: t withValue: true;", None);
   ($"Character create: numeric withValue: '1';", None);
   ($"Integer create: i withValue: 42;", None);
   ($"Context deleteVariable: numeric;", Some $"null");
   ($"Context listVariables;", Some $"[i,t]")] = true.
Proof. vm_compute. reflexivity. Qed.

Example t_Context_deleteVariablesOfNamespace : run_tests fixture
  [($"Context deleteVariablesOfNamespace: std;", Some $"null");
   ($"Boolean create: std::t withValue: true;", None);
   ($"Character create: numeric withValue: '1';", None);
   ($"Integer create: std::i withValue: 42;", None);
   ($"Context deleteVariablesOfNamespace: std;", Some $"null");
   ($"Context listVariables;", Some $"[numeric]")] = true.
Proof. vm_compute. reflexivity. Qed.

Example t_Context_getFloatPrecision : run_tests fixture
  [($"Context getFloatPrecision;", Some $"3")] = true.
Proof. vm_compute. reflexivity. Qed.

Example t_Context_setFloatPrecision : run_tests fixture
  [($"Context setFloatPrecision: 42;", Some $"null");
   ($"Context getFloatPrecision;", Some $"42");
   ($"Context setFloatPrecision: -42;", Some (exc_text InvalidArgument))] = true.
Proof. vm_compute. reflexivity. Qed.

Example t_Context_getFloatComparisonTolerance : run_tests fixture
  [($"Context getFloatComparisonTolerance;", Some $"0.001")] = true.
Proof. vm_compute. reflexivity. Qed.

Example t_Context_setFloatComparisonTolerance : run_tests fixture
  [($"Context setFloatComparisonTolerance: 1e-2;", Some $"null");
   ($"Context getFloatComparisonTolerance;", Some $"0.010");
   ($"Context setFloatComparisonTolerance: -42;", Some (exc_text InvalidArgument))] = true.
Proof. vm_compute. reflexivity. Qed.

Example t_Boolean_create_withValue : run_tests fixture
  [($"Boolean create: t withValue: true;", Some $"null");
   ($"t get;", Some $"true")] = true.
Proof. vm_compute. reflexivity. Qed.

Example t_Boolean_createIfNotExists_withValue : run_tests fixture
  [($"Boolean createIfNotExists: f withValue: false;", Some $"null");
   ($"f get;", Some $"false");
   ($"Boolean createIfNotExists: f withValue: true;", Some $"null");
   ($"f get;", Some $"false")] = true.
Proof. vm_compute. reflexivity. Qed.

Example t_Boolean_get : run_tests fixture
  [($"Boolean create: t withValue: true;", Some $"null");
   ($"t get;", Some $"true")] = true.
Proof. vm_compute. reflexivity. Qed.

Example t_Boolean_set : run_tests fixture
  [($"Boolean create: f withValue: false;", Some $"null");
   ($"f set: true;", Some $"null");
   ($"f get;", Some $"true")] = true.
Proof. vm_compute. reflexivity. Qed.

Example t_Boolean_isTrue : run_tests fixture
  [($"Boolean create: t withValue: true;", Some $"null");
   ($"t isTrue?;", Some $"true");
   ($"Boolean create: f withValue: false;", Some $"null");
   ($"f isTrue?;", Some $"false")] = true.
Proof. vm_compute. reflexivity. Qed.

Example t_Boolean_isFalse : run_tests fixture
  [($"Boolean create: t withValue: true;", Some $"null");
   ($"t isFalse?;", Some $"false");
   ($"Boolean create: f withValue: false;", Some $"null");
   ($"f isFalse?;", Some $"true")] = true.
Proof. vm_compute. reflexivity. Qed.

Example t_Character_create_withValue : run_tests fixture
  [($"Character create: alphabetic withValue: 'b';", Some $"null");
   ($"alphabetic get;", Some $"'b'")] = true.
Proof. vm_compute. reflexivity. Qed.

Example t_Character_createIfNotExists_withValue : run_tests fixture
  [($"Character createIfNotExists: alphabetic withValue: 'b';", Some $"null");
   ($"alphabetic get;", Some $"'b'");
   ($"Character createIfNotExists: alphabetic withValue: 'a';", Some $"null");
   ($"alphabetic get;", Some $"'b'")] = true.
Proof. vm_compute. reflexivity. Qed.

Example t_Character_get : run_tests fixture
  [($"Character create: alphabetic withValue: 'b';", Some $"null");
   ($"alphabetic get;", Some $"'b'")] = true.
Proof. vm_compute. reflexivity. Qed.

Example t_Character_set : run_tests fixture
  [($"Character create: alphabetic withValue: 'b';", Some $"null");
   ($"alphabetic set: 'a';", Some $"null");
   ($"alphabetic get;", Some $"'a'")] = true.
Proof. vm_compute. reflexivity. Qed.

Example t_Character_isAlphabetic : run_tests fixture
  [($"Character create: alphabetic withValue: 'b';", Some $"null");
   ($"alphabetic isAlphabetic?;", Some $"true");
   ($"Character create: numeric withValue: '1';", Some $"null");
   ($"numeric isAlphabetic?;", Some $"false");
   ($"Character create: space withValue: ' ';", Some $"null");
   ($"space isAlphabetic?;", Some $"false")] = true.
Proof. vm_compute. reflexivity. Qed.

Example t_Character_isNumeric : run_tests fixture
  [($"Character create: alphabetic withValue: 'b';", Some $"null");
   ($"alphabetic isNumeric?;", Some $"false");
   ($"Character create: numeric withValue: '1';", Some $"null");
   ($"numeric isNumeric?;", Some $"true");
   ($"Character create: space withValue: ' ';", Some $"null");
   ($"space isNumeric?;", Some $"false")] = true.
Proof. vm_compute. reflexivity. Qed.

Example t_Character_isAlphanumeric : run_tests fixture
  [($"Character create: alphabetic withValue: 'b';", Some $"null");
   ($"alphabetic isAlphanumeric?;", Some $"true");
   ($"Character create: numeric withValue: '1';", Some $"null");
   ($"numeric isAlphanumeric?;", Some $"true");
   ($"Character create: space withValue: ' ';", Some $"null");
   ($"space isAlphanumeric?;", Some $"false")] = true.
Proof. vm_compute. reflexivity. Qed.

Example t_Character_isSpace : run_tests fixture
  [($"Character create: alphabetic withValue: 'b';", Some $"null");
   ($"alphabetic isSpace?;", Some $"false");
   ($"Character create: numeric withValue: '1';", Some $"null");
   ($"numeric isSpace?;", Some $"false");
   ($"Character create: space withValue: ' ';", Some $"null");
   ($"space isSpace?;", Some $"true")] = true.
Proof. vm_compute. reflexivity. Qed.

Example t_Character_isEqualTo : run_tests fixture
  [($"Character create: alphabetic withValue: 'b';", Some $"null");
   ($"alphabetic isEqualTo? 'b';", Some $"true");
   ($"alphabetic isEqualTo? 'a';", Some $"false")] = true.
Proof. vm_compute. reflexivity. Qed.

Example t_Character_isLessThan : run_tests fixture
  [($"Character create: numeric withValue: '1';", Some $"null");
   ($"numeric isLessThan? '2';", Some $"true");
   ($"numeric isLessThan? '1';", Some $"false")] = true.
Proof. vm_compute. reflexivity. Qed.

Example t_Character_isLessThanOrEqualTo : run_tests fixture
  [($"Character create: numeric withValue: '1';", Some $"null");
   ($"numeric isLessThanOrEqualTo? '1';", Some $"true");
   ($"numeric isLessThanOrEqualTo? '0';", Some $"false")] = true.
Proof. vm_compute. reflexivity. Qed.

Example t_Character_isGreaterThan : run_tests fixture
  [($"Character create: numeric withValue: '1';", Some $"null");
   ($"numeric isGreaterThan? '0';", Some $"true");
   ($"numeric isGreaterThan? '1';", Some $"false")] = true.
Proof. vm_compute. reflexivity. Qed.

Example t_Character_isGreaterThanOrEqualTo : run_tests fixture
  [($"Character create: numeric withValue: '1';", Some $"null");
   ($"numeric isGreaterThanOrEqualTo? '1';", Some $"true");
   ($"numeric isGreaterThanOrEqualTo? '2';", Some $"false")] = true.
Proof. vm_compute. reflexivity. Qed.

Example t_Integer_create_withValue : run_tests fixture
  [($"Integer create: i withValue: 42;", Some $"null");
   ($"i get;", Some $"42");
   ($"Integer create: f withValue: 42.9;", Some $"null");
   ($"f get;", Some $"42")] = true.
Proof. vm_compute. reflexivity. Qed.

Example t_Integer_createIfNotExists_withValue : run_tests fixture
  [($"Integer createIfNotExists: i withValue: 42;", Some $"null");
   ($"i get;", Some $"42");
   ($"Integer createIfNotExists: i withValue: 43;", Some $"null");
   ($"i get;", Some $"42");
   ($"Integer createIfNotExists: f withValue: 42.9;", Some $"null");
   ($"f get;", Some $"42");
   ($"Integer createIfNotExists: f withValue: 43.9;", Some $"null");
   ($"f get;", Some $"42")] = true.
Proof. vm_compute. reflexivity. Qed.

Example t_Integer_get : run_tests fixture
  [($"Integer create: i withValue: 42;", Some $"null");
   ($"i get;", Some $"42")] = true.
Proof. vm_compute. reflexivity. Qed.

Example t_Integer_set : run_tests fixture
  [($"Integer create: i withValue: 42;", Some $"null");
   ($"i set: 43;", Some $"null");
   ($"i get;", Some $"43");
   ($"Integer create: f withValue: 42;", Some $"null");
   ($"f set: 43.9;", Some $"null");
   ($"f get;", Some $"43")] = true.
Proof. vm_compute. reflexivity. Qed.

Example t_Integer_isEqualTo : run_tests fixture
  [($"Integer create: i withValue: 42;", Some $"null");
   ($"i isEqualTo? 42;", Some $"true");
   ($"i isEqualTo? 42.0;", Some $"true");
   ($"i isEqualTo? 43;", Some $"false");
   ($"i isEqualTo? 42.1;", Some $"false")] = true.
Proof. vm_compute. reflexivity. Qed.

Example t_Integer_isLessThan : run_tests fixture
  [($"Integer create: i withValue: 42;", Some $"null");
   ($"i isLessThan? 43;", Some $"true");
   ($"i isLessThan? 42.1;", Some $"true");
   ($"i isLessThan? 42;", Some $"false");
   ($"i isLessThan? 42.0;", Some $"false")] = true.
Proof. vm_compute. reflexivity. Qed.

Example t_Integer_isLessThanOrEqualTo : run_tests fixture
  [($"Integer create: i withValue: 42;", Some $"null");
   ($"i isLessThanOrEqualTo? 42;", Some $"true");
   ($"i isLessThanOrEqualTo? 42.0;", Some $"true");
   ($"i isLessThanOrEqualTo? 41;", Some $"false");
   ($"i isLessThanOrEqualTo? 41.9;", Some $"false")] = true.
Proof. vm_compute. reflexivity. Qed.

Example t_Integer_isGreaterThan : run_tests fixture
  [($"Integer create: i withValue: 42;", Some $"null");
   ($"i isGreaterThan? 41;", Some $"true");
   ($"i isGreaterThan? 41.9;", Some $"true");
   ($"i isGreaterThan? 42;", Some $"false");
   ($"i isGreaterThan? 42.0;", Some $"false")] = true.
Proof. vm_compute. reflexivity. Qed.

Example t_Integer_isGreaterThanOrEqualTo : run_tests fixture
  [($"Integer create: i withValue: 42;", Some $"null");
   ($"i isGreaterThanOrEqualTo? 42;", Some $"true");
   ($"i isGreaterThanOrEqualTo? 42.0;", Some $"true");
   ($"i isGreaterThanOrEqualTo? 43;", Some $"false");
   ($"i isGreaterThanOrEqualTo? 42.1;", Some $"false")] = true.
Proof. vm_compute. reflexivity. Qed.

Example t_Integer_add : run_tests fixture
  [($"Integer create: i withValue: 42;", Some $"null");
   ($"i add: 42;", Some $"null");
   ($"i get;", Some $"84");
   ($"i add: -42.5;", Some $"null");
   ($"i get;", Some $"41")] = true.
Proof. vm_compute. reflexivity. Qed.

Example t_Integer_subtract : run_tests fixture
  [($"Integer create: i withValue: 42;", Some $"null");
   ($"i subtract: 84;", Some $"null");
   ($"i get;", Some $"-42");
   ($"i subtract: -84.5;", Some $"null");
   ($"i get;", Some $"42")] = true.
Proof. vm_compute. reflexivity. Qed.

Example t_Integer_multiplyBy : run_tests fixture
  [($"Integer create: i withValue: 20;", Some $"null");
   ($"i multiplyBy: 2;", Some $"null");
   ($"i get;", Some $"40");
   ($"i multiplyBy: -2.5;", Some $"null");
   ($"i get;", Some $"-100")] = true.
Proof. vm_compute. reflexivity. Qed.

Example t_Integer_divideBy : run_tests fixture
  [($"Integer create: i withValue: 100;", Some $"null");
   ($"i divideBy: 2.5;", Some $"null");
   ($"i get;", Some $"40");
   ($"i divideBy: -2;", Some $"null");
   ($"i get;", Some $"-20")] = true.
Proof. vm_compute. reflexivity. Qed.

Example t_Float_create_withValue : run_tests fixture
  [($"Float create: f withValue: 42.5;", Some $"null");
   ($"f get;", Some $"42.500")] = true.
Proof. vm_compute. reflexivity. Qed.

Example t_Float_createIfNotExists_withValue : run_tests fixture
  [($"Float createIfNotExists: f withValue: 42.5;", Some $"null");
   ($"f get;", Some $"42.500");
   ($"Float createIfNotExists: f withValue: 43.5;", Some $"null");
   ($"f get;", Some $"42.500")] = true.
Proof. vm_compute. reflexivity. Qed.

Example t_Float_get : run_tests fixture
  [($"Float create: f withValue: 42.5;", Some $"null");
   ($"f get;", Some $"42.500")] = true.
Proof. vm_compute. reflexivity. Qed.

Example t_Float_set : run_tests fixture
  [($"Float create: f withValue: 42.5;", Some $"null");
   ($"f set: 43.5;", Some $"null");
   ($"f get;", Some $"43.500")] = true.
Proof. vm_compute. reflexivity. Qed.

Example t_Float_isEqualTo : run_tests fixture
  [($"Float create: f withValue: 42.5;", Some $"null");
   ($"f isEqualTo? 42.5;", Some $"true");
   ($"f isEqualTo? 42.0;", Some $"false")] = true.
Proof. vm_compute. reflexivity. Qed.

Example t_Float_isLessThan : run_tests fixture
  [($"Float create: f withValue: 42.5;", Some $"null");
   ($"f isLessThan? 43.0;", Some $"true");
   ($"f isLessThan? 42.5;", Some $"false")] = true.
Proof. vm_compute. reflexivity. Qed.

Example t_Float_isLessThanOrEqualTo : run_tests fixture
  [($"Float create: f withValue: 42.5;", Some $"null");
   ($"f isLessThanOrEqualTo? 42.5;", Some $"true");
   ($"f isLessThanOrEqualTo? 42.0;", Some $"false")] = true.
Proof. vm_compute. reflexivity. Qed.

Example t_Float_isGreaterThan : run_tests fixture
  [($"Float create: f withValue: 42.5;", Some $"null");
   ($"f isGreaterThan? 42.0;", Some $"true");
   ($"f isGreaterThan? 42.5;", Some $"false")] = true.
Proof. vm_compute. reflexivity. Qed.

Example t_Float_isGreaterThanOrEqualTo : run_tests fixture
  [($"Float create: f withValue: 42.5;", Some $"null");
   ($"f isGreaterThanOrEqualTo? 42.5;", Some $"true");
   ($"f isGreaterThanOrEqualTo? 43.0;", Some $"false")] = true.
Proof. vm_compute. reflexivity. Qed.

Example t_Float_add : run_tests fixture
  [($"Float create: f withValue: 42.5;", Some $"null");
   ($"f add: .5;", Some $"null");
   ($"f get;", Some $"43.000")] = true.
Proof. vm_compute. reflexivity. Qed.

Example t_Float_subtract : run_tests fixture
  [($"Float create: f withValue: 42.5;", Some $"null");
   ($"f subtract: .5;", Some $"null");
   ($"f get;", Some $"42.000")] = true.
Proof. vm_compute. reflexivity. Qed.

Example t_Float_multiplyBy : run_tests fixture
  [($"Float create: f withValue: 42.5;", Some $"null");
   ($"f multiplyBy: 2;", Some $"null");
   ($"f get;", Some $"85.000")] = true.
Proof. vm_compute. reflexivity. Qed.

Example t_Float_divideBy : run_tests fixture
  [($"Float create: f withValue: 85;", Some $"null");
   ($"f divideBy: 2;", Some $"null");
   ($"f get;", Some $"42.500")] = true.
Proof. vm_compute. reflexivity. Qed.

Example t_String_create : run_tests fixture
  [($"String create: str;", Some $"null");
   ($"str get;", Some $"""""")] = true.
Proof. vm_compute. reflexivity. Qed.

Example t_String_createIfNotExists : run_tests fixture
  [($"String createIfNotExists: str;", Some $"null");
   ($"str get;", Some $"""""");
   ($"String createIfNotExists: str;", Some $"null");
   ($"str get;", Some $"""""")] = true.
Proof. vm_compute. reflexivity. Qed.

Example t_String_create_withValue : run_tests fixture
  [($"String create: str withValue: ""knuckleball"";", Some $"null");
   ($"str get;", Some $"""knuckleball""")] = true.
Proof. vm_compute. reflexivity. Qed.

Example t_String_createIfNotExists_withValue : run_tests fixture
  [($"String createIfNotExists: str withValue: ""knuckleball"";", Some $"null");
   ($"str get;", Some $"""knuckleball""");
   ($"String createIfNotExists: str withValue: """";", Some $"null");
   ($"str get;", Some $"""knuckleball""")] = true.
Proof. vm_compute. reflexivity. Qed.

Example t_String_get : run_tests fixture
  [($"String create: str withValue: ""knuckleball"";", Some $"null");
   ($"str get;", Some $"""knuckleball""")] = true.
Proof. vm_compute. reflexivity. Qed.

Example t_String_set : run_tests fixture
  [($"String create: str withValue: ""knuckleball"";", Some $"null");
   ($"str set: """";", Some $"null");
   ($"str get;", Some $"""""")] = true.
Proof. vm_compute. reflexivity. Qed.

Example t_String_isEmpty : run_tests fixture
  [($"String create: empty_str;", Some $"null");
   ($"empty_str isEmpty?;", Some $"true");
   ($"String create: non_empty_str withValue: ""knuckleball"";", Some $"null");
   ($"non_empty_str isEmpty?;", Some $"false")] = true.
Proof. vm_compute. reflexivity. Qed.

Example t_String_startsWith : run_tests fixture
  [($"String create: str withValue: ""knuckleball"";", Some $"null");
   ($"str startsWith? """";", Some $"true");
   ($"str startsWith? ""knuckle"";", Some $"true");
   ($"str startsWith? ""knuckleball"";", Some $"true");
   ($"str startsWith? ""ball"";", Some $"false")] = true.
Proof. vm_compute. reflexivity. Qed.

Example t_String_endsWith : run_tests fixture
  [($"String create: str withValue: ""knuckleball"";", Some $"null");
   ($"str endsWith? """";", Some $"true");
   ($"str endsWith? ""ball"";", Some $"true");
   ($"str endsWith? ""knuckleball"";", Some $"true");
   ($"str endsWith? ""knuckle"";", Some $"false")] = true.
Proof. vm_compute. reflexivity. Qed.

Example t_String_isLexicographicallyEqualTo : run_tests fixture
  [($"String create: str withValue: ""knuckleball"";", Some $"null");
   ($"str isLexicographicallyEqualTo? ""knuckleball"";", Some $"true");
   ($"str isLexicographicallyEqualTo? """";", Some $"false")] = true.
Proof. vm_compute. reflexivity. Qed.

Example t_String_isLexicographicallyLessThan : run_tests fixture
  [($"String create: str withValue: ""knuckleball"";", Some $"null");
   ($"str isLexicographicallyLessThan? ""zball"";", Some $"true");
   ($"str isLexicographicallyLessThan? ""knuckleball"";", Some $"false")] = true.
Proof. vm_compute. reflexivity. Qed.

Example t_String_isLexicographicallyLessThanOrEqualTo : run_tests fixture
  [($"String create: str withValue: ""knuckleball"";", Some $"null");
   ($"str isLexicographicallyLessThanOrEqualTo? ""knuckleball"";", Some $"true");
   ($"str isLexicographicallyLessThanOrEqualTo? """";", Some $"false")] = true.
Proof. vm_compute. reflexivity. Qed.

Example t_String_isLexicographicallyGreaterThan : run_tests fixture
  [($"String create: str withValue: ""knuckleball"";", Some $"null");
   ($"str isLexicographicallyGreaterThan? """";", Some $"true");
   ($"str isLexicographicallyGreaterThan? ""knuckleball"";", Some $"false")] = true.
Proof. vm_compute. reflexivity. Qed.

Example t_String_isLexicographicallyGreaterThanOrEqualTo : run_tests fixture
  [($"String create: str withValue: ""knuckleball"";", Some $"null");
   ($"str isLexicographicallyGreaterThanOrEqualTo? ""knuckleball"";", Some $"true");
   ($"str isLexicographicallyGreaterThanOrEqualTo? ""zball"";", Some $"false")] = true.
Proof. vm_compute. reflexivity. Qed.

Example t_String_length : run_tests fixture
  [($"String create: empty_str withValue: """";", Some $"null");
   ($"empty_str length;", Some $"0");
   ($"String create: non_empty_str withValue: ""knuckleball"";", Some $"null");
   ($"non_empty_str length;", Some $"11")] = true.
Proof. vm_compute. reflexivity. Qed.

Example t_String_atIndex : run_tests fixture
  [($"String create: str withValue: ""knuckleball"";", Some $"null");
   ($"str atIndex: 0;", Some $"'k'");
   ($"str atIndex: 1;", Some $"'n'");
   ($"str atIndex: 2;", Some $"'u'");
   ($"str atIndex: -1;", Some (exc_text InvalidArgument));
   ($"str atIndex: 42;", Some (exc_text InvalidArgument))] = true.
Proof. vm_compute. reflexivity. Qed.

Example t_String_first : run_tests fixture
  [($"String create: str withValue: ""knuckleball"";", Some $"null");
   ($"str first: 0;", Some $"""""");
   ($"str first: 7;", Some $"""knuckle""");
   ($"str first: 42;", Some $"""knuckleball""");
   ($"str first: -1;", Some (exc_text InvalidArgument))] = true.
Proof. vm_compute. reflexivity. Qed.

Example t_String_last : run_tests fixture
  [($"String create: str withValue: ""knuckleball"";", Some $"null");
   ($"str last: 0;", Some $"""""");
   ($"str last: 4;", Some $"""ball""");
   ($"str last: 42;", Some $"""knuckleball""");
   ($"str last: -1;", Some (exc_text InvalidArgument))] = true.
Proof. vm_compute. reflexivity. Qed.

Example t_String_substringFromIndex : run_tests fixture
  [($"String create: str withValue: ""knuckleball"";", Some $"null");
   ($"str substringFromIndex: 0;", Some $"""knuckleball""");
   ($"str substringFromIndex: 7;", Some $"""ball""");
   ($"str substringFromIndex: 11;", Some $"""""");
   ($"str substringFromIndex: -1;", Some (exc_text InvalidArgument));
   ($"str substringFromIndex: 12;", Some (exc_text InvalidArgument))] = true.
Proof. vm_compute. reflexivity. Qed.

Example t_String_substringFromIndex_toIndex : run_tests fixture
  [($"String create: str withValue: ""knuckleball"";", Some $"null");
   ($"str substringFromIndex: 0 toIndex: 0;", Some $"""""");
   ($"str substringFromIndex: 0 toIndex: 7;", Some $"""knuckle""");
   ($"str substringFromIndex: 0 toIndex: 11;", Some $"""knuckleball""");
   ($"str substringFromIndex: 4 toIndex: 2;", Some (exc_text InvalidArgument));
   ($"str substringFromIndex: -1 toIndex: 2;", Some (exc_text InvalidArgument))] = true.
Proof. vm_compute. reflexivity. Qed.

Example t_String_pushBack : run_tests fixture
  [($"String create: str withValue: ""knucklebal"";", Some $"null");
   ($"str pushBack: 'l';", Some $"null");
   ($"str get;", Some $"""knuckleball""")] = true.
Proof. vm_compute. reflexivity. Qed.

Example t_String_pushFront : run_tests fixture
  [($"String create: str withValue: ""nuckleball"";", Some $"null");
   ($"str pushFront: 'k';", Some $"null");
   ($"str get;", Some $"""knuckleball""")] = true.
Proof. vm_compute. reflexivity. Qed.

Example t_String_popBack : run_tests fixture
  [($"String create: str withValue: ""knu"";", Some $"null");
   ($"str popBack;", Some $"'u'");
   ($"str popBack;", Some $"'n'");
   ($"str popBack;", Some $"'k'");
   ($"str get;", Some $"""""");
   ($"str popBack;", Some $"null")] = true.
Proof. vm_compute. reflexivity. Qed.

Example t_String_popFront : run_tests fixture
  [($"String create: str withValue: ""knu"";", Some $"null");
   ($"str popFront;", Some $"'k'");
   ($"str popFront;", Some $"'n'");
   ($"str popFront;", Some $"'u'");
   ($"str get;", Some $"""""");
   ($"str popFront;", Some $"null")] = true.
Proof. vm_compute. reflexivity. Qed.

Example t_String_popAtIndex : run_tests fixture
  [($"String create: str withValue: ""knuckleball"";", Some $"null");
   ($"str popAtIndex: 0;", Some $"'k'");
   ($"str popAtIndex: 6;", Some $"'b'");
   ($"str get;", Some $"""nuckleall""");
   ($"str popAtIndex: -1;", Some (exc_text InvalidArgument));
   ($"str popAtIndex: 9;", Some (exc_text InvalidArgument))] = true.
Proof. vm_compute. reflexivity. Qed.

Example t_String_concatenate : run_tests fixture
  [($"String create: str withValue: ""knuckle"";", Some $"null");
   ($"str concatenate: ""ball"";", Some $"null");
   ($"str get;", Some $"""knuckleball""")] = true.
Proof. vm_compute. reflexivity. Qed.

Example t_String_insert_beforeIndex : run_tests fixture
  [($"String create: str withValue: ""bal"";", Some $"null");
   ($"str insert: ""l"" beforeIndex: 3;", Some $"null");
   ($"str get;", Some $"""ball""");
   ($"str insert: ""knuckle"" beforeIndex: 0;", Some $"null");
   ($"str get;", Some $"""knuckleball""");
   ($"str insert: "" "" beforeIndex: 7;", Some $"null");
   ($"str get;", Some $"""knuckle ball""");
   ($"str insert: "" "" beforeIndex: -1;", Some (exc_text InvalidArgument));
   ($"str insert: "" "" beforeIndex: 13;", Some (exc_text InvalidArgument))] = true.
Proof. vm_compute. reflexivity. Qed.

Example t_String_eraseFromIndex : run_tests fixture
  [($"String create: str withValue: ""knuckleball"";", Some $"null");
   ($"str eraseFromIndex: 7;", Some $"null");
   ($"str get;", Some $"""knuckle""");
   ($"str eraseFromIndex: 8;", Some (exc_text InvalidArgument));
   ($"str eraseFromIndex: -1;", Some (exc_text InvalidArgument))] = true.
Proof. vm_compute. reflexivity. Qed.

Example t_String_eraseFromIndex_toIndex : run_tests fixture
  [($"String create: str withValue: ""knuckle ball"";", Some $"null");
   ($"str eraseFromIndex: 7 toIndex: 8;", Some $"null");
   ($"str get;", Some $"""knuckleball""");
   ($"str eraseFromIndex: 4 toIndex: 2;", Some (exc_text InvalidArgument));
   ($"str eraseFromIndex: 4 toIndex: 12;", Some (exc_text InvalidArgument));
   ($"str eraseFromIndex: -1 toIndex: 0;", Some (exc_text InvalidArgument))] = true.
Proof. vm_compute. reflexivity. Qed.

Example t_String_clear : run_tests fixture
  [($"String create: str withValue: ""knuckleball"";", Some $"null");
   ($"str clear;", Some $"null");
   ($"str get;", Some $"""""")] = true.
Proof. vm_compute. reflexivity. Qed.

Example t_Vector_create : run_tests fixture
  [($"Vector<Integer> create: prices;", Some $"null");
   ($"prices get;", Some $"[]")] = true.
Proof. vm_compute. reflexivity. Qed.

Example t_Vector_createIfNotExists : run_tests fixture
  [($"Vector<Integer> createIfNotExists: prices;", Some $"null");
   ($"prices get;", Some $"[]");
   ($"Vector<Integer> createIfNotExists: prices;", Some $"null");
   ($"prices get;", Some $"[]")] = true.
Proof. vm_compute. reflexivity. Qed.

Example t_Vector_get : run_tests fixture
  [($"Vector<Integer> create: prices;", Some $"null");
   ($"prices get;", Some $"[]")] = true.
Proof. vm_compute. reflexivity. Qed.

Example t_Vector_isEmpty : run_tests fixture
  [($"Vector<Integer> create: prices;", Some $"null");
   ($"prices isEmpty?;", Some $"true");
   ($"prices pushBack: 42;", Some $"null");
   ($"prices isEmpty?;", Some $"false")] = true.
Proof. vm_compute. reflexivity. Qed.

Example t_Vector_contains : run_tests fixture
  [($"Vector<Integer> create: prices;", Some $"null");
   ($"prices contains? 42;", Some $"false");
   ($"prices pushBack: 42;", Some $"null");
   ($"prices contains? 42;", Some $"true")] = true.
Proof. vm_compute. reflexivity. Qed.

Example t_Vector_contains_fromIndex : run_tests fixture
  [($"Vector<Integer> create: prices;", Some $"null");
   ($"prices contains? 42 fromIndex: 0;", Some $"false");
   ($"prices pushBack: 42;", Some $"null");
   ($"prices contains? 42 fromIndex: 0;", Some $"true");
   ($"prices pushBack: 21;", Some $"null");
   ($"prices contains? 42 fromIndex: 1;", Some $"false");
   ($"prices contains? 42 fromIndex: 3;", Some (exc_text InvalidArgument));
   ($"prices contains? 42 fromIndex: -1;", Some (exc_text InvalidArgument))] = true.
Proof. vm_compute. reflexivity. Qed.

Example t_Vector_count : run_tests fixture
  [($"Vector<Integer> create: prices;", Some $"null");
   ($"prices pushBack: 42;", Some $"null");
   ($"prices pushBack: 42;", Some $"null");
   ($"prices pushBack: 21;", Some $"null");
   ($"prices count: 63;", Some $"0");
   ($"prices count: 21;", Some $"1");
   ($"prices count: 42;", Some $"2")] = true.
Proof. vm_compute. reflexivity. Qed.

Example t_Vector_atIndex : run_tests fixture
  [($"Vector<Integer> create: prices;", Some $"null");
   ($"prices pushBack: 21;", Some $"null");
   ($"prices pushBack: 42;", Some $"null");
   ($"prices pushBack: 63;", Some $"null");
   ($"prices atIndex: 0;", Some $"21");
   ($"prices atIndex: 1;", Some $"42");
   ($"prices atIndex: 2;", Some $"63");
   ($"prices atIndex: -1;", Some (exc_text InvalidArgument));
   ($"prices atIndex: 42;", Some (exc_text InvalidArgument))] = true.
Proof. vm_compute. reflexivity. Qed.

Example t_Vector_firstIndexOf : run_tests fixture
  [($"Vector<Integer> create: prices;", Some $"null");
   ($"prices pushBack: 42;", Some $"null");
   ($"prices pushBack: 21;", Some $"null");
   ($"prices pushBack: 42;", Some $"null");
   ($"prices firstIndexOf: 42;", Some $"0");
   ($"prices firstIndexOf: 21;", Some $"1");
   ($"prices firstIndexOf: 63;", Some $"-1")] = true.
Proof. vm_compute. reflexivity. Qed.

Example t_Vector_firstIndexOf_fromIndex : run_tests fixture
  [($"Vector<Integer> create: prices;", Some $"null");
   ($"prices pushBack: 42;", Some $"null");
   ($"prices pushBack: 21;", Some $"null");
   ($"prices pushBack: 42;", Some $"null");
   ($"prices firstIndexOf: 42 fromIndex: 0;", Some $"0");
   ($"prices firstIndexOf: 42 fromIndex: 1;", Some $"2");
   ($"prices firstIndexOf: 42 fromIndex: 3;", Some $"-1");
   ($"prices firstIndexOf: 63 fromIndex: 0;", Some $"-1");
   ($"prices firstIndexOf: 42 fromIndex: -1;", Some (exc_text InvalidArgument));
   ($"prices firstIndexOf: 42 fromIndex: 42;", Some (exc_text InvalidArgument))] = true.
Proof. vm_compute. reflexivity. Qed.

Example t_Vector_allIndexesOf : run_tests fixture
  [($"Vector<Integer> create: prices;", Some $"null");
   ($"prices pushBack: 42;", Some $"null");
   ($"prices pushBack: 21;", Some $"null");
   ($"prices pushBack: 42;", Some $"null");
   ($"prices allIndexesOf: 63;", Some $"[]");
   ($"prices allIndexesOf: 21;", Some $"[1]");
   ($"prices allIndexesOf: 42;", Some $"[0,2]")] = true.
Proof. vm_compute. reflexivity. Qed.

Example t_Vector_size : run_tests fixture
  [($"Vector<Integer> create: prices;", Some $"null");
   ($"prices size;", Some $"0");
   ($"prices pushBack: 42;", Some $"null");
   ($"prices pushBack: 21;", Some $"null");
   ($"prices pushBack: 42;", Some $"null");
   ($"prices size;", Some $"3")] = true.
Proof. vm_compute. reflexivity. Qed.

Example t_Vector_first : run_tests fixture
  [($"Vector<Integer> create: prices;", Some $"null");
   ($"prices pushBack: 42;", Some $"null");
   ($"prices pushBack: 21;", Some $"null");
   ($"prices pushBack: 63;", Some $"null");
   ($"prices first: 0;", Some $"[]");
   ($"prices first: 1;", Some $"[42]");
   ($"prices first: 2;", Some $"[42,21]");
   ($"prices first: 3;", Some $"[42,21,63]");
   ($"prices first: 4;", Some $"[42,21,63]");
   ($"prices first: -1;", Some (exc_text InvalidArgument))] = true.
Proof. vm_compute. reflexivity. Qed.

Example t_Vector_last : run_tests fixture
  [($"Vector<Integer> create: prices;", Some $"null");
   ($"prices pushBack: 42;", Some $"null");
   ($"prices pushBack: 21;", Some $"null");
   ($"prices pushBack: 63;", Some $"null");
   ($"prices last: 0;", Some $"[]");
   ($"prices last: 1;", Some $"[63]");
   ($"prices last: 2;", Some $"[21,63]");
   ($"prices last: 3;", Some $"[42,21,63]");
   ($"prices last: 4;", Some $"[42,21,63]");
   ($"prices last: -1;", Some (exc_text InvalidArgument))] = true.
Proof. vm_compute. reflexivity. Qed.

Example t_Vector_sliceFromIndex : run_tests fixture
  [($"Vector<Integer> create: prices;", Some $"null");
   ($"prices pushBack: 1;", Some $"null");
   ($"prices pushBack: 2;", Some $"null");
   ($"prices pushBack: 3;", Some $"null");
   ($"prices pushBack: 4;", Some $"null");
   ($"prices pushBack: 5;", Some $"null");
   ($"prices sliceFromIndex: 0;", Some $"[1,2,3,4,5]");
   ($"prices sliceFromIndex: 1;", Some $"[2,3,4,5]");
   ($"prices sliceFromIndex: 4;", Some $"[5]");
   ($"prices sliceFromIndex: 5;", Some $"[]");
   ($"prices sliceFromIndex: -1;", Some (exc_text InvalidArgument));
   ($"prices sliceFromIndex: 42;", Some (exc_text InvalidArgument))] = true.
Proof. vm_compute. reflexivity. Qed.

Example t_Vector_sliceFromIndex_toIndex : run_tests fixture
  [($"Vector<Integer> create: prices;", Some $"null");
   ($"prices pushBack: 1;", Some $"null");
   ($"prices pushBack: 2;", Some $"null");
   ($"prices pushBack: 3;", Some $"null");
   ($"prices pushBack: 4;", Some $"null");
   ($"prices pushBack: 5;", Some $"null");
   ($"prices sliceFromIndex: 0 toIndex: 0;", Some $"[]");
   ($"prices sliceFromIndex: 0 toIndex: 1;", Some $"[1]");
   ($"prices sliceFromIndex: 0 toIndex: 5;", Some $"[1,2,3,4,5]");
   ($"prices sliceFromIndex: 1 toIndex: 3;", Some $"[2,3]");
   ($"prices sliceFromIndex: 4 toIndex: 2;", Some (exc_text InvalidArgument));
   ($"prices sliceFromIndex: -1 toIndex: 3;", Some (exc_text InvalidArgument));
   ($"prices sliceFromIndex: 0 toIndex: 42;", Some (exc_text InvalidArgument))] = true.
Proof. vm_compute. reflexivity. Qed.

Example t_Vector_pushBack : run_tests fixture
  [($"Vector<Integer> create: prices;", Some $"null");
   ($"prices pushBack: 42;", Some $"null");
   ($"prices get;", Some $"[42]");
   ($"prices pushBack: 21;", Some $"null");
   ($"prices get;", Some $"[42,21]")] = true.
Proof. vm_compute. reflexivity. Qed.

Example t_Vector_pushFront : run_tests fixture
  [($"Vector<Integer> create: prices;", Some $"null");
   ($"prices pushFront: 42;", Some $"null");
   ($"prices get;", Some $"[42]");
   ($"prices pushFront: 21;", Some $"null");
   ($"prices get;", Some $"[21,42]")] = true.
Proof. vm_compute. reflexivity. Qed.

Example t_Vector_popBack : run_tests fixture
  [($"Vector<Integer> create: prices;", Some $"null");
   ($"prices pushBack: 21;", Some $"null");
   ($"prices pushBack: 42;", Some $"null");
   ($"prices pushBack: 63;", Some $"null");
   ($"prices popBack;", Some $"63");
   ($"prices popBack;", Some $"42");
   ($"prices popBack;", Some $"21");
   ($"prices popBack;", Some $"null")] = true.
Proof. vm_compute. reflexivity. Qed.

Example t_Vector_popFront : run_tests fixture
  [($"Vector<Integer> create: prices;", Some $"null");
   ($"prices pushBack: 21;", Some $"null");
   ($"prices pushBack: 42;", Some $"null");
   ($"prices pushBack: 63;", Some $"null");
   ($"prices popFront;", Some $"21");
   ($"prices popFront;", Some $"42");
   ($"prices popFront;", Some $"63");
   ($"prices popFront;", Some $"null")] = true.
Proof. vm_compute. reflexivity. Qed.

Example t_Vector_popAtIndex : run_tests fixture
  [($"Vector<Integer> create: prices;", Some $"null");
   ($"prices pushBack: 1;", Some $"null");
   ($"prices pushBack: 2;", Some $"null");
   ($"prices pushBack: 3;", Some $"null");
   ($"prices pushBack: 4;", Some $"null");
   ($"prices pushBack: 5;", Some $"null");
   ($"prices popAtIndex: 0;", Some $"1");
   ($"prices popAtIndex: 3;", Some $"5");
   ($"prices get;", Some $"[2,3,4]");
   ($"prices popAtIndex: -1;", Some (exc_text InvalidArgument));
   ($"prices popAtIndex: 3;", Some (exc_text InvalidArgument))] = true.
Proof. vm_compute. reflexivity. Qed.

Example t_Vector_insert_beforeIndex : run_tests fixture
  [($"Vector<Integer> create: prices;", Some $"null");
   ($"prices insert: 42 beforeIndex: 0;", Some $"null");
   ($"prices insert: 21 beforeIndex: 0;", Some $"null");
   ($"prices insert: 63 beforeIndex: 2;", Some $"null");
   ($"prices insert: 22 beforeIndex: 1;", Some $"null");
   ($"prices get;", Some $"[21,22,42,63]");
   ($"prices insert: 42 beforeIndex: -1;", Some (exc_text InvalidArgument));
   ($"prices insert: 42 beforeIndex: 42;", Some (exc_text InvalidArgument))] = true.
Proof. vm_compute. reflexivity. Qed.

Example t_Vector_eraseFromIndex : run_tests fixture
  [($"Vector<Integer> create: prices;", Some $"null");
   ($"prices pushBack: 1;", Some $"null");
   ($"prices pushBack: 2;", Some $"null");
   ($"prices pushBack: 3;", Some $"null");
   ($"prices pushBack: 4;", Some $"null");
   ($"prices pushBack: 5;", Some $"null");
   ($"prices eraseFromIndex: 3;", Some $"null");
   ($"prices get;", Some $"[1,2,3]");
   ($"prices eraseFromIndex: 0;", Some $"null");
   ($"prices get;", Some $"[]");
   ($"prices eraseFromIndex: -1;", Some (exc_text InvalidArgument));
   ($"prices eraseFromIndex: 42;", Some (exc_text InvalidArgument))] = true.
Proof. vm_compute. reflexivity. Qed.

Example t_Vector_eraseFromIndex_toIndex : run_tests fixture
  [($"Vector<Integer> create: prices;", Some $"null");
   ($"prices pushBack: 1;", Some $"null");
   ($"prices pushBack: 2;", Some $"null");
   ($"prices pushBack: 3;", Some $"null");
   ($"prices pushBack: 4;", Some $"null");
   ($"prices pushBack: 5;", Some $"null");
   ($"prices eraseFromIndex: 0 toIndex: 3;", Some $"null");
   ($"prices get;", Some $"[4,5]");
   ($"prices eraseFromIndex: 1 toIndex: 2;", Some $"null");
   ($"prices get;", Some $"[4]");
   ($"prices eraseFromIndex: 1 toIndex: 0;", Some (exc_text InvalidArgument));
   ($"prices eraseFromIndex: -1 toIndex: 1;", Some (exc_text InvalidArgument));
   ($"prices eraseFromIndex: 0 toIndex: 42;", Some (exc_text InvalidArgument))] = true.
Proof. vm_compute. reflexivity. Qed.

Example t_Vector_removeFirst : run_tests fixture
  [($"Vector<Integer> create: prices;", Some $"null");
   ($"prices pushBack: 21;", Some $"null");
   ($"prices pushBack: 42;", Some $"null");
   ($"prices pushBack: 21;", Some $"null");
   ($"prices pushBack: 42;", Some $"null");
   ($"prices removeFirst: 42;", Some $"null");
   ($"prices get;", Some $"[21,21,42]")] = true.
Proof. vm_compute. reflexivity. Qed.

Example t_Vector_removeFirstFromIndex : run_tests fixture
  [($"Vector<Integer> create: prices;", Some $"null");
   ($"prices pushBack: 21;", Some $"null");
   ($"prices pushBack: 42;", Some $"null");
   ($"prices pushBack: 21;", Some $"null");
   ($"prices pushBack: 42;", Some $"null");
   ($"prices removeFirst: 21 fromIndex: 1;", Some $"null");
   ($"prices get;", Some $"[21,42,42]");
   ($"prices removeFirst: 42 fromIndex: -1;", Some (exc_text InvalidArgument));
   ($"prices removeFirst: 42 fromIndex: 42;", Some (exc_text InvalidArgument))] = true.
Proof. vm_compute. reflexivity. Qed.

Example t_Vector_removeAll : run_tests fixture
  [($"Vector<Integer> create: prices;", Some $"null");
   ($"prices pushBack: 21;", Some $"null");
   ($"prices pushBack: 42;", Some $"null");
   ($"prices pushBack: 21;", Some $"null");
   ($"prices pushBack: 42;", Some $"null");
   ($"prices removeAll: 42;", Some $"null");
   ($"prices get;", Some $"[21,21]")] = true.
Proof. vm_compute. reflexivity. Qed.

Example t_Vector_replaceFirst_with : run_tests fixture
  [($"Vector<Integer> create: prices;", Some $"null");
   ($"prices pushBack: 21;", Some $"null");
   ($"prices pushBack: 42;", Some $"null");
   ($"prices pushBack: 21;", Some $"null");
   ($"prices pushBack: 42;", Some $"null");
   ($"prices replaceFirst: 42 with: -42;", Some $"null");
   ($"prices get;", Some $"[21,-42,21,42]")] = true.
Proof. vm_compute. reflexivity. Qed.

Example t_Vector_replaceFirst_fromIndex_with : run_tests fixture
  [($"Vector<Integer> create: prices;", Some $"null");
   ($"prices pushBack: 21;", Some $"null");
   ($"prices pushBack: 42;", Some $"null");
   ($"prices pushBack: 21;", Some $"null");
   ($"prices pushBack: 42;", Some $"null");
   ($"prices replaceFirst: 42 fromIndex: 2 with: -42;", Some $"null");
   ($"prices get;", Some $"[21,42,21,-42]");
   ($"prices replaceFirst: 42 fromIndex: -1 with: -42;", Some (exc_text InvalidArgument));
   ($"prices replaceFirst: 42 fromIndex: 42 with: -42;", Some (exc_text InvalidArgument))] = true.
Proof. vm_compute. reflexivity. Qed.

Example t_Vector_replaceAll_with : run_tests fixture
  [($"Vector<Integer> create: prices;", Some $"null");
   ($"prices pushBack: 21;", Some $"null");
   ($"prices pushBack: 42;", Some $"null");
   ($"prices pushBack: 21;", Some $"null");
   ($"prices pushBack: 42;", Some $"null");
   ($"prices replaceAll: 42 with: -42;", Some $"null");
   ($"prices get;", Some $"[21,-42,21,-42]")] = true.
Proof. vm_compute. reflexivity. Qed.

Example t_Vector_sort : run_tests fixture
  [($"Vector<Integer> create: prices;", Some $"null");
   ($"prices pushBack: 3;", Some $"null");
   ($"prices pushBack: 2;", Some $"null");
   ($"prices pushBack: 5;", Some $"null");
   ($"prices pushBack: 1;", Some $"null");
   ($"prices pushBack: 4;", Some $"null");
   ($"prices sort;", Some $"null");
   ($"prices get;", Some $"[1,2,3,4,5]")] = true.
Proof. vm_compute. reflexivity. Qed.

Example t_Vector_reverse : run_tests fixture
  [($"Vector<Integer> create: prices;", Some $"null");
   ($"prices pushBack: 21;", Some $"null");
   ($"prices pushBack: 42;", Some $"null");
   ($"prices pushBack: 63;", Some $"null");
   ($"prices reverse;", Some $"null");
   ($"prices get;", Some $"[63,42,21]")] = true.
Proof. vm_compute. reflexivity. Qed.

Example t_Vector_clear : run_tests fixture
  [($"Vector<Integer> create: prices;", Some $"null");
   ($"prices pushBack: 21;", Some $"null");
   ($"prices pushBack: 42;", Some $"null");
   ($"prices pushBack: 63;", Some $"null");
   ($"prices clear;", Some $"null");
   ($"prices get;", Some $"[]")] = true.
Proof. vm_compute. reflexivity. Qed.

Example t_Set_create : run_tests fixture
  [($"Set<String> create: ids;", Some $"null");
   ($"ids get;", Some $"{}")] = true.
Proof. vm_compute. reflexivity. Qed.

Example t_Set_createIfNotExists : run_tests fixture
  [($"Set<String> createIfNotExists: ids;", Some $"null");
   ($"ids get;", Some $"{}");
   ($"Set<String> createIfNotExists: ids;", Some $"null");
   ($"ids get;", Some $"{}")] = true.
Proof. vm_compute. reflexivity. Qed.

Example t_Set_get : run_tests fixture
  [($"Set<String> create: ids;", Some $"null");
   ($"ids get;", Some $"{}")] = true.
Proof. vm_compute. reflexivity. Qed.

Example t_Set_isEmpty : run_tests fixture
  [($"Set<String> create: ids;", Some $"null");
   ($"ids isEmpty?;", Some $"true");
   ($"ids add: ""knuckleball"";", Some $"null");
   ($"ids isEmpty?;", Some $"false")] = true.
Proof. vm_compute. reflexivity. Qed.

Example t_Set_contains : run_tests fixture
  [($"Set<String> create: ids;", Some $"null");
   ($"ids contains? ""knuckleball"";", Some $"false");
   ($"ids add: ""knuckleball"";", Some $"null");
   ($"ids contains? ""knuckleball"";", Some $"true")] = true.
Proof. vm_compute. reflexivity. Qed.

Example t_Set_size : run_tests fixture
  [($"Set<String> create: ids;", Some $"null");
   ($"ids size;", Some $"0");
   ($"ids add: ""1"";", Some $"null");
   ($"ids add: ""2"";", Some $"null");
   ($"ids add: ""3"";", Some $"null");
   ($"ids size;", Some $"3");
   ($"ids add: ""1"";", Some $"null");
   ($"ids size;", Some $"3")] = true.
Proof. vm_compute. reflexivity. Qed.

Example t_Set_add : run_tests fixture
  [($"Set<String> create: ids;", Some $"null");
   ($"ids add: ""knuckle"";", Some $"null");
   ($"ids get;", Some $"{""knuckle""}");
   ($"ids add: ""ball"";", Some $"null");
   ($"ids get;", Some $"{""ball"",""knuckle""}")] = true.
Proof. vm_compute. reflexivity. Qed.

Example t_Set_remove : run_tests fixture
  [($"Set<String> create: ids;", Some $"null");
   ($"ids add: ""knuckle"";", Some $"null");
   ($"ids add: ""ball"";", Some $"null");
   ($"ids remove: ""knuckle"";", Some $"null");
   ($"ids get;", Some $"{""ball""}")] = true.
Proof. vm_compute. reflexivity. Qed.

Example t_Set_clear : run_tests fixture
  [($"Set<String> create: ids;", Some $"null");
   ($"ids add: ""1"";", Some $"null");
   ($"ids add: ""2"";", Some $"null");
   ($"ids add: ""3"";", Some $"null");
   ($"ids clear;", Some $"null");
   ($"ids get;", Some $"{}")] = true.
Proof. vm_compute. reflexivity. Qed.

Example t_Dictionary_create : run_tests fixture
  [($"Dictionary<String, Integer> create: ages;", Some $"null");
   ($"ages get;", Some $"()")] = true.
Proof. vm_compute. reflexivity. Qed.

Example t_Dictionary_createIfNotExists : run_tests fixture
  [($"Dictionary<String, Integer> createIfNotExists: ages;", Some $"null");
   ($"ages get;", Some $"()");
   ($"Dictionary<String, Integer> createIfNotExists: ages;", Some $"null");
   ($"ages get;", Some $"()")] = true.
Proof. vm_compute. reflexivity. Qed.

Example t_Dictionary_get : run_tests fixture
  [($"Dictionary<String, Integer> create: ages;", Some $"null");
   ($"ages get;", Some $"()")] = true.
Proof. vm_compute. reflexivity. Qed.

Example t_Dictionary_isEmpty : run_tests fixture
  [($"Dictionary<String, Integer> create: ages;", Some $"null");
   ($"ages isEmpty?;", Some $"true");
   ($"ages associateValue: 42 withKey: ""knuckleball"";", Some $"null");
   ($"ages isEmpty?;", Some $"false")] = true.
Proof. vm_compute. reflexivity. Qed.

Example t_Dictionary_containsKey : run_tests fixture
  [($"Dictionary<String, Integer> create: ages;", Some $"null");
   ($"ages containsKey? ""knuckleball"";", Some $"false");
   ($"ages associateValue: 42 withKey: ""knuckleball"";", Some $"null");
   ($"ages containsKey? ""knuckleball"";", Some $"true")] = true.
Proof. vm_compute. reflexivity. Qed.

Example t_Dictionary_size : run_tests fixture
  [($"Dictionary<String, Integer> create: ages;", Some $"null");
   ($"ages size;", Some $"0");
   ($"ages associateValue: 21 withKey: ""knuckle"";", Some $"null");
   ($"ages associateValue: 42 withKey: ""ball"";", Some $"null");
   ($"ages associateValue: 63 withKey: ""knuckleball"";", Some $"null");
   ($"ages associateValue: 84 withKey: ""knuckleball"";", Some $"null");
   ($"ages size;", Some $"3")] = true.
Proof. vm_compute. reflexivity. Qed.

Example t_Dictionary_keys : run_tests fixture
  [($"Dictionary<String, Integer> create: ages;", Some $"null");
   ($"ages associateValue: 21 withKey: ""knuckle"";", Some $"null");
   ($"ages associateValue: 42 withKey: ""ball"";", Some $"null");
   ($"ages associateValue: 63 withKey: ""knuckleball"";", Some $"null");
   ($"ages keys;", Some $"[""ball"",""knuckle"",""knuckleball""]")] = true.
Proof. vm_compute. reflexivity. Qed.

Example t_Dictionary_values : run_tests fixture
  [($"Dictionary<String, Integer> create: ages;", Some $"null");
   ($"ages associateValue: 21 withKey: ""knuckle"";", Some $"null");
   ($"ages associateValue: 42 withKey: ""ball"";", Some $"null");
   ($"ages associateValue: 42 withKey: ""knuckleball"";", Some $"null");
   ($"ages values;", Some $"[42,21,42]")] = true.
Proof. vm_compute. reflexivity. Qed.

Example t_Dictionary_getValueForKey : run_tests fixture
  [($"Dictionary<String, Integer> create: ages;", Some $"null");
   ($"ages associateValue: 21 withKey: ""knuckle"";", Some $"null");
   ($"ages associateValue: 42 withKey: ""ball"";", Some $"null");
   ($"ages associateValue: 42 withKey: ""knuckleball"";", Some $"null");
   ($"ages getValueForKey: ""knuckle"";", Some $"21");
   ($"ages getValueForKey: ""ball"";", Some $"42");
   ($"ages getValueForKey: ""knuckleball"";", Some $"42");
   ($"ages getValueForKey: """";", Some $"null")] = true.
Proof. vm_compute. reflexivity. Qed.

Example t_Dictionary_associateValue_withKey : run_tests fixture
  [($"Dictionary<String, Integer> create: ages;", Some $"null");
   ($"ages associateValue: 42 withKey: ""knuckle"";", Some $"null");
   ($"ages get;", Some $"((""knuckle"",42))");
   ($"ages associateValue: 21 withKey: ""ball"";", Some $"null");
   ($"ages get;", Some $"((""ball"",21),(""knuckle"",42))")] = true.
Proof. vm_compute. reflexivity. Qed.

Example t_Dictionary_removeKey : run_tests fixture
  [($"Dictionary<String, Integer> create: ages;", Some $"null");
   ($"ages associateValue: 21 withKey: ""knuckle"";", Some $"null");
   ($"ages associateValue: 42 withKey: ""ball"";", Some $"null");
   ($"ages associateValue: 42 withKey: ""knuckleball"";", Some $"null");
   ($"ages removeKey: ""knuckleball"";", Some $"null");
   ($"ages removeKey: ""42"";", Some $"null");
   ($"ages get;", Some $"((""ball"",42),(""knuckle"",21))")] = true.
Proof. vm_compute. reflexivity. Qed.

Example t_Dictionary_clear : run_tests fixture
  [($"Dictionary<String, Integer> create: ages;", Some $"null");
   ($"ages associateValue: 21 withKey: ""knuckle"";", Some $"null");
   ($"ages associateValue: 42 withKey: ""ball"";", Some $"null");
   ($"ages associateValue: 63 withKey: ""knuckleball"";", Some $"null");
   ($"ages clear;", Some $"null");
   ($"ages get;", Some $"()")] = true.
Proof. vm_compute. reflexivity. Qed.

Example t_SyntaxError_for_invalid_actor : run_tests fixture
  [($"_prices get;", Some (exc_text InvalidStatement));
   ($"2016prices get;", Some (exc_text InvalidStatement));
   ($"42 get;", Some (exc_text InvalidStatement));
   ($"Vector create: l;", Some (exc_text InvalidStatement))] = true.
Proof. vm_compute. reflexivity. Qed.

Example t_SyntaxError_for_invalid_message_name : run_tests fixture
  [($"Boolean create t withValue true;", Some (exc_text InvalidStatement));
   ($"t set false;", Some (exc_text InvalidStatement))] = true.
Proof. vm_compute. reflexivity. Qed.

Example t_SyntaxError_for_invalid_argument : run_tests fixture
  [($"Boolean create: _t withValue: true;", Some (exc_text InvalidStatement))] = true.
Proof. vm_compute. reflexivity. Qed.

Example t_SyntaxError_for_multiple_arguments : run_tests fixture
  [($"Boolean create: t withValue: true false;", Some (exc_text InvalidStatement))] = true.
Proof. vm_compute. reflexivity. Qed.

Example t_SyntaxError_for_missing_actor : run_tests fixture
  [($"get;", Some (exc_text InvalidStatement));
   ($"create: t withValue: true;", Some (exc_text InvalidStatement))] = true.
Proof. vm_compute. reflexivity. Qed.

Example t_SyntaxError_for_missing_message : run_tests fixture
  [($"t;", Some (exc_text InvalidStatement));
   ($"Boolean;", Some (exc_text InvalidStatement))] = true.
Proof. vm_compute. reflexivity. Qed.

Example t_SyntaxError_for_missing_argument : run_tests fixture
  [($"t set: ;", Some (exc_text InvalidStatement));
   ($"Boolean create: t withValue: ;", Some (exc_text InvalidStatement));
   ($"Boolean create: withValue: true;", Some (exc_text InvalidStatement))] = true.
Proof. vm_compute. reflexivity. Qed.

Example t_SyntaxError_for_missing_semicolon : run_tests fixture
  [($"t get", Some (exc_text InvalidStatement));
   ($"Boolean create: t withValue: true", Some (exc_text InvalidStatement))] = true.
Proof. vm_compute. reflexivity. Qed.

Example t_RuntimeError_for_unexistent_variable : run_tests fixture
  [($"t get;", Some (exc_text UnexistentVariable));
   ($"i add: 1;", Some (exc_text UnexistentVariable))] = true.
Proof. vm_compute. reflexivity. Qed.

Example t_RuntimeError_for_invalid_message : run_tests fixture
  [($"Boolean create: t;", Some (exc_text InvalidMessage));
   ($"Character create: c;", Some (exc_text InvalidMessage));
   ($"Integer create: i;", Some (exc_text InvalidMessage));
   ($"Float create: f;", Some (exc_text InvalidMessage))] = true.
Proof. vm_compute. reflexivity. Qed.

Example t_RuntimeError_for_wrong_number_of_arguments : run_tests fixture
  [($"Boolean create: t withValue: true;", Some $"null");
   ($"t isTrue? 42;", Some (exc_text WrongNumberOfArguments));
   ($"t isFalse? 42;", Some (exc_text WrongNumberOfArguments));
   ($"Character create: space withValue: ' ';", Some $"null");
   ($"space isAlphabetic? 42;", Some (exc_text WrongNumberOfArguments));
   ($"space isNumeric? 42;", Some (exc_text WrongNumberOfArguments));
   ($"space isAlphanumeric? 42;", Some (exc_text WrongNumberOfArguments));
   ($"space isSpace? 42;", Some (exc_text WrongNumberOfArguments));
   ($"String create: str withValue: ""knuckleball"";", Some $"null");
   ($"str isEmpty? 42;", Some (exc_text WrongNumberOfArguments));
   ($"Vector<Integer> create: prices;", Some $"null");
   ($"prices isEmpty? 42;", Some (exc_text WrongNumberOfArguments));
   ($"Set<String> create: ids;", Some $"null");
   ($"ids isEmpty? 42;", Some (exc_text WrongNumberOfArguments));
   ($"Dictionary<String, Integer> create: ages;", Some $"null");
   ($"ages isEmpty? 42;", Some (exc_text WrongNumberOfArguments))] = true.
Proof. vm_compute. reflexivity. Qed.

Example t_RuntimeError_for_variable_name_already_used : run_tests fixture
  [($"Boolean create: t withValue: true;", Some $"null");
   ($"Boolean create: t withValue: false;", Some (exc_text NameAlreadyUsed));
   ($"t get;", Some $"true");
   ($"Character create: numeric withValue: '0';", Some $"null");
   ($"Character create: numeric withValue: '1';", Some (exc_text NameAlreadyUsed));
   ($"numeric get;", Some $"'0'");
   ($"Integer create: i withValue: 42;", Some $"null");
   ($"Integer create: i withValue: 43;", Some (exc_text NameAlreadyUsed));
   ($"i get;", Some $"42");
   ($"Float create: f withValue: 42.0;", Some $"null");
   ($"Float create: f withValue: 43.0;", Some (exc_text NameAlreadyUsed));
   ($"f get;", Some $"42.000");
   ($"String create: str withValue: ""knuckleball"";", Some $"null");
   ($"String create: str;", Some (exc_text NameAlreadyUsed));
   ($"String create: str withValue: """";", Some (exc_text NameAlreadyUsed));
   ($"str get;", Some $"""knuckleball""");
   ($"Vector<Integer> create: prices;", Some $"null");
   ($"Vector<Integer> create: prices;", Some (exc_text NameAlreadyUsed));
   ($"Set<String> create: ids;", Some $"null");
   ($"Set<String> create: ids;", Some (exc_text NameAlreadyUsed));
   ($"Dictionary<String, Integer> create: ages;", Some $"null");
   ($"Dictionary<String, Integer> create: ages;", Some (exc_text NameAlreadyUsed))] = true.
Proof. vm_compute. reflexivity. Qed.

Example t_Boolean_RuntimeError_for_invalid_argument : run_tests fixture
  [($"Boolean create: t withValue: true;", Some $"null");
   ($"Boolean create: t withValue: 1;", Some (exc_text InvalidArgument));
   ($"Boolean create: 42 withValue: true;", Some (exc_text InvalidArgument));
   ($"Boolean createIfNotExists: t withValue: 1;", Some (exc_text InvalidArgument));
   ($"Boolean createIfNotExists: 42 withValue: true;", Some (exc_text InvalidArgument));
   ($"t set: 0;", Some (exc_text InvalidArgument))] = true.
Proof. vm_compute. reflexivity. Qed.

Example t_Character_RuntimeError_for_invalid_argument : run_tests fixture
  [($"Character create: numeric withValue: '0';", Some $"null");
   ($"Character create: numeric withValue: ""0"";", Some (exc_text InvalidArgument));
   ($"Character create: 42 withValue: '0';", Some (exc_text InvalidArgument));
   ($"Character createIfNotExists: numeric withValue: ""0"";", Some (exc_text InvalidArgument));
   ($"Character createIfNotExists: 42 withValue: '0';", Some (exc_text InvalidArgument));
   ($"numeric set: 1;", Some (exc_text InvalidArgument));
   ($"numeric isEqualTo? 0;", Some (exc_text InvalidArgument));
   ($"numeric isLessThan? ""0"";", Some (exc_text InvalidArgument));
   ($"numeric isLessThanOrEqualTo? ""0"";", Some (exc_text InvalidArgument));
   ($"numeric isGreaterThan? 0;", Some (exc_text InvalidArgument));
   ($"numeric isGreaterThanOrEqualTo? 0;", Some (exc_text InvalidArgument))] = true.
Proof. vm_compute. reflexivity. Qed.

Example t_Integer_RuntimeError_for_invalid_argument : run_tests fixture
  [($"Integer create: i withValue: 42;", Some $"null");
   ($"Integer create: i withValue: ""42"";", Some (exc_text InvalidArgument));
   ($"Integer create: ""i"" withValue: 42;", Some (exc_text InvalidArgument));
   ($"Integer createIfNotExists: i withValue: ""42"";", Some (exc_text InvalidArgument));
   ($"Integer createIfNotExists: ""i"" withValue: 42;", Some (exc_text InvalidArgument));
   ($"i set: '0';", Some (exc_text InvalidArgument));
   ($"i isEqualTo? ""42"";", Some (exc_text InvalidArgument));
   ($"i isLessThan? false;", Some (exc_text InvalidArgument));
   ($"i isLessThanOrEqualTo? true;", Some (exc_text InvalidArgument));
   ($"i isGreaterThan? 'a';", Some (exc_text InvalidArgument));
   ($"i isGreaterThanOrEqualTo? ""42"";", Some (exc_text InvalidArgument));
   ($"i add: true;", Some (exc_text InvalidArgument));
   ($"i subtract: ""42"";", Some (exc_text InvalidArgument));
   ($"i multiplyBy: ""2.5"";", Some (exc_text InvalidArgument));
   ($"i divideBy: '2';", Some (exc_text InvalidArgument))] = true.
Proof. vm_compute. reflexivity. Qed.

Example t_Float_RuntimeError_for_invalid_argument : run_tests fixture
  [($"Float create: f withValue: 42.0;", Some $"null");
   ($"Float create: f withValue: ""42"";", Some (exc_text InvalidArgument));
   ($"Float create: ""f"" withValue: 42.0;", Some (exc_text InvalidArgument));
   ($"Float createIfNotExists: f withValue: ""42"";", Some (exc_text InvalidArgument));
   ($"Float createIfNotExists: ""f"" withValue: 42.0;", Some (exc_text InvalidArgument));
   ($"f set: '0';", Some (exc_text InvalidArgument));
   ($"f isEqualTo? ""42"";", Some (exc_text InvalidArgument));
   ($"f isLessThan? '0';", Some (exc_text InvalidArgument));
   ($"f isLessThanOrEqualTo? true;", Some (exc_text InvalidArgument));
   ($"f isGreaterThan? ""0"";", Some (exc_text InvalidArgument));
   ($"f isGreaterThanOrEqualTo? false;", Some (exc_text InvalidArgument));
   ($"f add: ""knuckleball"";", Some (exc_text InvalidArgument));
   ($"f subtract: i;", Some (exc_text InvalidArgument));
   ($"f multiplyBy: true;", Some (exc_text InvalidArgument));
   ($"f divideBy: false;", Some (exc_text InvalidArgument))] = true.
Proof. vm_compute. reflexivity. Qed.

Example t_String_RuntimeError_for_invalid_argument : run_tests fixture
  [($"String create: str withValue: ""knuckleball"";", Some $"null");
   ($"String create: 42;", Some (exc_text InvalidArgument));
   ($"String createIfNotExists: 42;", Some (exc_text InvalidArgument));
   ($"String create: str withValue: 42;", Some (exc_text InvalidArgument));
   ($"String create: 42 withValue: ""knuckleball"";", Some (exc_text InvalidArgument));
   ($"String createIfNotExists: str withValue: 42;", Some (exc_text InvalidArgument));
   ($"String createIfNotExists: 42 withValue: ""knuckleball"";", Some (exc_text InvalidArgument));
   ($"str set: 42;", Some (exc_text InvalidArgument));
   ($"str startsWith? 42;", Some (exc_text InvalidArgument));
   ($"str endsWith? 42;", Some (exc_text InvalidArgument));
   ($"str isLexicographicallyEqualTo? 42;", Some (exc_text InvalidArgument));
   ($"str isLexicographicallyLessThan? 42;", Some (exc_text InvalidArgument));
   ($"str isLexicographicallyLessThanOrEqualTo? 42;", Some (exc_text InvalidArgument));
   ($"str isLexicographicallyGreaterThan? 42;", Some (exc_text InvalidArgument));
   ($"str isLexicographicallyGreaterThanOrEqualTo? 42;", Some (exc_text InvalidArgument));
   ($"str atIndex: true;", Some (exc_text InvalidArgument));
   ($"str first: ""42"";", Some (exc_text InvalidArgument));
   ($"str last: ""42"";", Some (exc_text InvalidArgument));
   ($"str substringFromIndex: 'a';", Some (exc_text InvalidArgument));
   ($"str substringFromIndex: true toIndex: 43;", Some (exc_text InvalidArgument));
   ($"str substringFromIndex: 42 toIndex: false;", Some (exc_text InvalidArgument));
   ($"str pushBack: 42;", Some (exc_text InvalidArgument));
   ($"str pushFront: 42;", Some (exc_text InvalidArgument));
   ($"str concatenate: 42;", Some (exc_text InvalidArgument));
   ($"str insert: 42 beforeIndex: 0;", Some (exc_text InvalidArgument));
   ($"str insert: ""knuckleball"" beforeIndex: '4';", Some (exc_text InvalidArgument));
   ($"str popAtIndex: ""0"";", Some (exc_text InvalidArgument));
   ($"str eraseFromIndex: ""42"";", Some (exc_text InvalidArgument));
   ($"str eraseFromIndex: ""42"" toIndex: 43;", Some (exc_text InvalidArgument));
   ($"str eraseFromIndex: 42 toIndex: ""43"";", Some (exc_text InvalidArgument))] = true.
Proof. vm_compute. reflexivity. Qed.

Example t_Vector_RuntimeError_for_invalid_argument : run_tests fixture
  [($"Vector<Integer> create: prices;", Some $"null");
   ($"Vector<Integer> create: 42;", Some (exc_text InvalidArgument));
   ($"Vector<Integer> createIfNotExists: 42;", Some (exc_text InvalidArgument));
   ($"prices contains? true;", Some (exc_text InvalidArgument));
   ($"prices contains? true fromIndex: 0;", Some (exc_text InvalidArgument));
   ($"prices contains? 42 fromIndex: ""0"";", Some (exc_text InvalidArgument));
   ($"prices count: true;", Some (exc_text InvalidArgument));
   ($"prices atIndex: ""42"";", Some (exc_text InvalidArgument));
   ($"prices firstIndexOf: ""42"";", Some (exc_text InvalidArgument));
   ($"prices firstIndexOf: ""42"" fromIndex: 0;", Some (exc_text InvalidArgument));
   ($"prices firstIndexOf: 42 fromIndex: true;", Some (exc_text InvalidArgument));
   ($"prices allIndexesOf: ""42"";", Some (exc_text InvalidArgument));
   ($"prices first: ""42"";", Some (exc_text InvalidArgument));
   ($"prices last: ""42"";", Some (exc_text InvalidArgument));
   ($"prices sliceFromIndex: ""42"";", Some (exc_text InvalidArgument));
   ($"prices sliceFromIndex: ""42"" toIndex: 42;", Some (exc_text InvalidArgument));
   ($"prices sliceFromIndex: 42 toIndex: ""42"";", Some (exc_text InvalidArgument));
   ($"prices pushBack: true;", Some (exc_text InvalidArgument));
   ($"prices pushFront: true;", Some (exc_text InvalidArgument));
   ($"prices insert: ""42"" beforeIndex: 0;", Some (exc_text InvalidArgument));
   ($"prices insert: 42 beforeIndex: ""0"";", Some (exc_text InvalidArgument));
   ($"prices popAtIndex: ""0"";", Some (exc_text InvalidArgument));
   ($"prices eraseFromIndex: ""42"";", Some (exc_text InvalidArgument));
   ($"prices eraseFromIndex: 0 toIndex: ""42"";", Some (exc_text InvalidArgument));
   ($"prices eraseFromIndex: ""0"" toIndex: 42;", Some (exc_text InvalidArgument));
   ($"prices removeFirst: ""42"";", Some (exc_text InvalidArgument));
   ($"prices removeFirst: ""42"" fromIndex: 0;", Some (exc_text InvalidArgument));
   ($"prices removeFirst: 42 fromIndex: ""0"";", Some (exc_text InvalidArgument));
   ($"prices removeAll: ""42"";", Some (exc_text InvalidArgument));
   ($"prices replaceFirst: ""42"" with: 42;", Some (exc_text InvalidArgument));
   ($"prices replaceFirst: 42 with: ""42"";", Some (exc_text InvalidArgument));
   ($"prices replaceFirst: ""42"" fromIndex: 0 with: 42;", Some (exc_text InvalidArgument));
   ($"prices replaceFirst: 42 fromIndex: ""0"" with: 42;", Some (exc_text InvalidArgument));
   ($"prices replaceFirst: 42 fromIndex: 0 with: ""42"";", Some (exc_text InvalidArgument));
   ($"prices replaceAll: ""42"" with: 42;", Some (exc_text InvalidArgument));
   ($"prices replaceAll: 42 with: ""42"";", Some (exc_text InvalidArgument))] = true.
Proof. vm_compute. reflexivity. Qed.

Example t_Set_RuntimeError_for_invalid_argument : run_tests fixture
  [($"Set<String> create: ids;", Some $"null");
   ($"Set<String> create: 42;", Some (exc_text InvalidArgument));
   ($"Set<String> createIfNotExists: 42;", Some (exc_text InvalidArgument));
   ($"ids contains? true;", Some (exc_text InvalidArgument));
   ($"ids add: 42;", Some (exc_text InvalidArgument));
   ($"ids remove: 42;", Some (exc_text InvalidArgument))] = true.
Proof. vm_compute. reflexivity. Qed.

Example t_Dictionary_RuntimeError_for_invalid_argument : run_tests fixture
  [($"Dictionary<String, Integer> create: ages;", Some $"null");
   ($"Dictionary<String, Integer> create: 42;", Some (exc_text InvalidArgument));
   ($"Dictionary<String, Integer> createIfNotExists: 42;", Some (exc_text InvalidArgument));
   ($"ages containsKey? true;", Some (exc_text InvalidArgument));
   ($"ages getValueForKey: 42;", Some (exc_text InvalidArgument));
   ($"ages associateValue: ""knuckleball"" withKey: 42;", Some (exc_text InvalidArgument));
   ($"ages removeKey: 42;", Some (exc_text InvalidArgument))] = true.
Proof. vm_compute. reflexivity. Qed.

Example t_corner_cases_with_white_spaces : run_tests fixture
  [($"Boolean create:t withValue:true;", Some $"null");
   ($"t get;", Some $"true");
   ($"  Integer  create:  i  withValue:  42  ;  ", Some $"null");
   ($"i get;", Some $"42")] = true.
Proof. vm_compute. reflexivity. Qed.

Example t_grammar : forallb id
  [Bool.eqb (is_spaces $"") true;
   Bool.eqb (is_spaces $" ") true;
   Bool.eqb (is_spaces [ascii_of_nat 10]) true;
   Bool.eqb (is_spaces [ascii_of_nat 9]) true;
   Bool.eqb (is_spaces $"knuckleball") false;
   Bool.eqb (is_spaces $" knuckleball") false;
   Bool.eqb (is_spaces $"knuckleball ") false;
   Bool.eqb (is_boolean_type $"Boolean") true;
   Bool.eqb (is_boolean_type $"") false;
   Bool.eqb (is_boolean_type $"boolean") false;
   Bool.eqb (is_boolean_type $"BOOLEAN") false;
   Bool.eqb (is_boolean_type $" Boolean") false;
   Bool.eqb (is_boolean_type $"Boolean ") false;
   Bool.eqb (is_boolean_value $"true") true;
   Bool.eqb (is_boolean_value $"false") true;
   Bool.eqb (is_boolean_value $"") false;
   Bool.eqb (is_boolean_value $"1") false;
   Bool.eqb (is_boolean_value $"0") false;
   Bool.eqb (is_boolean_value $"TRUE") false;
   Bool.eqb (is_boolean_value $"FALSE") false;
   Bool.eqb (is_boolean_value $"True") false;
   Bool.eqb (is_boolean_value $"False") false;
   Bool.eqb (is_boolean_value $" true") false;
   Bool.eqb (is_boolean_value $"false ") false;
   Bool.eqb (is_character_type $"Character") true;
   Bool.eqb (is_character_type $"") false;
   Bool.eqb (is_character_type $"character") false;
   Bool.eqb (is_character_type $"CHARACTER") false;
   Bool.eqb (is_character_type $" Character") false;
   Bool.eqb (is_character_type $"Character ") false;
   Bool.eqb (is_character_value $"'a'") true;
   Bool.eqb (is_character_value $"'A'") true;
   Bool.eqb (is_character_value $"'0'") true;
   Bool.eqb (is_character_value $"'#'") true;
   Bool.eqb (is_character_value $"' '") true;
   Bool.eqb (is_character_value $"'''") true;
   Bool.eqb (is_character_value $"") false;
   Bool.eqb (is_character_value $"''") false;
   Bool.eqb (is_character_value $"'aa'") false;
   Bool.eqb (is_character_value $"'a' ") false;
   Bool.eqb (is_character_value $" 'a'") false;
   Bool.eqb (is_integer_type $"Integer") true;
   Bool.eqb (is_integer_type $"") false;
   Bool.eqb (is_integer_type $"integer") false;
   Bool.eqb (is_integer_type $"INTEGER") false;
   Bool.eqb (is_integer_type $" Integer") false;
   Bool.eqb (is_integer_type $"Integer ") false;
   Bool.eqb (is_integer_value $"0") true;
   Bool.eqb (is_integer_value $"+0") true;
   Bool.eqb (is_integer_value $"-0") true;
   Bool.eqb (is_integer_value $"42") true;
   Bool.eqb (is_integer_value $"+42") true;
   Bool.eqb (is_integer_value $"-42") true;
   Bool.eqb (is_integer_value $"") false;
   Bool.eqb (is_integer_value $"+") false;
   Bool.eqb (is_integer_value $"-") false;
   Bool.eqb (is_integer_value $"42.0") false;
   Bool.eqb (is_integer_value $"42e5") false;
   Bool.eqb (is_integer_value $" 42") false;
   Bool.eqb (is_integer_value $"42 ") false;
   Bool.eqb (is_float_type $"Float") true;
   Bool.eqb (is_float_type $"") false;
   Bool.eqb (is_float_type $"float") false;
   Bool.eqb (is_float_type $"FLOAT") false;
   Bool.eqb (is_float_type $" Float") false;
   Bool.eqb (is_float_type $"Float ") false;
   Bool.eqb (is_float_value $"0") true;
   Bool.eqb (is_float_value $"+0") true;
   Bool.eqb (is_float_value $"-0") true;
   Bool.eqb (is_float_value $"42") true;
   Bool.eqb (is_float_value $"+42") true;
   Bool.eqb (is_float_value $"-42") true;
   Bool.eqb (is_float_value $"42.") true;
   Bool.eqb (is_float_value $"+42.") true;
   Bool.eqb (is_float_value $"-42.") true;
   Bool.eqb (is_float_value $".42") true;
   Bool.eqb (is_float_value $"+.42") true;
   Bool.eqb (is_float_value $"-.42") true;
   Bool.eqb (is_float_value $"42.0") true;
   Bool.eqb (is_float_value $"+42.0") true;
   Bool.eqb (is_float_value $"-42.0") true;
   Bool.eqb (is_float_value $"42e1") true;
   Bool.eqb (is_float_value $"42e+1") true;
   Bool.eqb (is_float_value $"42e-1") true;
   Bool.eqb (is_float_value $"42.0e1") true;
   Bool.eqb (is_float_value $"42.0e+1") true;
   Bool.eqb (is_float_value $"42.0e-1") true;
   Bool.eqb (is_float_value $"42.e1") true;
   Bool.eqb (is_float_value $"42.e+1") true;
   Bool.eqb (is_float_value $"42.e-1") true;
   Bool.eqb (is_float_value $".42e1") true;
   Bool.eqb (is_float_value $".42e+1") true;
   Bool.eqb (is_float_value $".42e-1") true;
   Bool.eqb (is_float_value $"") false;
   Bool.eqb (is_float_value $"+") false;
   Bool.eqb (is_float_value $"-") false;
   Bool.eqb (is_float_value $".") false;
   Bool.eqb (is_float_value $"+.") false;
   Bool.eqb (is_float_value $"-.") false;
   Bool.eqb (is_float_value $"42..0") false;
   Bool.eqb (is_float_value $"e1") false;
   Bool.eqb (is_float_value $"+e1") false;
   Bool.eqb (is_float_value $"-e1") false;
   Bool.eqb (is_float_value $".e1") false;
   Bool.eqb (is_float_value $"+.e1") false;
   Bool.eqb (is_float_value $"-.e1") false;
   Bool.eqb (is_float_value $"42e1.0") false;
   Bool.eqb (is_float_value $" 42.0") false;
   Bool.eqb (is_float_value $"42.0 ") false;
   Bool.eqb (is_string_type $"String") true;
   Bool.eqb (is_string_type $"") false;
   Bool.eqb (is_string_type $"string") false;
   Bool.eqb (is_string_type $"STRING") false;
   Bool.eqb (is_string_type $" String") false;
   Bool.eqb (is_string_type $"String ") false;
   Bool.eqb (is_string_value $"""""") true;
   Bool.eqb (is_string_value $"""knuckleball""") true;
   Bool.eqb (is_string_value $"""knuckle\""ball""") true;
   Bool.eqb (is_string_value $"""\\""") true;
   Bool.eqb (is_string_value $"") false;
   Bool.eqb (is_string_value $"""") false;
   Bool.eqb (is_string_value $"""""""") false;
   Bool.eqb (is_string_value $"""""""""") false;
   Bool.eqb (is_string_value $"""\""") false;
   Bool.eqb (is_string_value $"""knuckle""ball""") false;
   Bool.eqb (is_string_value $"""knuckleball") false;
   Bool.eqb (is_string_value $"knuckleball""") false;
   Bool.eqb (is_string_value $" """"") false;
   Bool.eqb (is_string_value $""""" ") false;
   Bool.eqb (is_object_type $"Boolean") true;
   Bool.eqb (is_object_type $"Character") true;
   Bool.eqb (is_object_type $"Integer") true;
   Bool.eqb (is_object_type $"Float") true;
   Bool.eqb (is_object_type $"String") true;
   Bool.eqb (is_object_type $"Vector") false;
   Bool.eqb (is_object_type $"Vector<Integer>") false;
   Bool.eqb (is_object_type $"Set") false;
   Bool.eqb (is_object_type $"Set<Integer>") false;
   Bool.eqb (is_object_type $"Dictionary") false;
   Bool.eqb (is_object_type $"Dictionary<String, Integer>") false;
   Bool.eqb (is_object_value $"true") true;
   Bool.eqb (is_object_value $"false") true;
   Bool.eqb (is_object_value $"'a'") true;
   Bool.eqb (is_object_value $"42") true;
   Bool.eqb (is_object_value $"42e5") true;
   Bool.eqb (is_object_value $"""knuckleball""") true;
   Bool.eqb (is_object_value $"") false;
   Bool.eqb (is_object_value $"prices") false;
   Bool.eqb (is_object_value $"isEmpty?") false;
   Bool.eqb (is_object_value $" 42") false;
   Bool.eqb (is_object_value $"42 ") false;
   Bool.eqb (is_vector_type $"Vector<Boolean>") true;
   Bool.eqb (is_vector_type $"Vector< Character>") true;
   Bool.eqb (is_vector_type $"Vector<Integer >") true;
   Bool.eqb (is_vector_type $"Vector< String >") true;
   Bool.eqb (is_vector_type $"") false;
   Bool.eqb (is_vector_type $"Vector") false;
   Bool.eqb (is_vector_type $"Vector <Integer>") false;
   Bool.eqb (is_vector_type $"Vector<Vector<Integer>>") false;
   Bool.eqb (is_vector_type $"Vector<Integer, Integer>") false;
   Bool.eqb (is_vector_type $"vector<Integer>") false;
   Bool.eqb (is_vector_type $"VECTOR<Integer>") false;
   Bool.eqb (is_vector_type $" Vector<Integer>") false;
   Bool.eqb (is_vector_type $"Vector<Integer> ") false;
   Bool.eqb (is_set_type $"Set<Boolean>") true;
   Bool.eqb (is_set_type $"Set< Character>") true;
   Bool.eqb (is_set_type $"Set<Integer >") true;
   Bool.eqb (is_set_type $"Set< String >") true;
   Bool.eqb (is_set_type $"") false;
   Bool.eqb (is_set_type $"Set") false;
   Bool.eqb (is_set_type $"Set <Integer>") false;
   Bool.eqb (is_set_type $"Set<Set<Integer>>") false;
   Bool.eqb (is_set_type $"Set<Integer, Integer>") false;
   Bool.eqb (is_set_type $"set<Integer>") false;
   Bool.eqb (is_set_type $"SET<Integer>") false;
   Bool.eqb (is_set_type $" Set<Integer>") false;
   Bool.eqb (is_set_type $"Set<Integer> ") false;
   Bool.eqb (is_dictionary_type $"Dictionary<String, Boolean>") true;
   Bool.eqb (is_dictionary_type $"Dictionary< String, Integer>") true;
   Bool.eqb (is_dictionary_type $"Dictionary<String, Float >") true;
   Bool.eqb (is_dictionary_type $"Dictionary< String , String >") true;
   Bool.eqb (is_dictionary_type $"") false;
   Bool.eqb (is_dictionary_type $"Dictionary") false;
   Bool.eqb (is_dictionary_type $"Dictionary <String, Integer>") false;
   Bool.eqb (is_dictionary_type $"Dictionary<String, Set<Integer>>") false;
   Bool.eqb (is_dictionary_type $"Dictionary<Set<Integer>, String>") false;
   Bool.eqb (is_dictionary_type $"Dictionary<Integer>") false;
   Bool.eqb (is_dictionary_type $"dictionary<String, Integer>") false;
   Bool.eqb (is_dictionary_type $"DICTIONARY<String, Integer>") false;
   Bool.eqb (is_dictionary_type $" Dictionary<String, Integer>") false;
   Bool.eqb (is_dictionary_type $"Dictionary<String, Integer> ") false;
   Bool.eqb (is_container_type $"Vector<Boolean>") true;
   Bool.eqb (is_container_type $"Set<Character>") true;
   Bool.eqb (is_container_type $"Dictionary<String, Float>") true;
   Bool.eqb (is_container_type $"Boolean") false;
   Bool.eqb (is_container_type $"Character") false;
   Bool.eqb (is_container_type $"Integer") false;
   Bool.eqb (is_container_type $"Float") false;
   Bool.eqb (is_container_type $"String") false;
   Bool.eqb (is_type $"Boolean") true;
   Bool.eqb (is_type $"Character") true;
   Bool.eqb (is_type $"Integer") true;
   Bool.eqb (is_type $"Float") true;
   Bool.eqb (is_type $"String") true;
   Bool.eqb (is_type $"Vector<Boolean>") true;
   Bool.eqb (is_type $"Set<Character>") true;
   Bool.eqb (is_type $"Dictionary<String, Integer>") true;
   Bool.eqb (is_type $"") false;
   Bool.eqb (is_type $"42") false;
   Bool.eqb (is_type $"prices") false;
   Bool.eqb (is_type $"isEmpty?") false;
   Bool.eqb (is_type $" Integer") false;
   Bool.eqb (is_type $"Vector<Integer> ") false;
   Bool.eqb (is_connection $"Connection") true;
   Bool.eqb (is_connection $"") false;
   Bool.eqb (is_connection $"connection") false;
   Bool.eqb (is_connection $"CONNECTION") false;
   Bool.eqb (is_connection $" Connection") false;
   Bool.eqb (is_connection $"Connection ") false;
   Bool.eqb (is_context $"Context") true;
   Bool.eqb (is_context $"") false;
   Bool.eqb (is_context $"context") false;
   Bool.eqb (is_context $"CONTEXT") false;
   Bool.eqb (is_context $" Context") false;
   Bool.eqb (is_context $"Context ") false;
   Bool.eqb (is_reserved_word $"null") true;
   Bool.eqb (is_reserved_word $"true") true;
   Bool.eqb (is_reserved_word $"false") true;
   Bool.eqb (is_reserved_word $"Connection") true;
   Bool.eqb (is_reserved_word $"Context") true;
   Bool.eqb (is_reserved_word $"Boolean") true;
   Bool.eqb (is_reserved_word $"Character") true;
   Bool.eqb (is_reserved_word $"Integer") true;
   Bool.eqb (is_reserved_word $"Float") true;
   Bool.eqb (is_reserved_word $"String") true;
   Bool.eqb (is_reserved_word $"Vector") true;
   Bool.eqb (is_reserved_word $"Set") true;
   Bool.eqb (is_reserved_word $"Dictionary") true;
   Bool.eqb (is_reserved_word $"") false;
   Bool.eqb (is_reserved_word $"42") false;
   Bool.eqb (is_reserved_word $"prices") false;
   Bool.eqb (is_reserved_word $"isEmpty?") false;
   Bool.eqb (is_reserved_word $" Integer") false;
   Bool.eqb (is_reserved_word $"Vector ") false;
   Bool.eqb (is_identifier $"i") true;
   Bool.eqb (is_identifier $"id") true;
   Bool.eqb (is_identifier $"id2016") true;
   Bool.eqb (is_identifier $"id_2016") true;
   Bool.eqb (is_identifier $"") false;
   Bool.eqb (is_identifier $"null") false;
   Bool.eqb (is_identifier $"true") false;
   Bool.eqb (is_identifier $"false") false;
   Bool.eqb (is_identifier $"Connection") false;
   Bool.eqb (is_identifier $"Context") false;
   Bool.eqb (is_identifier $"Boolean") false;
   Bool.eqb (is_identifier $"Character") false;
   Bool.eqb (is_identifier $"Integer") false;
   Bool.eqb (is_identifier $"Float") false;
   Bool.eqb (is_identifier $"String") false;
   Bool.eqb (is_identifier $"Vector") false;
   Bool.eqb (is_identifier $"Set") false;
   Bool.eqb (is_identifier $"Dictionary") false;
   Bool.eqb (is_identifier $"_id") false;
   Bool.eqb (is_identifier $"2016id") false;
   Bool.eqb (is_identifier $" id") false;
   Bool.eqb (is_identifier $"id ") false;
   Bool.eqb (is_namespace $"s") true;
   Bool.eqb (is_namespace $"std") true;
   Bool.eqb (is_namespace $"std2016") true;
   Bool.eqb (is_namespace $"std_2016") true;
   Bool.eqb (is_namespace $"") false;
   Bool.eqb (is_namespace $"null") false;
   Bool.eqb (is_namespace $"true") false;
   Bool.eqb (is_namespace $"false") false;
   Bool.eqb (is_namespace $"Connection") false;
   Bool.eqb (is_namespace $"Context") false;
   Bool.eqb (is_namespace $"Boolean") false;
   Bool.eqb (is_namespace $"Character") false;
   Bool.eqb (is_namespace $"Integer") false;
   Bool.eqb (is_namespace $"Float") false;
   Bool.eqb (is_namespace $"String") false;
   Bool.eqb (is_namespace $"Vector") false;
   Bool.eqb (is_namespace $"Set") false;
   Bool.eqb (is_namespace $"Dictionary") false;
   Bool.eqb (is_namespace $"std:") false;
   Bool.eqb (is_namespace $"_std") false;
   Bool.eqb (is_namespace $"2016std") false;
   Bool.eqb (is_namespace $" std") false;
   Bool.eqb (is_namespace $"std ") false;
   Bool.eqb (is_variable $"i") true;
   Bool.eqb (is_variable $"prices") true;
   Bool.eqb (is_variable $"prices2016") true;
   Bool.eqb (is_variable $"prices_2016") true;
   Bool.eqb (is_variable $"std::i") true;
   Bool.eqb (is_variable $"std::prices") true;
   Bool.eqb (is_variable $"std::prices2016") true;
   Bool.eqb (is_variable $"std::prices_2016") true;
   Bool.eqb (is_variable $"") false;
   Bool.eqb (is_variable $"null") false;
   Bool.eqb (is_variable $"true") false;
   Bool.eqb (is_variable $"false") false;
   Bool.eqb (is_variable $"Connection") false;
   Bool.eqb (is_variable $"Context") false;
   Bool.eqb (is_variable $"Boolean") false;
   Bool.eqb (is_variable $"Character") false;
   Bool.eqb (is_variable $"Integer") false;
   Bool.eqb (is_variable $"Float") false;
   Bool.eqb (is_variable $"String") false;
   Bool.eqb (is_variable $"Vector") false;
   Bool.eqb (is_variable $"Set") false;
   Bool.eqb (is_variable $"Dictionary") false;
   Bool.eqb (is_variable $"std::") false;
   Bool.eqb (is_variable $"::std") false;
   Bool.eqb (is_variable $"std:::") false;
   Bool.eqb (is_variable $"std:::prices") false;
   Bool.eqb (is_variable $"_prices") false;
   Bool.eqb (is_variable $"std::_prices") false;
   Bool.eqb (is_variable $"2016prices") false;
   Bool.eqb (is_variable $"std::2016prices") false;
   Bool.eqb (is_variable $"std:prices") false;
   Bool.eqb (is_variable $"std_one::std_two::prices") false;
   Bool.eqb (is_variable $" prices") false;
   Bool.eqb (is_variable $"prices ") false;
   Bool.eqb (is_actor $"Connection") true;
   Bool.eqb (is_actor $"Context") true;
   Bool.eqb (is_actor $"Boolean") true;
   Bool.eqb (is_actor $"Character") true;
   Bool.eqb (is_actor $"Integer") true;
   Bool.eqb (is_actor $"Float") true;
   Bool.eqb (is_actor $"String") true;
   Bool.eqb (is_actor $"Vector<Boolean>") true;
   Bool.eqb (is_actor $"Set<Float>") true;
   Bool.eqb (is_actor $"Dictionary<String, Integer>") true;
   Bool.eqb (is_actor $"prices") true;
   Bool.eqb (is_actor $"prices2016") true;
   Bool.eqb (is_actor $"prices_2016") true;
   Bool.eqb (is_actor $"std::prices") true;
   Bool.eqb (is_actor $"std::prices2016") true;
   Bool.eqb (is_actor $"std::prices_2016") true;
   Bool.eqb (is_actor $"") false;
   Bool.eqb (is_actor $"42") false;
   Bool.eqb (is_actor $"isEmpty?") false;
   Bool.eqb (is_actor $" prices") false;
   Bool.eqb (is_actor $"prices ") false;
   Bool.eqb (is_unary_message $"get") true;
   Bool.eqb (is_unary_message $"isEmpty?") true;
   Bool.eqb (is_unary_message $"") false;
   Bool.eqb (is_unary_message $"42") false;
   Bool.eqb (is_unary_message $"get:") false;
   Bool.eqb (is_unary_message $" get") false;
   Bool.eqb (is_unary_message $"get ") false;
   Bool.eqb (is_keyword_message_token $"withValue:") true;
   Bool.eqb (is_keyword_message_token $"isEqualTo?") true;
   Bool.eqb (is_keyword_message_token $"") false;
   Bool.eqb (is_keyword_message_token $"42:") false;
   Bool.eqb (is_keyword_message_token $"true?") false;
   Bool.eqb (is_keyword_message_token $"withValue") false;
   Bool.eqb (is_keyword_message_token $" withValue:") false;
   Bool.eqb (is_keyword_message_token $"withValue: ") false;
   Bool.eqb (is_keyword_message_argument $"42") true;
   Bool.eqb (is_keyword_message_argument $"std") true;
   Bool.eqb (is_keyword_message_argument $"std::prices") true;
   Bool.eqb (is_keyword_message_argument $"") false;
   Bool.eqb (is_keyword_message_argument $"Connection") false;
   Bool.eqb (is_keyword_message_argument $"Context") false;
   Bool.eqb (is_keyword_message_argument $"Boolean") false;
   Bool.eqb (is_keyword_message_argument $"Vector") false;
   Bool.eqb (is_keyword_message_argument $"withValue:") false;
   Bool.eqb (is_keyword_message_argument $"isEmpty?") false;
   Bool.eqb (is_keyword_message_argument $" 42") false;
   Bool.eqb (is_keyword_message_argument $"42 ") false;
   Bool.eqb (is_keyword_message_part $"withValue: 42") true;
   Bool.eqb (is_keyword_message_part $"create: std::prices") true;
   Bool.eqb (is_keyword_message_part $"deleteVariablesOfNamespace: std") true;
   Bool.eqb (is_keyword_message_part $"withValue:42") true;
   Bool.eqb (is_keyword_message_part $"create:   std::prices") true;
   Bool.eqb (is_keyword_message_part $"") false;
   Bool.eqb (is_keyword_message_part $"get") false;
   Bool.eqb (is_keyword_message_part $"withValue:") false;
   Bool.eqb (is_keyword_message_part $"withValue 42") false;
   Bool.eqb (is_keyword_message_part $"withValue: Integer") false;
   Bool.eqb (is_keyword_message_part $"create: withValue:") false;
   Bool.eqb (is_keyword_message_part $" withValue: 42") false;
   Bool.eqb (is_keyword_message_part $"withValue: 42 ") false;
   Bool.eqb (is_keyword_message $"isEqualTo? 42") true;
   Bool.eqb (is_keyword_message $"create: i withValue: 42") true;
   Bool.eqb (is_keyword_message $"isEqualTo?42") true;
   Bool.eqb (is_keyword_message $"create: i   withValue: 42") true;
   Bool.eqb (is_keyword_message $"") false;
   Bool.eqb (is_keyword_message $"get") false;
   Bool.eqb (is_keyword_message $"isEmpty?") false;
   Bool.eqb (is_keyword_message $"withValue 42") false;
   Bool.eqb (is_keyword_message $"create: withValue:") false;
   Bool.eqb (is_keyword_message $"create: i withValue:") false;
   Bool.eqb (is_keyword_message $"create: i 42") false;
   Bool.eqb (is_keyword_message $"i withValue: 42") false;
   Bool.eqb (is_keyword_message $" create: i withValue: 42") false;
   Bool.eqb (is_keyword_message $"create: i withValue: 42 ") false;
   Bool.eqb (is_statement $"Connection close;") true;
   Bool.eqb (is_statement $"Context listVariables;") true;
   Bool.eqb (is_statement $"Integer create: i withValue: 42;") true;
   Bool.eqb (is_statement $"Dictionary<String, Integer> create: ages;") true;
   Bool.eqb (is_statement $"i isEqualTo? 42;") true;
   Bool.eqb (is_statement $"Integer create:i withValue:42;") true;
   Bool.eqb (is_statement $"  Integer  create:  i   withValue:  42  ;  ") true;
   Bool.eqb (is_statement $"") false;
   Bool.eqb (is_statement $";") false;
   Bool.eqb (is_statement $"true;") false;
   Bool.eqb (is_statement $"42 get;") false;
   Bool.eqb (is_statement $"Integer create: i") false;
   Bool.eqb (is_statement $"Integer create: ;") false;
   Bool.eqb (is_statement $"create: i withValue: 42;") false] = true.
Proof. vm_compute. reflexivity. Qed.

Example t_str_utils : forallb id
  [seq_eqb (ltrim $"" ) $"";
   seq_eqb (ltrim $" " ) $"";
   seq_eqb (ltrim $"  " ) $"";
   seq_eqb (ltrim $"Integer" ) $"Integer";
   seq_eqb (ltrim $" Integer" ) $"Integer";
   seq_eqb (ltrim $"Integer " ) $"Integer ";
   seq_eqb (ltrim $" Integer " ) $"Integer ";
   seq_eqb (rtrim $"" ) $"";
   seq_eqb (rtrim $" " ) $"";
   seq_eqb (rtrim $"  " ) $"";
   seq_eqb (rtrim $"Integer" ) $"Integer";
   seq_eqb (rtrim $" Integer" ) $" Integer";
   seq_eqb (rtrim $"Integer " ) $"Integer";
   seq_eqb (rtrim $" Integer " ) $" Integer";
   seq_eqb (trim $"" ) $"";
   seq_eqb (trim $" " ) $"";
   seq_eqb (trim $"  " ) $"";
   seq_eqb (trim $"Integer" ) $"Integer";
   seq_eqb (trim $" Integer" ) $"Integer";
   seq_eqb (trim $"Integer " ) $"Integer";
   seq_eqb (trim $" Integer " ) $"Integer";
   seq_eqb (escape $"" (ascii_of_nat 97)) $"";
   seq_eqb (escape $"knuckleball" (ascii_of_nat 108)) $"knuck\leba\l\l";
   seq_eqb (escape $"\knuckleball" (ascii_of_nat 108)) $"\knuck\leba\l\l";
   seq_eqb (unescape $"" (ascii_of_nat 97)) $"";
   seq_eqb (unescape $"\knuck\leba\l\l" (ascii_of_nat 108)) $"\knuckleball";
   seq_eqb (unescape $"\knuck\leba\l\l" (ascii_of_nat 107)) $"knuck\leba\l\l";
   seq_eqb (remove_spaces $"" ) $"";
   seq_eqb (remove_spaces $" " ) $"";
   seq_eqb (remove_spaces $"knuckleball" ) $"knuckleball";
   seq_eqb (remove_spaces [ascii_of_nat 32;ascii_of_nat 107;ascii_of_nat 110;ascii_of_nat 117;ascii_of_nat 99;ascii_of_nat 107;ascii_of_nat 108;ascii_of_nat 101;ascii_of_nat 10;ascii_of_nat 98;ascii_of_nat 97;ascii_of_nat 108;ascii_of_nat 108;ascii_of_nat 9] ) $"knuckleball";
   Bool.eqb (is_space (ascii_of_nat 32) ) true;
   Bool.eqb (is_space (ascii_of_nat 10) ) true;
   Bool.eqb (is_space (ascii_of_nat 9) ) true;
   Bool.eqb (is_space (ascii_of_nat 48) ) false;
   Bool.eqb (is_space (ascii_of_nat 57) ) false;
   Bool.eqb (is_space (ascii_of_nat 97) ) false;
   Bool.eqb (is_space (ascii_of_nat 122) ) false;
   Bool.eqb (is_space (ascii_of_nat 65) ) false;
   Bool.eqb (is_space (ascii_of_nat 90) ) false;
   Bool.eqb (is_space (ascii_of_nat 44) ) false;
   Bool.eqb (is_alpha (ascii_of_nat 97) ) true;
   Bool.eqb (is_alpha (ascii_of_nat 122) ) true;
   Bool.eqb (is_alpha (ascii_of_nat 65) ) true;
   Bool.eqb (is_alpha (ascii_of_nat 90) ) true;
   Bool.eqb (is_alpha (ascii_of_nat 32) ) false;
   Bool.eqb (is_alpha (ascii_of_nat 48) ) false;
   Bool.eqb (is_alpha (ascii_of_nat 57) ) false;
   Bool.eqb (is_alpha (ascii_of_nat 44) ) false;
   Bool.eqb (is_numeric (ascii_of_nat 48) ) true;
   Bool.eqb (is_numeric (ascii_of_nat 57) ) true;
   Bool.eqb (is_numeric (ascii_of_nat 32) ) false;
   Bool.eqb (is_numeric (ascii_of_nat 97) ) false;
   Bool.eqb (is_numeric (ascii_of_nat 122) ) false;
   Bool.eqb (is_numeric (ascii_of_nat 65) ) false;
   Bool.eqb (is_numeric (ascii_of_nat 90) ) false;
   Bool.eqb (is_numeric (ascii_of_nat 44) ) false;
   Bool.eqb (is_alphanumeric (ascii_of_nat 97) ) true;
   Bool.eqb (is_alphanumeric (ascii_of_nat 122) ) true;
   Bool.eqb (is_alphanumeric (ascii_of_nat 65) ) true;
   Bool.eqb (is_alphanumeric (ascii_of_nat 90) ) true;
   Bool.eqb (is_alphanumeric (ascii_of_nat 48) ) true;
   Bool.eqb (is_alphanumeric (ascii_of_nat 57) ) true;
   Bool.eqb (is_alphanumeric (ascii_of_nat 32) ) false;
   Bool.eqb (is_alphanumeric (ascii_of_nat 44) ) false;
   Bool.eqb (starts_with $"" $"") true;
   Bool.eqb (starts_with $"knuckleball" $"") true;
   Bool.eqb (starts_with $"knuckleball" $"knuckleball") true;
   Bool.eqb (starts_with $"knuckleball" $"knuckle") true;
   Bool.eqb (starts_with $"" $"knuckleball") false;
   Bool.eqb (starts_with $"knuckleball" $"ball") false;
   Bool.eqb (ends_with $"" $"") true;
   Bool.eqb (ends_with $"knuckleball" $"") true;
   Bool.eqb (ends_with $"knuckleball" $"knuckleball") true;
   Bool.eqb (ends_with $"knuckleball" $"ball") true;
   Bool.eqb (ends_with $"" $"knuckleball") false;
   Bool.eqb (ends_with $"knuckleball" $"knuckle") false] = true.
Proof. vm_compute. reflexivity. Qed.

Example t_parser : forallb id
  [parse_is $"Boolean create: b withValue: true;" $"Boolean" $"create:withValue:" [$"b"; $"true"];
   parse_is $"b get;" $"b" $"get" [];
   parse_is $"b isTrue?;" $"b" $"isTrue?" [];
   parse_is $"b set: false;" $"b" $"set:" [$"false"];
   parse_is $"Character create: numeric withValue: '1';" $"Character" $"create:withValue:" [$"numeric"; $"'1'"];
   parse_is $"i isEqualTo? -42;" $"i" $"isEqualTo?" [$"-42"];
   parse_is $"Float createIfNotExists: f withValue: -42.0;" $"Float" $"createIfNotExists:withValue:" [$"f"; $"-42.0"];
   parse_is $"String create: str withValue: ""knuckleball"";" $"String" $"create:withValue:" [$"str"; $"""knuckleball"""];
   parse_is $"str replaceFirst: ""knuckle"" fromIndex: 0 with: ""ball"";" $"str" $"replaceFirst:fromIndex:with:" [$"""knuckle"""; $"0"; $"""ball"""];
   parse_is $"Vector<Integer> create: prices;" $"Vector<Integer>" $"create:" [$"prices"];
   parse_is $"Set<String> create: ids;" $"Set<String>" $"create:" [$"ids"];
   parse_is $"Dictionary<String, Integer> create: ages;" $"Dictionary<String, Integer>" $"create:" [$"ages"];
   parse_is $"Context listVariablesOfNamespace: std;" $"Context" $"listVariablesOfNamespace:" [$"std"];
   parse_is $"  prices  get  ;  " $"prices" $"get" [];
   parse_is $"  Integer  create:  i  withValue:  +42  ;" $"Integer" $"create:withValue:" [$"i"; $"+42"];
   parse_is $"Integer create:i withValue:-42;" $"Integer" $"create:withValue:" [$"i"; $"-42"];
   parse_is $"String create: str withValue: ""one two three four"";" $"String" $"create:withValue:" [$"str"; $"""one two three four"""];
   parse_fails $"42;";
   parse_fails $"true;";
   parse_fails $"42 add: 1;";
   parse_fails $"true get;";
   parse_fails $"Integer;";
   parse_fails $"Context;";
   parse_fails $"std::prices;";
   parse_fails $"create: i withValue: 42;";
   parse_fails $"Integer create: i withValue: 42";
   parse_fails $"Integer create: i withValue: ;";
   parse_fails $"Integer create: withValue: 42;"] = true.
Proof. vm_compute. reflexivity. Qed.
