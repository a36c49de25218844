{"C01": {"note": "statement is the documented grammar (Spec_Grammar.v), independent of the recognisers"},
 "C04": {"note": "is_keyword_message / is_statement included; fuel adequacy is part of the equivalence"}}
