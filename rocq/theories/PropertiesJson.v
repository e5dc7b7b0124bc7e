(** * C58, C59: the JSON output *)
From Verif Require Import Base World Location Token Scanner Meta Inline Block Asg Parser Json SpecLevel SpecGraph SpecJson GraphProofs JsonProofs.
Local Open Scope char_scope.
Local Open Scope nat_scope.
Definition lines (l : list bytes) : bytes := List.concat (map (fun s => s ++ [NL]) l).

(** ** C58: the output is JSON, stands for one value only, and each object of it has each
    of its names once *)
Theorem C58_json : forall a, json_text (render_json a) (json_of_asg a).
Proof. exact render_json_text. Qed.
Print Assumptions C58_json.
Theorem C58_one_value : forall s j j', json_text s j -> json_text s j' -> j = j'.
Proof. exact json_once. Qed.
Print Assumptions C58_one_value.
Theorem C58_names : forall w fuel origin resolve src a, parse w fuel origin resolve src = Ok a -> names_once (json_of_asg a).
Proof. exact parsed_names. Qed.
Print Assumptions C58_names.
Example C58_example : exists a, parse world0 1 [] false (lines [bs "[a=1]"; bs "x ""\"]) = Ok a
  /\ render_json a = List.concat (map (fun l => l ++ [NL]) (map bs
       ["{";
        "  ""name"": ""document"",";
        "  ""type"": ""block"",";
        "  ""blocks"": [";
        "    {";
        "      ""name"": ""paragraph"",";
        "      ""type"": ""block"",";
        "      ""inlines"": [";
        "        {";
        "          ""name"": ""text"",";
        "          ""type"": ""string"",";
        "          ""value"": ""x \""\\"",";
        "          ""location"": [";
        "            {";
        "              ""line"": 2,";
        "              ""col"": 1";
        "            },";
        "            {";
        "              ""line"": 2,";
        "              ""col"": 4";
        "            }";
        "          ]";
        "        }";
        "      ],";
        "      ""metadata"": {";
        "        ""attributes"": {";
        "          ""a"": ""1""";
        "        },";
        "        ""options"": [],";
        "        ""roles"": [],";
        "        ""location"": [";
        "          {";
        "            ""line"": 1,";
        "            ""col"": 1";
        "          },";
        "          {";
        "            ""line"": 1,";
        "            ""col"": 5";
        "          }";
        "        ]";
        "      },";
        "      ""location"": [";
        "        {";
        "          ""line"": 2,";
        "          ""col"": 1";
        "        },";
        "        {";
        "          ""line"": 2,";
        "          ""col"": 4";
        "        }";
        "      ]";
        "    }";
        "  ],";
        "  ""location"": [";
        "    {";
        "      ""line"": 1,";
        "      ""col"": 1";
        "    },";
        "    {";
        "      ""line"": 2,";
        "      ""col"": 4";
        "    }";
        "  ]"]%string)) ++ bs "}".
Proof. eexists. split; vm_compute; reflexivity. Qed.

(** ** C59: two graphs have the same output exactly when they agree in all that is shown *)
Theorem C59_shown : forall a a', render_json a = render_json a' <-> seen a = seen a'.
Proof. exact render_json_seen. Qed.
Print Assumptions C59_shown.
(** text that differs in markup only, and text that does not differ *)
Example C59_example : exists a b c, parse world0 1 [] false (bs "a *b*") = Ok a /\ parse world0 1 [] false (bs "a _b_") = Ok b
  /\ parse world0 2 (bs "d") true (bs "a *b*") = Ok c /\ render_json a <> render_json b /\ render_json a = render_json c.
Proof.
  do 3 eexists. do 3 (split; [vm_compute; reflexivity|]). split.
  - intros E. apply C59_shown in E. vm_compute in E. discriminate E.
  - apply C59_shown. vm_compute. reflexivity.
Qed.
