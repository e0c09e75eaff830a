-Q theories Verif
theories/Base.v
theories/Bits_Model.v
theories/Bits_Spec.v
theories/Bits_Proofs.v
theories/Bits_Ops.v
theories/Bits_Ops2.v
theories/Bits_Ops3.v
theories/Bits_Round.v
theories/Bits_Client.v
theories/Bits_Props.v
theories/Bits_Raw.v
theories/Sha1_Spec.v
theories/Sha1_Model.v
theories/Sha1_Proofs.v
theories/Sha1_Props.v
theories/Str_Model.v
theories/Str_Proofs.v
theories/Str_Props.v
theories/Str_Concat.v
theories/Hash_Model.v
theories/Hash_Proofs.v
theories/Ansi_Spec.v
theories/Ansi_Model.v
theories/Ansi_Proofs.v
theories/Ansi_Bound.v
theories/Ansi_Props.v
theories/Primes.v
theories/Brainpool_Spec.v
theories/Brainpool_Model.v
theories/Brainpool_Proofs.v
theories/Brainpool_Props.v
theories/Nums_Model.v
theories/Nums_Proofs.v
theories/Nums_Props.v
theories/Engine_Model.v
theories/Engine_Spec.v
theories/Engine_Proofs.v
theories/Engine_Props.v
theories/Timeout_Model.v
theories/Timeout_Props.v
theories/Cli_Model.v
theories/Cli_Spec.v
theories/Cli_Proofs.v
theories/Cli_Props.v
theories/Cli_Sizes.v
theories/Cli_Values.v
theories/Plan_Model.v
theories/Plan_Spec.v
theories/Plan_Proofs.v
theories/Plan_Proofs2.v
theories/Plan_Proofs3.v
theories/Plan_Proofs4.v
theories/Plan_Props.v
theories/Factor.v
theories/Random_Model.v
theories/Random_Props.v
theories/Subgroup_Model.v
theories/Subgroup_Proofs.v
theories/Subgroup_Props.v
theories/Points_Model.v
theories/Points_Props.v
theories/Gens_Props.v
theories/Output_Model.v
theories/Output_Props.v
theories/Twist_Model.v
theories/Twist_Props.v
theories/Invalid_Model.v
theories/InvPrimes_Props.v
theories/InvSingle_Props.v
theories/InvThread_Model.v
theories/InvThread_Proofs.v
theories/InvThread_Steps.v
theories/InvThread_Live.v
theories/InvThread_Props.v
theories/Poly_Tables.v
theories/Poly_Model.v
theories/Poly_Props.v
theories/Field_Props.v
theories/Koblitz_Model.v
theories/Koblitz_Props.v
theories/ZPoly.v
theories/Family_Model.v
theories/Family_Props.v
theories/Input_Model.v
theories/Input_Props.v
theories/Hex_Model.v
theories/Hex_Props.v
theories/Fp.v
theories/Fp_Orbits.v
theories/Supersingular_Model.v
theories/Supersingular_Props.v
theories/Anomalous_Model.v
theories/Anomalous_Props.v
theories/P1363_Model.v
theories/P1363_Props.v
theories/CmPrime_Model.v
theories/CmPrime_Props.v
theories/CmAny_Model.v
theories/CmAny_Props.v
theories/CmOrder_Model.v
theories/CmOrder_Props.v
theories/CmGen_Model.v
theories/CmGen_Props.v
theories/CmGen_Missing.v
theories/Own_Model.v
theories/Own_Spec.v
theories/Own_Free.v
theories/Own_Copy.v
theories/Own_Props.v
theories/GF2.v
theories/GF2_Test.v
theories/Irr_Spec.v
theories/Irr_Props.v
theories/Json_Spec.v
theories/Json_Model.v
theories/Json_Proofs.v
theories/CurveText_Model.v
theories/CurveText_Spec.v
theories/CurveText_Props.v
theories/RunText_Props.v
theories/Utf8_Spec.v
theories/Utf8_Props.v
theories/FamilySearch_Props.v
theories/Stk_Model.v
theories/Stk_Gens.v
theories/Stk_Check.v
theories/Stk_Sound.v
theories/Stk_Table.v
theories/Stk_Engine.v
theories/Stk_Run.v
theories/Stk_Props.v
theories/Stk_Invalid.v
theories/Stk_InvalidRun.v
theories/Stk_InvalidProps.v
theories/Shell_Model.v
theories/Shell_Spec.v
theories/Shell_Proofs.v
theories/Shell_Props.v
theories/Reseed_Model.v
theories/Reseed_Props.v
theories/Setup_Model.v
theories/Setup_Spec.v
theories/Setup_Proofs.v
theories/Setup_Props.v
theories/Ec_Group.v
theories/Abelian.v
theories/Ec_Fp.v
theories/Engine_Rule.v
theories/Ec_Group2.v
theories/Ec_F2m.v
theories/Ec_Some.v
theories/Shell_Fields.v
theories/Ec.v
theories/Whole_Model.v
theories/Whole_Spec.v
theories/Ec_Mod.v
theories/Whole_Group.v
theories/Whole_Stages.v
theories/Whole_Proofs.v
theories/Whole_Output.v
theories/Whole_Front.v
theories/Whole_Reads.v
theories/Whole_Run.v
theories/Whole_Default.v
theories/Kb_Zeta.v
theories/Kb_Field.v
theories/Kb_Count.v
theories/Koblitz_Points.v
theories/Whole_Binary.v
theories/Whole_Made.v
theories/Whole_Cm.v
theories/Whole_Ansi.v
theories/Whole_Props.v
theories/Whole_Example.v
theories/Mem_Model.v
theories/Mem_Props.v
theories/Whole_AnsiEx.v
theories/Whole_Brainpool.v
theories/Whole_BrainpoolOne.v
theories/Whole_BrainpoolEx.v
theories/Whole_Nums.v
theories/Whole_NumsEx.v
theories/Whole_Anomalous.v
theories/Whole_AnomalousEx.v
theories/Whole_FamilySpec.v
theories/Whole_Family.v
theories/Whole_FamilyEx.v
theories/Whole_BinaryEx.v
theories/Whole_AnsiBinary.v
theories/Whole_AnsiBinaryEx.v
theories/Whole_BinaryTyped.v
theories/Whole_BinaryTypedEx.v
theories/OrderCheck_Model.v
theories/OrderCheck_Props.v
theories/Whole_OrderSpec.v
theories/Whole_Order.v
theories/Whole_OrderEx.v
theories/Whole_Line.v
theories/Whole_OrderAny.v
theories/Ansi_Input.v
