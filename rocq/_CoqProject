-Q theories Verif

theories/Go.v
theories/GoLemmas.v
theories/HashModel.v
theories/HashSpec.v
theories/HashProofs.v
theories/HashProps.v
theories/Base64.v
theories/SigModel.v
theories/SigSpec.v
theories/SigProofs.v
theories/SigProofs2.v
theories/SigProps.v
theories/CryptModel.v
theories/CryptSpec.v
theories/CryptProofs.v
theories/CryptProps.v
theories/Digits.v
theories/DomainModel.v
theories/DomainSpec.v
theories/DomainProofs.v
theories/DomainProps.v
theories/CardModel.v
theories/CardSpec.v
theories/CardProofs.v
theories/CardProps.v
theories/PatModel.v
theories/PatSpec.v
theories/PatProofs.v
theories/PatProps.v
theories/RuleModel.v
theories/RuleSpec.v
theories/RuleProofs.v
theories/RuleProps.v
theories/PathModel.v
theories/PathSpec.v
theories/PathProofs.v
theories/PathProps.v
theories/LexModel.v
theories/LexSpec.v
theories/LexProofs.v
theories/LexProofs2.v
theories/LexProofs3.v
theories/LexProofs4.v
theories/LexProofs5.v
theories/LexProps.v
theories/AstModel.v
theories/AstSpec.v
theories/AstProofs.v
theories/AstProofs2.v
theories/AstProofs3.v
theories/AstProps.v
theories/RootModel.v
theories/RootSpec.v
theories/RootProofs.v
theories/RootProofs2.v
theories/RootProps.v
theories/ParseModel.v
theories/ParseSpec.v
theories/ParseProofs.v
theories/ParseProps.v
theories/SuiteModel.v
theories/SuiteSpec.v
theories/SuiteProofs.v
theories/SuiteProps.v
theories/Regex.v
theories/RegexBytes.v
theories/RegexProofs.v
theories/TextModel.v
theories/TextBytes.v
theories/CharProofs.v
theories/CharProps.v
theories/CharProofs4.v
theories/CharProofs3.v
theories/CharProofs2.v
theories/CharSpec.v
theories/RecProofs.v
theories/RecProofs2.v
theories/RecProofs3.v
theories/RecProofs4.v
theories/RecProofs5.v
theories/RecProofs6.v
theories/ListSpec.v
theories/RecProps.v
theories/ListProps.v
theories/RecSpec.v
theories/TextSpec.v
theories/TextProofs.v
theories/TextProofs2.v
theories/TextProofs3.v
theories/TextProofs4.v
theories/TextProofs5.v
theories/TextProps.v
theories/TextTokSpec.v
theories/TextTokProofs.v
theories/TextTokProofs2.v
theories/TextTokProofs3.v
theories/TextTokProofs4.v
theories/TextTokProofs5.v
theories/TextTokProps.v
theories/Utf8Spec.v
theories/Utf8Proofs.v
theories/TrimProofs.v
theories/TextRefSpec.v
theories/TextRefProofs.v
theories/TextRefProofs2.v
theories/TextRefProofs3.v
theories/TextRefProps.v
theories/AppModel.v
theories/AppSpec.v
theories/AppProofs.v
theories/AppProofs2.v
theories/AppProofs3.v
theories/AppProps.v
theories/BaseModel.v
theories/BaseSpec.v
theories/BaseProofs.v
theories/BaseProps.v
theories/EvtModel.v
theories/EvtSpec.v
theories/EvtProofs.v
theories/EvtProofs2.v
theories/EvtProofs3.v
theories/EvtProofs4.v
theories/EvtProofs5.v
theories/EvtProps.v
theories/EvtProofs6.v
theories/EvtProofs7.v
theories/EvtReadProps.v
theories/GramModel.v
theories/OrdSpec.v
theories/OrdProofs.v
theories/OrdProofs2.v
theories/OrdProps.v
theories/AdeqSpec.v
theories/AdeqProofs.v
theories/AdeqProofs2.v
theories/AdeqProofs3.v
theories/AdeqProofs4.v
theories/AdeqProofs5.v
theories/AdeqProofs6.v
theories/AdeqProps.v
theories/AdeqProofs7.v
theories/AdeqProofs8.v
theories/AdeqConfProps.v
theories/EndSpec.v
theories/EndProofs.v
theories/EndProofs2.v
theories/EndProofs3.v
theories/EndProofs4.v
theories/EndProofs5.v
theories/EndProofs6.v
theories/EndProofs7.v
theories/EndLexProps.v
theories/EndProps.v
theories/BuildModel.v
theories/BuildSpec.v
theories/BuildProofs.v
theories/BuildProps.v
theories/BuildMistakeProps.v
theories/AstNotSpec.v
theories/AstNotProofs.v
theories/AstNotProps.v
theories/LinkModel.v
theories/LinkSpec.v
theories/LinkProofs.v
theories/LinkProps.v
theories/PickSpec.v
theories/PickProofs.v
theories/PickProofs2.v
theories/PickProofs3.v
theories/PickProofs4.v
theories/PickProps.v
theories/LitProofs.v
theories/LetterProofs.v
theories/ShapeProofs.v
theories/ProgSpec.v
theories/ShapeProofs2.v
theories/ProgProofs.v
theories/ProgProofs2.v
theories/ProgProofs3.v
theories/ProgProofs4.v
theories/ProgProofs5.v
theories/ProgProofs6.v
theories/ProgProofs7.v
theories/ProgProofs8.v
theories/ProgProofs9.v
theories/ProgProofs10.v
theories/ProgProps.v
theories/CalmProps.v
theories/B64Spec.v
theories/B64Proofs.v
theories/B64Props.v
theories/KeyModel.v
theories/KeySpec.v
theories/KeyProps.v
theories/LitSpec.v
theories/LitProofs2.v
theories/LitProofs3.v
theories/LitProofs4.v
theories/LitProps.v
theories/AsgSpec.v
theories/AsgProofs.v
theories/AsgProofs2.v
theories/AsgProofs3.v
theories/AsgProofs4.v
theories/AsgProofs5.v
theories/AsgProofs6.v
theories/AsgProofs7.v
theories/AsgProps.v
theories/PartModel.v
theories/PartProofs.v
theories/PartProps.v
theories/SpellSpec.v
theories/SpellProofs.v
theories/SpellProofs2.v
theories/SpellProps.v
theories/SureTree.v
theories/SureProofs.v
theories/SureRoots.v
theories/SureChecks.v
theories/SureShipped.v
theories/SureRooted.v
theories/SureProps.v
