-Q theories Verif
theories/Base/Str.v
theories/Base/Dict.v
theories/Base/Sort.v
theories/Base/StrFacts.v
theories/Base/DictFacts.v
theories/Base/SortFacts.v
theories/Base/Result.v
theories/Base/ListFacts.v
theories/Model/ListUtils.v
theories/Model/DictUtils.v
theories/Model/Attributes.v
theories/Spec/ListUtils.v
theories/Proof/ListUtils.v
theories/Props/ListUtils.v
theories/Spec/DictUtils.v
theories/Props/DictUtils.v
theories/Spec/Attributes.v
theories/Proof/Attributes.v
theories/Props/Attributes.v
theories/Base/PyText.v
theories/Model/StringUtils.v
theories/Spec/StringUtils.v
theories/Proof/StringUtils.v
theories/Props/StringUtils.v
theories/Base/PyTextFacts.v
theories/Model/StrToDict.v
theories/Spec/StrToDict.v
theories/Proof/StrToDict.v
theories/Props/StrToDict.v
theories/Model/Macros.v
theories/Spec/Macros.v
theories/Proof/Macros.v
theories/Props/Macros.v
theories/Model/Signals.v
theories/Spec/Signals.v
theories/Props/Signals.v
theories/Model/Labels.v
theories/Spec/Labels.v
theories/Proof/Labels.v
theories/Props/Labels.v
theories/Model/TagParser.v
theories/Spec/TagParser.v
theories/Proof/TagParser.v
theories/Props/TagParser.v
theories/Model/Paragraphs.v
theories/Spec/Paragraphs.v
theories/Proof/Paragraphs.v
theories/Props/Paragraphs.v
theories/Model/TagTree.v
theories/Spec/TagTree.v
theories/Proof/TagTree.v
theories/Props/TagTree.v
theories/Model/Width.v
theories/Spec/Width.v
theories/Props/Width.v
theories/Model/Context.v
theories/Spec/Context.v
theories/Proof/Context.v
theories/Proof/ContextTags.v
theories/Props/Context.v
theories/Base/PurePath.v
theories/Model/Hash.v
theories/Model/Decider.v
theories/Spec/Hash.v
theories/Spec/Decider.v
theories/Proof/Hash.v
theories/Props/Hash.v
theories/Proof/Decider.v
theories/Props/Decider.v
theories/Model/Builders.v
theories/Spec/Builders.v
theories/Proof/Builders.v
theories/Props/Builders.v
theories/Model/FindBuilder.v
theories/Spec/FindBuilder.v
theories/Props/FindBuilder.v
theories/Model/Paths.v
theories/Spec/Paths.v
theories/Proof/Paths.v
theories/Props/Paths.v
theories/Model/DocTree.v
theories/Spec/DocTree.v
theories/Proof/DocTree.v
theories/Props/DocTree.v
theories/Model/Navigation.v
theories/Spec/Navigation.v
theories/Proof/Navigation.v
theories/Props/Navigation.v
theories/Model/Toc.v
theories/Spec/Toc.v
theories/Props/Toc.v
theories/Model/ListTag.v
theories/Model/XhtmlList.v
theories/Spec/ListTag.v
theories/Proof/ListTag.v
theories/Proof/XhtmlList.v
theories/Props/ListTag.v
theories/Model/Table.v
theories/Spec/Table.v
theories/Proof/Table.v
theories/Props/Table.v
theories/Model/Formats.v
theories/Spec/Formats.v
theories/Proof/Formats.v
theories/Props/Formats.v
theories/Model/Environment.v
theories/Spec/Environment.v
theories/Props/Environment.v
theories/Model/Checkers.v
theories/Spec/Checkers.v
theories/Proof/Checkers.v
theories/Props/Checkers.v
theories/Model/Scanner.v
theories/Spec/Scanner.v
theories/Proof/Scanner.v
theories/Props/Scanner.v
theories/Model/Typography.v
theories/Spec/Typography.v
theories/Proof/Typography.v
theories/Props/Typography.v
theories/Model/Authors.v
theories/Spec/Authors.v
theories/Proof/Authors.v
theories/Props/Authors.v
theories/Model/Headers.v
theories/Spec/Headers.v
theories/Proof/Headers.v
theories/Props/Headers.v
theories/Model/Render.v
theories/Spec/Render.v
theories/Props/Render.v
theories/Model/DocContext.v
theories/Spec/DocContext.v
theories/Props/DocContext.v
theories/Model/Ref.v
theories/Spec/Ref.v
theories/Props/Ref.v
theories/Model/AutoLabels.v
theories/Spec/AutoLabels.v
theories/Props/AutoLabels.v
theories/Model/Chain.v
theories/Spec/Chain.v
theories/Props/Chain.v
theories/Model/Commands.v
theories/Spec/Commands.v
theories/Props/Commands.v
theories/Model/TargetBuilders.v
theories/Spec/TargetBuilders.v
theories/Props/TargetBuilders.v
theories/Model/Epub.v
theories/Spec/Epub.v
theories/Props/Epub.v
theories/Model/TexFmt.v
theories/Spec/TexFmt.v
theories/Props/TexFmt.v
theories/Model/HtmlFmt.v
theories/Spec/HtmlFmt.v
theories/Props/HtmlFmt.v
theories/Model/Starters.v
theories/Spec/Starters.v
theories/Props/Starters.v
theories/Model/Server.v
theories/Spec/Server.v
theories/Props/Server.v
theories/Model/Images.v
theories/Spec/Images.v
theories/Props/Images.v
theories/Model/LabelTags.v
theories/Spec/LabelTags.v
theories/Props/LabelTags.v
theories/Model/Links.v
theories/Spec/Links.v
theories/Props/Links.v
theories/Model/TagCreation.v
theories/Spec/TagCreation.v
theories/Proof/TagCreation.v
theories/Props/TagCreation.v
theories/Model/TocFmt.v
theories/Spec/TocFmt.v
theories/Props/TocFmt.v
theories/Model/DocLabels.v
theories/Spec/DocLabels.v
theories/Props/DocLabels.v
theories/Props/DocTitles.v
theories/Model/RefDeps.v
theories/Spec/RefDeps.v
theories/Props/RefDeps.v
theories/Model/RewritePath.v
theories/Spec/RewritePath.v
theories/Props/RewritePath.v
theories/Model/Classes.v
theories/Spec/Classes.v
theories/Props/Classes.v
theories/Model/WeakAttr.v
theories/Spec/WeakAttr.v
theories/Props/WeakAttr.v
theories/Model/LinkCopy.v
theories/Spec/LinkCopy.v
theories/Props/LinkCopy.v
theories/Model/CliBuild.v
theories/Spec/CliBuild.v
theories/Props/CliBuild.v
theories/Model/Captions.v
theories/Spec/Captions.v
theories/Props/Captions.v
theories/Model/SignalList.v
theories/Spec/SignalList.v
theories/Props/SignalList.v
theories/Model/TagEq.v
theories/Spec/TagEq.v
theories/Props/TagEq.v
theories/Model/Panel.v
theories/Spec/Panel.v
theories/Props/Panel.v
theories/Model/LabelOrder.v
theories/Spec/LabelOrder.v
theories/Props/LabelOrder.v
theories/Props/Audit.v
