*.lia.cache
.lia.cache
.nia.cache
rocq/Makefile
rocq/Makefile.conf
*.vo
*.vos
*.vok
*.glob
*.aux
*.d
